(** Lemmas about the start of a run. *)
From Coq Require Import List ZArith Reals Bool Arith Lia Lra.
Import ListNotations.
From Verif Require Import GridModel GridProofs NumModel BCModel P2GModel P2GProofs AdvModel AdvProofs FlagModel SurfModel SurfProofs InitModel.
Local Open Scope R_scope.

(** ** Loops over all nodes *)
Lemma each_row n1 (f : nat -> nat -> nat -> R -> R) : forall l n a, (n <= n1)%nat ->
  let a' := loop 0 n (fun a k => let c := (k + l * n1)%nat in upd a c (f k l c (a c))) a in
  (forall k, (k < n)%nat -> a' (k + l * n1)%nat = f k l (k + l * n1)%nat (a (k + l * n1)%nat)) /\
  (forall c, (c < l * n1 \/ n + l * n1 <= c)%nat -> a' c = a c).
Proof.
  intros l n a. induction n as [|n IH]; intro N; cbv zeta.
  - split; [lia|]. reflexivity.
  - specialize (IH ltac:(lia)). cbv zeta in IH. change (Datatypes.S n) with (1 + n)%nat. rewrite loop_S. cbn [Nat.add]. cbv zeta.
    set (a1 := loop 0 n _ a) in *. clearbody a1. destruct IH as [A B]. split.
    + intros k K. destruct (Nat.eq_dec k n) as [->|Q].
      * rewrite upd_same, B by lia. reflexivity.
      * rewrite upd_other by lia. apply A. lia.
    + intros c C. rewrite upd_other by lia. apply B. lia.
Qed.

Lemma each_node_rows n1 f : forall n2 a,
  let a' := each_node n1 n2 f a in
  (forall k l, (k < n1)%nat -> (l < n2)%nat -> a' (k + l * n1)%nat = f k l (k + l * n1)%nat (a (k + l * n1)%nat)) /\
  (forall c, (n2 * n1 <= c)%nat -> a' c = a c).
Proof.
  intros n2 a. unfold each_node. induction n2 as [|n2 IH]; cbv zeta; [split; [lia|reflexivity]|].
  cbv zeta in IH. change (Datatypes.S n2) with (1 + n2)%nat. rewrite loop_S. cbn [Nat.add].
  set (a1 := loop 0 n2 _ a) in *. clearbody a1. destruct IH as [A B].
  destruct (each_row n1 f n2 n1 a1 (le_n _)) as [P Q]. cbv zeta in P, Q.
  set (a2 := loop 0 n1 _ a1) in *. clearbody a2. split.
  - intros k l K L. destruct (Nat.eq_dec l n2) as [->|N].
    + rewrite P, B by (auto; nia). reflexivity.
    + rewrite Q by (left; nia). apply A; lia.
  - intros c C. rewrite Q by (right; nia). apply B. nia.
Qed.

Lemma each_node_at n1 n2 f a k l : (k < n1)%nat -> (l < n2)%nat ->
  each_node n1 n2 f a (k + l * n1)%nat = f k l (k + l * n1)%nat (a (k + l * n1)%nat).
Proof. intros. now apply (each_node_rows n1 f n2 a). Qed.

(** ** The smallest ratio *)
Lemma min_maxwell_spec n tag eta mu :
  let m := min_maxwell n tag eta mu in
  m <= 10 ^ 100 /\
  (forall k, (k < n)%nat -> tag k <> 30%Z -> mu k <> 0 -> m <= eta k / mu k) /\
  (m = 10 ^ 100 \/ exists k, (k < n)%nat /\ tag k <> 30%Z /\ mu k <> 0 /\ m = eta k / mu k).
Proof.
  cbv zeta. unfold min_maxwell. induction n as [|n IH].
  - cbn. split; [lra|]. split; [lia|now left].
  - change (Datatypes.S n) with (1 + n)%nat. rewrite loop_S. cbn [Nat.add]. set (m := loop 0 n _ _) in *. clearbody m.
    destruct IH as (A & B & C).
    destruct (Z.eqb_spec (tag n) 30) as [T|T]; cbn [negb].
    { split; [exact A|]. split.
      - intros k K. destruct (Nat.eq_dec k n) as [->|]; [contradiction|]. apply B; lia.
      - destruct C as [C|(k & K & C)]; [now left|right; exists k; split; [lia|exact C]]. }
    destruct (Req_EM_T (mu n) 0) as [M|M].
    { split; [exact A|]. split.
      - intros k K. destruct (Nat.eq_dec k n) as [->|]; [contradiction|]. apply B; lia.
      - destruct C as [C|(k & K & C)]; [now left|right; exists k; split; [lia|exact C]]. }
    destruct (Rlt_dec (eta n / mu n) m) as [L|L].
    + split; [lra|]. split.
      * intros k K T1 M1. destruct (Nat.eq_dec k n) as [->|]; [lra|]. specialize (B k ltac:(lia) T1 M1). lra.
      * right. exists n. repeat split; auto; lia.
    + split; [exact A|]. split.
      * intros k K T1 M1. destruct (Nat.eq_dec k n) as [->|]; [lra|]. apply B; auto; lia.
      * destruct C as [C|(k & K & C)]; [now left|right; exists k; split; [lia|exact C]].
Qed.

(** ** The chain *)
Lemma sum_app_ l1 l2 : sum (l1 ++ l2) = sum l1 + sum l2.
Proof. unfold sum. induction l1 as [|a l1 IH]; cbn; [lra|rewrite IH; lra]. Qed.

Lemma sum_blocks (g : nat -> R) m : forall n,
  sum (map g (seq 0 (n * m))) = sum (map (fun i => sum (map (fun j => g (i * m + j)%nat) (seq 0 m))) (seq 0 n)).
Proof.
  induction n as [|n IH]; [reflexivity|].
  replace (Datatypes.S n * m)%nat with (n * m + m)%nat by lia. rewrite seq_app, map_app, sum_app_, IH, seq_S, map_app, sum_app_.
  f_equal. cbn [Nat.add map]. unfold sum at 2. cbn [fold_right]. rewrite Rplus_0_r. f_equal.
  assert (Q : forall b s, map g (seq (n * m + s) b) = map (fun j => g (n * m + j)%nat) (seq s b)).
  { induction b as [|b IHb]; intros s; [reflexivity|]. cbn [seq map]. f_equal. rewrite <- IHb. f_equal. f_equal. lia. }
  specialize (Q m 0%nat). rewrite Nat.add_0_r in Q. exact Q.
Qed.

Lemma sum_single (g : nat -> R) c : forall n, (c < n)%nat -> (forall i, i <> c -> g i = 0) -> sum (map g (seq 0 n)) = g c.
Proof.
  induction n as [|n IH]; intros C Z; [lia|]. rewrite seq_S, map_app, sum_app_. cbn [Nat.add map].
  unfold sum at 2. cbn [fold_right].
  destruct (Nat.eq_dec c n) as [->|N].
  - rewrite Rplus_0_r. replace (sum (map g (seq 0 n))) with 0; [lra|].
    assert (Q : forall b, (b <= n)%nat -> sum (map g (seq 0 b)) = 0).
    { induction b as [|b IHb]; intro B; [reflexivity|]. rewrite seq_S, map_app, sum_app_, IHb by lia. cbn. rewrite (Z b) by lia. lra. }
    symmetry. now apply Q.
  - rewrite IH by (auto; lia). rewrite (Z n) by lia. lra.
Qed.

(** Position of marker [j] of column [i]. *)
Lemma chain_x ncx xmin dx i j :
  chx (chain_start ncx xmin dx) (i * 23 + j) = xmin + (INR i + (INR j + / 2) / 23) * dx.
Proof. cbn [chx chain_start]. rewrite plus_INR, mult_INR. replace (INR 23) with 23 by (cbn; lra). field. Qed.

Lemma chain_column ncx xmin dx i j : dx > 0 -> (j < 23)%nat ->
  column_raw (xmin + dx / 2) dx (chx (chain_start ncx xmin dx) (i * 23 + j)) = Z.of_nat i.
Proof.
  intros D J. rewrite chain_x. set (x := xmin + _ * dx).
  pose proof (column_raw_spec (xmin + dx / 2) dx x D) as S. cbv zeta in S. set (c := column_raw _ _ _) in *.
  assert (J1 : 0 <= INR j <= 22) by (split; [apply pos_INR|replace 22 with (INR 22) by (cbn; lra); apply le_INR; lia]).
  assert (F : 0 < (INR j + / 2) / 23 < 1) by lra.
  set (f := (INR j + / 2) / 23) in *. clearbody f. unfold x in S. clearbody c. clear J1.
  assert (c <= Z.of_nat i)%Z.
  { assert (IZR c < IZR (Z.of_nat i + 1)); [|apply lt_IZR in H; lia]. rewrite plus_IZR, <- INR_IZR_INZ. apply Rmult_lt_reg_r with dx; nra. }
  assert (Z.of_nat i <= c)%Z; [|lia].
  assert (IZR (Z.of_nat i) < IZR (c + 1)); [|apply lt_IZR in H0; lia]. rewrite plus_IZR, <- INR_IZR_INZ. apply Rmult_lt_reg_r with dx; nra.
Qed.
