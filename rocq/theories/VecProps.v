(** * C95: vectors and matrices handed to and taken back from the linear solver *)
From Coq Require Import List ZArith Reals Bool Arith Lia Lra.
Import ListNotations.
From Verif Require Import GridModel GridProofs NumModel NumProofs NumProps VecModel.
Local Open Scope nat_scope.

(** ** Lemmas *)
Lemma guess_spec sel ty a n i0 x :
  let s := loop 0 n (guess_step sel ty a) (i0, x) in
  fst s = i0 + count (fun c => sel (ty c)) n
  /\ (forall c, c < n -> sel (ty c) = true -> snd s (i0 + count (fun c => sel (ty c)) c) = a c)
  /\ (forall j, j < i0 -> snd s j = x j).
Proof.
  set (q := fun c => sel (ty c)).
  pose proof (loop_ind (fun m (s : nat * (nat -> R)) => fst s = i0 + count q m /\ (forall c, c < m -> q c = true -> snd s (i0 + count q c) = a c) /\ (forall j, j < i0 -> snd s j = x j))
    (guess_step sel ty a) n 0 (i0, x)) as L. cbv zeta. apply L; clear L.
  - cbn [fst snd count]. split; [lia|]. split; [lia|reflexivity].
  - intros m [i y] Hm (H1 & H2 & H3). cbn [fst snd] in *. rewrite count_S. unfold guess_step. change (sel (ty m)) with (q m). destruct (q m) eqn:Q; cbn [fst snd].
    + split; [lia|]. split.
      * intros c Hc Qc. destruct (Nat.eq_dec c m) as [->|NE]; [rewrite H1; apply upd_same|]. rewrite upd_other; [apply H2; [lia|exact Qc]|]. rewrite H1. pose proof (count_lt q c m ltac:(lia) Qc). lia.
      * intros j Hj. rewrite upd_other by lia. apply H3. exact Hj.
    + split; [lia|]. split; [|exact H3]. intros c Hc Qc. apply H2; [|exact Qc]. destruct (Nat.eq_dec c m) as [->|]; [congruence|lia].
Qed.
Lemma back_spec sel ty src n i0 t0 x :
  let s := loop 0 n (back_step sel ty src) (i0, t0, x) in
  fst s = (i0 + count (fun c => sel (ty c)) n, t0 + count (fun c => sel (ty c)) n)
  /\ (forall c, c < n -> sel (ty c) = true -> snd s (t0 + count (fun c => sel (ty c)) c) = src (i0 + count (fun c => sel (ty c)) c))
  /\ (forall j, j < t0 -> snd s j = x j).
Proof.
  set (q := fun c => sel (ty c)).
  pose proof (loop_ind (fun m (s : nat * nat * (nat -> R)) => fst s = (i0 + count q m, t0 + count q m) /\ (forall c, c < m -> q c = true -> snd s (t0 + count q c) = src (i0 + count q c)) /\ (forall j, j < t0 -> snd s j = x j))
    (back_step sel ty src) n 0 (i0, t0, x)) as L. cbv zeta. apply L; clear L.
  - cbn [fst snd count]. split; [f_equal; lia|]. split; [lia|reflexivity].
  - intros m [[i r] y] Hm (H1 & H2 & H3). cbn [fst snd] in *. rewrite count_S. unfold back_step. change (sel (ty m)) with (q m). inversion H1; subst i r. destruct (q m) eqn:Q; cbn [fst snd].
    + split; [f_equal; lia|]. split.
      * intros c Hc Qc. destruct (Nat.eq_dec c m) as [->|NE]; [apply upd_same|]. rewrite upd_other; [apply H2; [lia|exact Qc]|]. pose proof (count_lt q c m ltac:(lia) Qc). lia.
      * intros j Hj. rewrite upd_other by lia. apply H3. exact Hj.
    + split; [f_equal; lia|]. split; [|exact H3]. intros c Hc Qc. apply H2; [|exact Qc]. destruct (Nat.eq_dec c m) as [->|]; [congruence|lia].
Qed.

Lemma count_ext p q n : (forall c, c < n -> p c = q c) -> count p n = count q n.
Proof. induction n as [|n IH]; intros H; [reflexivity|]. cbn [count]. rewrite IH, (H n) by (intros; apply H || idtac; lia). reflexivity. Qed.

Section Transfer.
  Variables (Nx Nz : nat) (t : types) (eu0 ev0 ep0 : nat -> Z).
  Hypothesis Hx : 2 <= Nx.
  Hypothesis Hper : periodic_east Nx Nz t.
  Hypothesis Hdoc : documented Nx Nz t.
  Notation s := (number Nx Nz t eu0 ev0 ep0).
  Lemma sel_u c : c < (Nz + 1) * Nx -> upd_uv (tu t c) = pu t c.
  Proof using Hdoc. clear Hx Hper. intros H. apply C29_predicates_agree_exactly_on_documented_codes, Hdoc, H. Qed.
  Lemma sel_v c : c < Nz * (Nx + 1) -> upd_uv (tv t c) = pv t c.
  Proof using Hdoc. clear Hx Hper. intros H. apply C29_predicates_agree_exactly_on_documented_codes, Hdoc, H. Qed.
  Lemma sel_p c : c < (Nz - 1) * (Nx - 1) -> upd_p (tp t c) = pp t c.
  Proof using Hdoc. clear Hx Hper. intros H. apply C29_predicates_agree_exactly_on_documented_codes, Hdoc, H. Qed.
  Lemma cu c : c <= (Nz + 1) * Nx -> count (fun c => upd_uv (tu t c)) c = count (pu t) c.
  Proof using Hdoc. clear Hx Hper. intros H. apply count_ext. intros d Hd. apply sel_u. lia. Qed.
  Lemma cv c : c <= Nz * (Nx + 1) -> count (fun c => upd_uv (tv t c)) c = count (pv t) c.
  Proof using Hdoc. clear Hx Hper. intros H. apply count_ext. intros d Hd. apply sel_v. lia. Qed.
  Lemma cp c : c <= (Nz - 1) * (Nx - 1) -> count (fun c => upd_p (tp t c)) c = count (pp t) c.
  Proof using Hdoc. clear Hx Hper. intros H. apply count_ext. intros d Hd. apply sel_p. lia. Qed.
  Lemma eqn_at n : on_grid Nx Nz n -> unknown_node t n ->
    equation s n = match n with U c => Z.of_nat (count (pu t) c) | V c => Z.of_nat (nu Nx Nz t + count (pv t) c) | P c => Z.of_nat (nu Nx Nz t + nv Nx Nz t + count (pp t) c) end.
  Proof using Hx Hper.
    intros G F. destruct (number_spec Nx Nz t eu0 ev0 ep0 Hx Hper) as (_ & _ & _ & EU & EV & EP). destruct n as [c|c|c]; cbn [on_grid unknown_node equation] in *.
    - apply num_u_in in F. apply (EU c G). exact F.
    - apply num_v_in in F. rewrite (EV c G). unfold pv at 1. rewrite F. reflexivity.
    - apply num_p_in in F. rewrite (EP c G). unfold pp at 1. rewrite F. reflexivity.
  Qed.
  Lemma mom_at : neq_mom s = Z.of_nat (nu Nx Nz t + nv Nx Nz t).
  Proof using Hx Hper. apply (number_spec Nx Nz t eu0 ev0 ep0 Hx Hper). Qed.
End Transfer.

(** ** Theorems *)
(** the solution goes back to exactly the unknown it was computed for *)
Theorem C95_solution_goes_back Nx Nz t eu0 ev0 ep0 u p x n : 2 <= Nx -> periodic_east Nx Nz t -> documented Nx Nz t ->
  on_grid Nx Nz n -> unknown_node t n ->
  let s := number Nx Nz t eu0 ev0 ep0 in
  back Nx Nz t u p x (Z.to_nat (equation s n))
  = match n with P _ => p (Z.to_nat (equation s n - neq_mom s)) | _ => u (Z.to_nat (equation s n)) end.
Proof.
  intros Hx Hper Hdoc G F s. unfold s. rewrite (eqn_at Nx Nz t eu0 ev0 ep0 Hx Hper n G F), (mom_at Nx Nz t eu0 ev0 ep0 Hx Hper).
  unfold back. rewrite !loop_nest. destruct (back_spec upd_uv (tu t) u ((Nz + 1) * Nx) 0 0 x) as (A1 & A2 & _).
  set (s1 := loop 0 ((Nz + 1) * Nx) _ _) in *. destruct s1 as [[i1 t1] x1]. cbn [fst snd] in A1, A2. rewrite !Nat.add_0_l, (cu Nx Nz t Hdoc) in A1 by lia. fold (nu Nx Nz t) in A1. inversion A1; subst i1 t1. clear A1.
  destruct (back_spec upd_uv (tv t) u (Nz * (Nx + 1)) (nu Nx Nz t) (nu Nx Nz t) x1) as (B1 & B2 & B3).
  set (s2 := loop 0 (Nz * (Nx + 1)) _ _) in *. destruct s2 as [[i2 t2] x2]. cbn [fst snd] in B1, B2, B3 |- *. rewrite (cv Nx Nz t Hdoc) in B1 by lia. fold (nv Nx Nz t) in B1. inversion B1; subst i2 t2. clear B1.
  destruct (back_spec num_p (tp t) p ((Nz - 1) * (Nx - 1)) 0 (nu Nx Nz t + nv Nx Nz t) x2) as (_ & C2 & C3).
  set (s3 := loop 0 ((Nz - 1) * (Nx - 1)) _ _) in *. change (fun c => num_p (tp t c)) with (pp t) in *.
  destruct n as [c|c|c]; cbn [on_grid unknown_node] in *.
  - apply num_u_in in F. rewrite Nat2Z.id. assert (L : count (pu t) c < nu Nx Nz t) by (apply count_lt; assumption).
    rewrite C3, B3 by lia. specialize (A2 c G). rewrite (sel_u Nx Nz t Hdoc c G) in A2. specialize (A2 F). rewrite !Nat.add_0_l, (cu Nx Nz t Hdoc c) in A2 by lia. exact A2.
  - apply num_v_in in F. rewrite Nat2Z.id. assert (L : count (pv t) c < nv Nx Nz t) by (apply count_lt; assumption).
    rewrite C3 by lia. specialize (B2 c G). rewrite (sel_v Nx Nz t Hdoc c G) in B2. specialize (B2 F). rewrite (cv Nx Nz t Hdoc c) in B2 by lia. exact B2.
  - apply num_p_in in F. rewrite Nat2Z.id. rewrite C2 by assumption. f_equal. change (fun c => num_p (tp t c)) with (pp t). lia.
Qed.
Print Assumptions C95_solution_goes_back.

(** the initial guess holds the current horizontal velocity and pressure of every unknown *)
Theorem C95_guess Nx Nz t eu0 ev0 ep0 f u0 p0 n : 2 <= Nx -> periodic_east Nx Nz t -> documented Nx Nz t ->
  on_grid Nx Nz n -> unknown_node t n ->
  let s := number Nx Nz t eu0 ev0 ep0 in
  match n with
  | U c => guess_mom Nx Nz t f u0 (Z.to_nat (equation s n)) = u_in f c
  | P c => guess_cont Nx Nz t f p0 (Z.to_nat (equation s n - neq_mom s)) = p_in f c
  | V _ => True
  end.
Proof.
  intros Hx Hper Hdoc G F s. unfold s. rewrite (eqn_at Nx Nz t eu0 ev0 ep0 Hx Hper n G F), (mom_at Nx Nz t eu0 ev0 ep0 Hx Hper). destruct n as [c|c|c]; [|exact I|]; cbn [on_grid unknown_node] in *.
  - apply num_u_in in F. rewrite Nat2Z.id. unfold guess_mom. rewrite !loop_nest. destruct (guess_spec upd_uv (tu t) (u_in f) ((Nz + 1) * Nx) 0 u0) as (A1 & A2 & _).
    set (s1 := loop 0 ((Nz + 1) * Nx) _ _) in *. destruct s1 as [i1 x1]. cbn [fst snd] in A1, A2. rewrite Nat.add_0_l, (cu Nx Nz t Hdoc) in A1 by lia. fold (nu Nx Nz t) in A1. subst i1.
    destruct (guess_spec upd_uv (tv t) (u_in f) (Nz * (Nx + 1)) (nu Nx Nz t) x1) as (_ & _ & B3). rewrite B3 by (apply count_lt; assumption).
    specialize (A2 c G). rewrite (sel_u Nx Nz t Hdoc c G) in A2. specialize (A2 F). rewrite Nat.add_0_l, (cu Nx Nz t Hdoc c) in A2 by lia. exact A2.
  - apply num_p_in in F. unfold guess_cont. rewrite !loop_nest. destruct (guess_spec upd_p (tp t) (p_in f) ((Nz - 1) * (Nx - 1)) 0 p0) as (_ & C2 & _).
    specialize (C2 c G). rewrite (sel_p Nx Nz t Hdoc c G) in C2. specialize (C2 F). rewrite Nat.add_0_l, (cp Nx Nz t Hdoc c) in C2 by lia. rewrite <- C2. f_equal. lia.
Qed.
Print Assumptions C95_guess.

(** for the vertical velocity it holds an entry of the horizontal velocity instead *)
Theorem C95_guess_vertical_refuted Nx Nz t eu0 ev0 ep0 f u0 c : 2 <= Nx -> periodic_east Nx Nz t -> documented Nx Nz t ->
  on_grid Nx Nz (V c) -> unknown_node t (V c) ->
  guess_mom Nx Nz t f u0 (Z.to_nat (equation (number Nx Nz t eu0 ev0 ep0) (V c))) = u_in f c
  /\ (u_in f c <> v_in f c -> guess_mom Nx Nz t f u0 (Z.to_nat (equation (number Nx Nz t eu0 ev0 ep0) (V c))) <> v_in f c).
Proof.
  intros Hx Hper Hdoc G F. assert (E : guess_mom Nx Nz t f u0 (Z.to_nat (equation (number Nx Nz t eu0 ev0 ep0) (V c))) = u_in f c); [|rewrite E; auto].
  rewrite (eqn_at Nx Nz t eu0 ev0 ep0 Hx Hper (V c) G F). cbn [on_grid unknown_node] in *. apply num_v_in in F. rewrite Nat2Z.id. unfold guess_mom. rewrite !loop_nest.
  destruct (guess_spec upd_uv (tu t) (u_in f) ((Nz + 1) * Nx) 0 u0) as (A1 & _ & _).
  set (s1 := loop 0 ((Nz + 1) * Nx) _ _) in *. destruct s1 as [i1 x1]. cbn [fst snd] in A1. rewrite Nat.add_0_l, (cu Nx Nz t Hdoc) in A1 by lia. fold (nu Nx Nz t) in A1. subst i1.
  destruct (guess_spec upd_uv (tv t) (u_in f) (Nz * (Nx + 1)) (nu Nx Nz t) x1) as (_ & B2 & _). specialize (B2 c G). rewrite (sel_v Nx Nz t Hdoc c G) in B2. specialize (B2 F). rewrite (cv Nx Nz t Hdoc c) in B2 by lia. exact B2.
Qed.
Print Assumptions C95_guess_vertical_refuted.

(** and in a tall narrow box it is read from outside the array: the topmost inner node next to the east side *)
Theorem C95_guess_bounds_refuted Nx Nz t : 2 <= Nx -> 2 * Nx + 3 <= Nz ->
  let c := Nx - 1 + (Nz - 2) * (Nx + 1) in
  unknown_node t (V c) -> In c (guess_reads Nx Nz t) /\ Nx * (Nz + 1) <= c.
Proof.
  intros Hx Hz c F. split; [|unfold c; nia]. apply in_or_app. right. apply filter_In. split; [apply in_seq; unfold c; nia|].
  cbn [unknown_node] in F. cbn [In] in F. destruct F as [F|[F|[]]]; rewrite <- F; reflexivity.
Qed.
Print Assumptions C95_guess_bounds_refuted.
Theorem C95_guess_bounds Nx Nz t c : Nz <= Nx -> In c (guess_reads Nx Nz t) -> c < Nx * (Nz + 1).
Proof.
  intros Hz H. apply in_app_or in H. destruct H as [H|H]; apply filter_In in H; destruct H as [H _]; apply in_seq in H; nia.
Qed.
Print Assumptions C95_guess_bounds.

(** the row numbers given to the factorisation are the rows of the assembled matrix *)
Definition rows_of (size : nat) (Ic : nat -> nat) (k i : nat) : Prop := i < size /\ Ic i <= k < Ic (i + 1).
Theorem C95_rows size Ic rows k i : Ic 0 = 0 -> (forall j, j < size -> Ic j <= Ic (j + 1)) -> rows_of size Ic k i -> triplet_rows size Ic rows k = i.
Proof.
  intros H0 HM (Hi & Hk). unfold triplet_rows.
  assert (Mono : forall a b, a <= b -> b <= size -> Ic a <= Ic b).
  { intros a b Hab. induction Hab as [|b Hab IH]; intros Hb; [lia|]. specialize (IH ltac:(lia)). specialize (HM b ltac:(lia)). replace (b + 1) with (S b) in HM by lia. lia. }
  set (body := fun s k => _).
  pose proof (loop_ind (fun k (s : nat * nat * (nat -> nat)) => fst s = (Ic (k - 1), k - 1) /\ forall j q, j < k - 1 -> Ic j <= q < Ic (j + 1) -> snd s q = j)
    body size 1 (0, 0, upd rows 0 0)) as L.
  assert (X : fst (loop 1 size body (0, 0, upd rows 0 0)) = (Ic (1 + size - 1), 1 + size - 1) /\ forall j q, j < 1 + size - 1 -> Ic j <= q < Ic (j + 1) -> snd (loop 1 size body (0, 0, upd rows 0 0)) q = j).
  { apply L; clear L.
    - cbn [fst snd Nat.sub]. split; [rewrite H0; reflexivity|lia].
    - intros k0 [[m p] r] Hk0 (E1 & E2). cbn [fst snd] in *. inversion E1; subst m p. unfold body. cbn [fst snd].
      assert (Hm : Ic (k0 - 1) <= Ic k0) by (specialize (HM (k0 - 1) ltac:(lia)); replace (k0 - 1 + 1) with k0 in HM by lia; exact HM).
      split; [f_equal; [replace (1 + k0 - 1) with k0 by lia; lia|lia]|].
      assert (W : forall n r q, loop 0 n (fun r l => upd r (Ic (k0 - 1) + l) (k0 - 1)) r q = if (Ic (k0 - 1) <=? q) && (q <? Ic (k0 - 1) + n) then k0 - 1 else r q).
      { clear. intros n r q. induction n as [|n IH].
        - unfold loop. cbn [seq fold_left]. rewrite Nat.add_0_r. destruct (Nat.leb_spec (Ic (k0 - 1)) q), (Nat.ltb_spec q (Ic (k0 - 1))); try lia; reflexivity.
        - replace (S n) with (n + 1) by lia. rewrite loop_split. cbn [Nat.add]. unfold loop at 1. cbn [seq fold_left]. unfold upd at 1. rewrite IH.
          destruct (Nat.eqb_spec q (Ic (k0 - 1) + n)) as [->|NE].
          + rewrite (proj2 (Nat.leb_le _ _)), (proj2 (Nat.ltb_lt _ _)) by lia. reflexivity.
          + destruct (Nat.leb_spec (Ic (k0 - 1)) q), (Nat.ltb_spec q (Ic (k0 - 1) + n)), (Nat.ltb_spec q (Ic (k0 - 1) + (n + 1))); try lia; reflexivity. }
      intros j q Hj Hq. rewrite W. destruct (Nat.eq_dec j (k0 - 1)) as [->|NE].
      + replace (k0 - 1 + 1) with k0 in Hq by lia. rewrite (proj2 (Nat.leb_le _ _)), (proj2 (Nat.ltb_lt _ _)) by lia. reflexivity.
      + assert (Lq : q < Ic (k0 - 1)) by (pose proof (Mono (j + 1) (k0 - 1) ltac:(lia) ltac:(lia)); lia).
        rewrite (proj2 (Nat.leb_gt _ _) Lq). cbn [andb]. apply E2; [lia|exact Hq]. }
  destruct X as [_ X]. apply X; [lia|exact Hk].
Qed.
Print Assumptions C95_rows.

(** case: the laterally periodic 3 x 3 grid of C28 with one air cell *)
Example C95_ex : (forall x, map (back 3 3 ex_types (fun i => INR (10 + i)) (fun i => INR (20 + i)) x) [0; 5; 6; 8] = map INR [10; 15; 20; 22])
  /\ triplet_rows 3 (fun i => nth i [0; 2; 2; 5] 0) (fun _ => 9) 3 = 2
  /\ documented 3 3 ex_types /\ on_grid 3 3 (V 5) /\ unknown_node ex_types (V 5).
Proof.
  split; [|split; [reflexivity|split; [exact C29_documented_ex|split; [cbn; lia|vm_compute; auto]]]].
  intros x. assert (H : forall n, on_grid 3 3 n -> unknown_node ex_types n -> back 3 3 ex_types (fun i => INR (10 + i)) (fun i => INR (20 + i)) x (Z.to_nat (equation (number 3 3 ex_types (fun _ => 7%Z) (fun _ => 7%Z) (fun _ => 7%Z)) n))
    = match n with P _ => INR (20 + Z.to_nat (equation (number 3 3 ex_types (fun _ => 7%Z) (fun _ => 7%Z) (fun _ => 7%Z)) n - 6)) | _ => INR (10 + Z.to_nat (equation (number 3 3 ex_types (fun _ => 7%Z) (fun _ => 7%Z) (fun _ => 7%Z)) n)) end).
  { intros n G F. rewrite (C95_solution_goes_back 3 3 ex_types (fun _ => 7%Z) (fun _ => 7%Z) (fun _ => 7%Z) _ _ x n); [|lia|apply C28_types_ex|apply C29_documented_ex|exact G|exact F]. destruct n; reflexivity. }
  pose proof (H (U 3) ltac:(cbn; lia) ltac:(vm_compute; auto)) as A. pose proof (H (V 6) ltac:(cbn; lia) ltac:(vm_compute; auto)) as B.
  pose proof (H (P 0) ltac:(cbn; lia) ltac:(vm_compute; auto)) as C. pose proof (H (P 3) ltac:(cbn; lia) ltac:(vm_compute; auto)) as D.
  change (Z.to_nat (equation (number 3 3 ex_types (fun _ => 7%Z) (fun _ => 7%Z) (fun _ => 7%Z)) (U 3))) with 0 in A.
  change (Z.to_nat (equation (number 3 3 ex_types (fun _ => 7%Z) (fun _ => 7%Z) (fun _ => 7%Z)) (V 6))) with 5 in B.
  change (Z.to_nat (equation (number 3 3 ex_types (fun _ => 7%Z) (fun _ => 7%Z) (fun _ => 7%Z)) (P 0))) with 6 in C.
  change (Z.to_nat (equation (number 3 3 ex_types (fun _ => 7%Z) (fun _ => 7%Z) (fun _ => 7%Z)) (P 3))) with 8 in D.
  change (Z.to_nat (equation (number 3 3 ex_types (fun _ => 7%Z) (fun _ => 7%Z) (fun _ => 7%Z)) (P 0) - 6)) with 0 in C.
  change (Z.to_nat (equation (number 3 3 ex_types (fun _ => 7%Z) (fun _ => 7%Z) (fun _ => 7%Z)) (P 3) - 6)) with 2 in D.
  cbn [map]. rewrite A, B, C, D. reflexivity.
Qed.
