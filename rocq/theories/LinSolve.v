(** * Square real systems with trivial kernel have a solution (Gaussian elimination) *)
From Coq Require Import Reals List Arith Lra Lia Classical.
From Verif Require Import DiffModel.
Import ListNotations.
Local Open Scope R_scope.

Lemma fold_sum_acc : forall (f : nat -> R) L a, fold_right (fun i s => f i + s) a L = fold_right (fun i s => f i + s) 0 L + a.
Proof. induction L as [|x L IH]; intros a; cbn; [ring|]. rewrite IH. ring. Qed.
Lemma sumn_S : forall n f, sumn (S n) f = sumn n f + f n.
Proof.
  intros n f. unfold sumn. rewrite seq_S, fold_right_app. cbn [fold_right Nat.add]. rewrite fold_sum_acc. ring.
Qed.
Lemma sumn_ext : forall n f h, (forall i, (i < n)%nat -> f i = h i) -> sumn n f = sumn n h.
Proof. induction n as [|n IH]; intros f h H; [reflexivity|]. rewrite !sumn_S, (IH f h), (H n) by (intros; try apply H; lia). reflexivity. Qed.
Lemma sumn_plus : forall n f h, sumn n (fun i => f i + h i) = sumn n f + sumn n h.
Proof. induction n as [|n IH]; intros f h; [cbn; ring|]. rewrite !sumn_S, IH. ring. Qed.
Lemma sumn_scal : forall n a f, sumn n (fun i => a * f i) = a * sumn n f.
Proof. induction n as [|n IH]; intros a f; [cbn; ring|]. rewrite !sumn_S, IH. ring. Qed.
Lemma sumn_zero : forall n f, (forall i, (i < n)%nat -> f i = 0) -> sumn n f = 0.
Proof. induction n as [|n IH]; intros f H; [reflexivity|]. rewrite sumn_S, IH, H by (intros; try apply H; lia). ring. Qed.

Definition trivial_kernel (n : nat) (A : nat -> nat -> R) : Prop :=
  forall x, (forall i, (i < n)%nat -> sumn n (fun j => A i j * x j) = 0) -> forall j, (j < n)%nat -> x j = 0.
Definition swap_rows (p q i : nat) : nat := if Nat.eqb i p then q else if Nat.eqb i q then p else i.
Lemma swap_lt : forall p q i n, (p < n)%nat -> (q < n)%nat -> (i < n)%nat -> (swap_rows p q i < n)%nat.
Proof. intros. unfold swap_rows. destruct (Nat.eqb i p), (Nat.eqb i q); lia. Qed.
Lemma swap_invol : forall p q i, swap_rows p q (swap_rows p q i) = i.
Proof. intros. unfold swap_rows. destruct (Nat.eqb_spec i p) as [->|]; [destruct (Nat.eqb_spec q p) as [->|]; [reflexivity|now rewrite Nat.eqb_refl]|]. destruct (Nat.eqb_spec i q) as [->|]; [now rewrite Nat.eqb_refl|]. destruct (Nat.eqb_spec i p), (Nat.eqb_spec i q); congruence. Qed.

(** elimination of the last unknown when its pivot is not zero *)
Lemma eliminate : forall n, (forall A b, trivial_kernel n A -> exists x, forall i, (i < n)%nat -> sumn n (fun j => A i j * x j) = b i) ->
  forall A b, A n n <> 0 -> trivial_kernel (S n) A -> exists x, forall i, (i < S n)%nat -> sumn (S n) (fun j => A i j * x j) = b i.
Proof.
  intros n IH A b Hp Hk.
  set (A' := fun i j => A i j - A i n / A n n * A n j). set (b' := fun i => b i - A i n / A n n * b n).
  assert (E : forall x i, sumn n (fun j => A' i j * x j) = sumn n (fun j => A i j * x j) - A i n / A n n * sumn n (fun j => A n j * x j)).
  { intros x i. unfold A'. rewrite (sumn_ext n _ (fun j => A i j * x j + (- (A i n / A n n)) * (A n j * x j))) by (intros; ring). rewrite sumn_plus, sumn_scal. ring. }
  destruct (IH A' b') as [y Hy].
  - intros y H j Hj.
    set (x := fun i => if Nat.eqb i n then - sumn n (fun j => A n j * y j) / A n n else y i).
    assert (Ex : forall i, sumn n (fun j => A i j * x j) = sumn n (fun j => A i j * y j)) by (intros; apply sumn_ext; intros m Hm; unfold x; destruct (Nat.eqb_spec m n); [lia|reflexivity]).
    assert (Hx : x j = 0).
    { apply Hk; [|lia]. intros i Hi. rewrite sumn_S, Ex. assert (xn : x n = - sumn n (fun j => A n j * y j) / A n n) by (unfold x; now rewrite Nat.eqb_refl). rewrite xn.
      destruct (Nat.eq_dec i n) as [->|Hn]; [field; exact Hp|]. specialize (H i ltac:(lia)). rewrite E in H.
      replace (A i n * (- sumn n (fun j0 => A n j0 * y j0) / A n n)) with (- (A i n / A n n * sumn n (fun j0 => A n j0 * y j0))) by (field; exact Hp). lra. }
    unfold x in Hx. destruct (Nat.eqb_spec j n); [lia|exact Hx].
  - set (x := fun i => if Nat.eqb i n then (b n - sumn n (fun j => A n j * y j)) / A n n else y i).
    assert (Ex : forall i, sumn n (fun j => A i j * x j) = sumn n (fun j => A i j * y j)) by (intros; apply sumn_ext; intros m Hm; unfold x; destruct (Nat.eqb_spec m n); [lia|reflexivity]).
    assert (xn : x n = (b n - sumn n (fun j => A n j * y j)) / A n n) by (unfold x; now rewrite Nat.eqb_refl).
    exists x. intros i Hi. rewrite sumn_S, Ex, xn. destruct (Nat.eq_dec i n) as [->|Hn]; [field; exact Hp|].
    specialize (Hy i ltac:(lia)). rewrite E in Hy. unfold b' in Hy.
    replace (A i n * ((b n - sumn n (fun j => A n j * y j)) / A n n)) with (A i n / A n n * b n - A i n / A n n * sumn n (fun j => A n j * y j)) by (field; exact Hp). lra.
Qed.

Lemma kernel_solvable : forall n A b, trivial_kernel n A -> exists x, forall i, (i < n)%nat -> sumn n (fun j => A i j * x j) = b i.
Proof.
  induction n as [|n IH]; intros A b Hk; [exists (fun _ => 0); intros; lia|].
  destruct (classic (exists p, (p < S n)%nat /\ A p n <> 0)) as [[p [Hp Hpn]]|Hno].
  - destruct (eliminate n IH (fun i j => A (swap_rows p n i) j) (fun i => b (swap_rows p n i))) as [x Hx].
    + unfold swap_rows. destruct (Nat.eqb_spec n p) as [->|]; [exact Hpn|]. rewrite Nat.eqb_refl. exact Hpn.
    + intros x H j Hj. apply Hk; [|exact Hj]. intros i Hi. specialize (H (swap_rows p n i) (swap_lt p n i (S n) Hp ltac:(lia) Hi)). rewrite swap_invol in H. exact H.
    + exists x. intros i Hi. specialize (Hx (swap_rows p n i) (swap_lt p n i (S n) Hp ltac:(lia) Hi)). rewrite swap_invol in Hx. exact Hx.
  - exfalso. specialize (Hk (fun j => if Nat.eqb j n then 1 else 0)). cbv beta in Hk.
    assert (E : (if Nat.eqb n n then 1 else 0) = 0).
    { apply Hk; [|lia]. intros i Hi. rewrite sumn_S, Nat.eqb_refl. rewrite sumn_zero.
      - destruct (Req_dec (A i n) 0) as [->|Hne]; [ring|]. exfalso. apply Hno. eauto.
      - intros j Hj. destruct (Nat.eqb_spec j n); [lia|ring]. }
    rewrite Nat.eqb_refl in E. lra.
Qed.
