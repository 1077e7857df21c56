(** * Lemmas on lithostatic pressure *)
From Coq Require Import List ZArith Reals Bool Arith Lia Lra.
From Verif Require Import GridModel GridProofs NumProofs DiffModel LinSolve RheoModel GravModel.
Import ListNotations.
Local Open Scope R_scope.

Section Lith.
Variables (ncx ncz : nat) (tp : nat -> Z) (gz dz bkg : R) (rho : nat -> R).

Lemma weigh_row l : forall m p c, (m <= ncx)%nat ->
  loop 0 m (weigh_cell ncx tp gz dz rho l) p c =
  if ((l * ncx <=? c) && (c <? l * ncx + m))%nat
  then (if rock (tp c) then p (c + ncx)%nat - gz * dz * rho c else 0) else p c.
Proof.
  intros m p c Hm.
  pose proof (loop_ind (fun m p' => (m <= ncx)%nat -> forall c, p' c =
     if ((l * ncx <=? c) && (c <? l * ncx + m))%nat
     then (if rock (tp c) then p (c + ncx)%nat - gz * dz * rho c else 0) else p c)
     (weigh_cell ncx tp gz dz rho l) m 0%nat p) as IND.
  apply IND; [| |exact Hm].
  - intros _ c0. destruct (Nat.leb_spec (l * ncx) c0); destruct (Nat.ltb_spec c0 (l * ncx + 0)); cbn [andb]; try reflexivity. lia.
  - intros k p' Hk IH Hk' c0. specialize (IH ltac:(lia)). unfold weigh_cell.
    set (d := (k + l * ncx)%nat).
    destruct (Nat.eq_dec c0 d) as [->|N].
    + replace ((l * ncx <=? d) && (d <? l * ncx + (1 + k)))%nat with true
        by (symmetry; apply andb_true_intro; split; [apply Nat.leb_le|apply Nat.ltb_lt]; unfold d; lia).
      destruct (rock (tp d)); [|now rewrite upd_same].
      rewrite upd_same, upd_other by (unfold d; lia). rewrite IH.
      destruct (Nat.leb_spec (l * ncx) (d + ncx)); destruct (Nat.ltb_spec (d + ncx) (l * ncx + k)); cbn [andb]; try reflexivity.
      unfold d in *. lia.
    + transitivity (p' c0). { destruct (rock (tp d)); rewrite ?upd_other by exact N; reflexivity. }
      rewrite IH.
      destruct (Nat.leb_spec (l * ncx) c0); destruct (Nat.ltb_spec c0 (l * ncx + k));
        destruct (Nat.ltb_spec c0 (l * ncx + (1 + k))); cbn [andb]; try reflexivity; unfold d in *; lia.
Qed.

Lemma weigh_spec : let w := weigh ncx ncz tp gz dz rho (fun _ => 0) in
  (forall c, (c < (ncz - 1) * ncx)%nat -> w c = if rock (tp c) then w (c + ncx)%nat - gz * dz * rho c else 0) /\
  (forall c, ((ncz - 1) * ncx <= c)%nat -> w c = 0).
Proof.
  cbv zeta. unfold weigh.
  pose proof (loop_ind (fun i p => (i <= ncz - 1)%nat ->
     (forall c, ((ncz - 1 - i) * ncx <= c)%nat -> (c < (ncz - 1) * ncx)%nat ->
        p c = if rock (tp c) then p (c + ncx)%nat - gz * dz * rho c else 0) /\
     (forall c, ((ncz - 1) * ncx <= c \/ c < (ncz - 1 - i) * ncx)%nat -> p c = 0))
     (fun p i => loop 0 ncx (weigh_cell ncx tp gz dz rho (ncz - 2 - i)) p) (ncz - 1)%nat 0%nat (fun _ => 0)) as IND.
  cbv beta in IND. destruct IND as [A B].
  - intros _. split; [intros c H1 H2; lia|reflexivity].
  - intros i p Hi IH Hi'. destruct (IH ltac:(lia)) as [A B]. clear IH.
    assert (E : (ncz - 1 - i = 1 + (ncz - 2 - i))%nat) by lia.
    assert (E' : (ncz - 1 - (1 + i) = ncz - 2 - i)%nat) by lia. rewrite E' in *.
    assert (E2 : ((ncz - 1 - i) * ncx = (ncz - 2 - i) * ncx + ncx)%nat) by (rewrite E; lia).
    set (l := (ncz - 2 - i)%nat) in *.
    assert (U : forall c, (l * ncx + ncx <= c)%nat -> loop 0 ncx (weigh_cell ncx tp gz dz rho l) p c = p c).
    { intros c Hc. rewrite weigh_row by lia. destruct (Nat.ltb_spec c (l * ncx + ncx)); [lia|]. now rewrite andb_false_r. }
    split.
    + intros c H1 H2. destruct (Nat.lt_ge_cases c (l * ncx + ncx)) as [L|G].
      * rewrite weigh_row by lia.
        rewrite (proj2 (Nat.leb_le _ _) H1), (proj2 (Nat.ltb_lt _ _) L). cbn [andb].
        rewrite U by lia. reflexivity.
      * rewrite !U by lia. apply A; lia.
    + intros c Hc. rewrite weigh_row by lia.
      assert (LE : (l * ncx + ncx <= (ncz - 1) * ncx)%nat) by (rewrite <- E2; apply Nat.mul_le_mono_r; lia).
      destruct (Nat.leb_spec (l * ncx) c); destruct (Nat.ltb_spec c (l * ncx + ncx)); cbn [andb]; try (apply B; lia). exfalso. lia.
  - lia.
  - split; [intros c Hc; apply A; [|exact Hc]|intros c Hc; apply B; left; exact Hc].
    replace (ncz - 1 - (0 + (ncz - 1)))%nat with 0%nat by lia. lia.
Qed.

Lemma confine_spec p c : confine ncx ncz tp gz dz bkg rho p c =
  if (c <? ncz * ncx)%nat && rock (tp c) then p c + bkg + 1 / 2 * gz * dz * rho c else p c.
Proof.
  unfold confine. rewrite (loop_nest (fun p c => confine_cell tp gz dz bkg rho p c)).
  pose proof (loop_ind (fun m a' => forall c, a' c = if (c <? m)%nat && rock (tp c) then p c + bkg + 1 / 2 * gz * dz * rho c else p c)
    (fun p c => confine_cell tp gz dz bkg rho p c) (ncz * ncx)%nat 0%nat p) as IND. cbv beta in IND.
  rewrite Nat.add_0_l in IND. apply IND; clear IND; [reflexivity|].
  intros i s Hi IH c0. unfold confine_cell. destruct (Nat.eq_dec c0 i) as [->|N].
  - replace (i <? 1 + i)%nat with true by (symmetry; apply Nat.ltb_lt; lia). cbn [andb].
    destruct (rock (tp i)) eqn:Ri; [|rewrite IH; now rewrite Ri, andb_false_r].
    rewrite !upd_same, IH, Nat.ltb_irrefl. reflexivity.
  - transitivity (s c0). { destruct (rock (tp i)); rewrite ?upd_other by exact N; reflexivity. }
    rewrite IH. destruct (Nat.ltb_spec c0 i); destruct (Nat.ltb_spec c0 (1 + i)); cbn [andb]; try reflexivity; lia.
Qed.

Notation P := (lithostatic ncx ncz tp gz dz bkg rho).
Notation W := (weigh ncx ncz tp gz dz rho (fun _ => 0)).

Lemma lith_rock c : (c < ncz * ncx)%nat -> rock (tp c) = true -> P c = W c + bkg + 1 / 2 * gz * dz * rho c.
Proof. intros H R. unfold lithostatic. rewrite confine_spec, (proj2 (Nat.ltb_lt _ _) H), R. reflexivity. Qed.
Lemma lith_air c : (c < (ncz - 1) * ncx \/ (ncz - 1) * ncx <= c)%nat -> rock (tp c) = false -> P c = 0.
Proof.
  intros H R. unfold lithostatic. rewrite confine_spec, R, andb_false_r. destruct H as [H|H].
  - rewrite (proj1 weigh_spec c H), R. reflexivity.
  - now apply (proj2 weigh_spec).
Qed.

Lemma weigh_run n : forall c, (c + (1 + n) * ncx < ncz * ncx)%nat ->
  (forall i, (i <= n)%nat -> rock (tp (c + i * ncx)%nat) = true) ->
  W c = W (c + (1 + n) * ncx)%nat - gz * dz * sumn (S n) (fun i => rho (c + i * ncx)%nat).
Proof.
  induction n as [|n IH]; intros c H R.
  - rewrite (proj1 weigh_spec c) by nia. pose proof (R 0%nat (le_n _)) as R0. rewrite Nat.mul_0_l, Nat.add_0_r in R0. rewrite R0.
    unfold sumn. cbn [seq fold_right]. change (1 + 0)%nat with 1%nat. rewrite Nat.mul_0_l, Nat.add_0_r, Nat.mul_1_l. ring.
  - rewrite (IH c) by (try (intros; apply R); nia).
    rewrite (sumn_S (S n)).
    rewrite (proj1 weigh_spec (c + (1 + n) * ncx)%nat) by nia.
    rewrite (R (1 + n)%nat) by lia.
    replace (c + (1 + n) * ncx + ncx)%nat with (c + (1 + S n) * ncx)%nat by lia.
    replace (c + S n * ncx)%nat with (c + (1 + n) * ncx)%nat by lia. ring.
Qed.
End Lith.
