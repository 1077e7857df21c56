(** * Diffusion solve: symmetry of the matrix and its action as heat exchange *)
From Coq Require Import Reals ZArith List Bool Arith Lra Lia.
From Verif Require Import GridModel RheoModel DiffModel DiffProofs.
Import ListNotations.
Local Open Scope R_scope.

Section Core.
  Variable g : dgrid.
  Notation ncx := (g_ncx g).
  Notation ncz := (g_ncz g).
  Hypothesis Hper : periodic_ok g.
  Hypothesis Hsp : spacings_ok g.

  (** *** the model's accessors on the specification's arrays *)
  Lemma tC_at : forall k l, tC g k l = flag_at g (k + 1) (l + 1). Proof. reflexivity. Qed.
  Lemma vC_at : forall k l, vC g k l = val_at g (k + 1) (l + 1). Proof. reflexivity. Qed.
  Lemma tW_at : forall k l, tW g k l = flag_at g k (l + 1). Proof. intros. unfold tW, flag_at, ext. f_equal. nia. Qed.
  Lemma vW_at : forall k l, vW g k l = val_at g k (l + 1). Proof. intros. unfold vW, val_at, ext. f_equal. nia. Qed.
  Lemma tE_at : forall k l, tE g k l = flag_at g (k + 2) (l + 1). Proof. intros. unfold tE, flag_at, ext. f_equal. nia. Qed.
  Lemma vE_at : forall k l, vE g k l = val_at g (k + 2) (l + 1). Proof. intros. unfold vE, val_at, ext. f_equal. nia. Qed.
  Lemma tS_at : forall k l, tS g k l = flag_at g (k + 1) l. Proof. intros. unfold tS, flag_at, ext. f_equal. nia. Qed.
  Lemma vS_at : forall k l, vS g k l = val_at g (k + 1) l. Proof. intros. unfold vS, val_at, ext. f_equal. nia. Qed.
  Lemma tN_at : forall k l, tN g k l = flag_at g (k + 1) (l + 2). Proof. intros. unfold tN, flag_at, ext. f_equal. nia. Qed.
  Lemma vN_at : forall k l, vN g k l = val_at g (k + 1) (l + 2). Proof. intros. unfold vN, val_at, ext. f_equal. nia. Qed.
  Lemma AW_at : forall k l, AW g k l = kvert g k l. Proof. reflexivity. Qed.
  Lemma AE_at : forall k l, AE g k l = kvert g (k + 1) l. Proof. intros. unfold AE, kvert. f_equal. lia. Qed.
  Lemma AS_at : forall k l, AS g k l = khoriz g k l. Proof. intros. unfold AS, khoriz. f_equal. lia. Qed.
  Lemma AN_at : forall k l, AN g k l = khoriz g k (l + 1). Proof. intros. unfold AN, khoriz. f_equal. nia. Qed.
  Lemma is30_at : forall i j, is30 (flag_at g i j) = air_at g i j. Proof. reflexivity. Qed.
  Lemma in_fl_active : forall k l, In (k, l) (fl g) <-> active g k l.
  Proof.
    intros k l. rewrite in_fl. unfold active, fluid, air_at, flag_at, ext. destruct (g_typ g (k + 1 + (l + 1) * (ncx + 2)) =? 30)%Z; cbn; intuition congruence.
  Qed.
  Lemma east_at : forall k, (k < ncx)%nat -> east g k = Nat.eqb (k + 1) ncx.
  Proof. intros k H. unfold east. destruct (Nat.eqb_spec k (ncx - 1)), (Nat.eqb_spec (k + 1) ncx); lia || reflexivity. Qed.
  Lemma north_at : forall l, (l < ncz)%nat -> north g l = Nat.eqb (l + 1) ncz.
  Proof. intros k H. unfold north. destruct (Nat.eqb_spec k (ncz - 1)), (Nat.eqb_spec (k + 1) ncz); lia || reflexivity. Qed.
  Lemma ks_at : forall k l, ks g k l = Rmax (g_mink g) ((kvert g k l + kvert g (k + 1) l + khoriz g k l + khoriz g k (l + 1)) / 4).
  Proof.
    intros k l. unfold ks. cbv zeta. rewrite AE_at. rewrite AN_at. rewrite AS_at. change (AW g k l) with (kvert g k l).
    replace (1 / 4 * (kvert g (k + 1) l + kvert g k l + khoriz g k (l + 1) + khoriz g k l)) with ((kvert g k l + kvert g (k + 1) l + khoriz g k l + khoriz g k (l + 1)) / 4) by field.
    unfold Rltb, Rmax. destruct (Rlt_dec _ _), (Rle_dec _ _); lra.
  Qed.

  (** *** neighbours *)
  Lemma act_S : forall k l, active g k l -> l <> 0%nat -> air_at g (k + 1) l = false -> active g k (l - 1).
  Proof. intros k l (H1 & H2 & H3) Hl Ha. repeat split; try lia. replace (l - 1 + 1)%nat with l by lia. exact Ha. Qed.
  Lemma act_N : forall k l, active g k l -> (l + 1)%nat <> ncz -> air_at g (k + 1) (l + 2) = false -> active g k (l + 1).
  Proof. intros k l (H1 & H2 & H3) Hl Ha. repeat split; try lia. replace (l + 1 + 1)%nat with (l + 2)%nat by lia. exact Ha. Qed.
  Lemma act_W : forall k l, active g k l -> k <> 0%nat -> air_at g k (l + 1) = false -> active g (k - 1) l.
  Proof. intros k l (H1 & H2 & H3) Hl Ha. repeat split; try lia. replace (k - 1 + 1)%nat with k by lia. exact Ha. Qed.
  Lemma act_E : forall k l, active g k l -> (k + 1)%nat <> ncx -> air_at g (k + 2) (l + 1) = false -> active g (k + 1) l.
  Proof. intros k l (H1 & H2 & H3) Hl Ha. repeat split; try lia. replace (k + 1 + 1)%nat with (k + 2)%nat by lia. exact Ha. Qed.
  Lemma act_pW : forall l, active g 0 l -> flag_at g 0 (l + 1) = (-2)%Z -> active g (ncx - 1) l /\ flag_at g (ncx + 1) (l + 1) = (-2)%Z /\ kvert g 0 l = kvert g ncx l /\ (3 <= ncx)%nat.
  Proof.
    intros l (H1 & H2 & H3) Hp. destruct (Hper l H2) as [I J]. destruct (J Hp) as (J1 & J2 & J3). repeat split; try lia; try tauto.
    replace (ncx - 1 + 1)%nat with ncx by lia. cbn [Nat.add] in H3. congruence.
  Qed.
  Lemma act_pE : forall l, active g (ncx - 1) l -> flag_at g (ncx + 1) (l + 1) = (-2)%Z -> active g 0 l /\ flag_at g 0 (l + 1) = (-2)%Z /\ kvert g 0 l = kvert g ncx l /\ (3 <= ncx)%nat.
  Proof.
    intros l (H1 & H2 & H3) Hp. destruct (Hper l H2) as [I J]. assert (Hq := proj2 I Hp). destruct (J Hq) as (J1 & J2 & J3). repeat split; try lia; try tauto.
    replace (ncx - 1 + 1)%nat with ncx in H3 by lia. cbn [Nat.add]. congruence.
  Qed.

  (** *** rows *)
  Lemma dot_app : forall a b x, dot (a ++ b) x = dot a x + dot b x.
  Proof. induction a as [|e a IH]; intros b x; cbn [app dot fold_right]; [fold (dot b x); cbn; ring|]. fold (dot (a ++ b) x) (dot a x). rewrite IH. ring. Qed.
  Lemma coef_app : forall a b j, coef (a ++ b) j = coef a j + coef b j.
  Proof. induction a as [|e a IH]; intros b x; cbn [app coef fold_right]; [fold (coef b x); cbn; ring|]. fold (coef (a ++ b) x) (coef a x). rewrite IH. ring. Qed.
  Lemma dot_opt : forall (b : bool) j a x, dot (opt b j a) x = if b then a * x j else 0.
  Proof. intros [|] j a x; cbn; ring. Qed.
  Lemma coef_opt : forall (b : bool) j a z, coef (opt b j a) z = if b && (j =? z)%Z then a else 0.
  Proof. intros [|] j a z; cbn; destruct (j =? z)%Z; ring. Qed.

  Definition X (T : nat -> R) (x : Z -> R) : Prop := forall k l, active g k l -> x (eqn_t g (cell g k l)) = T (cell g k l).

  Lemma south_part : forall T x k l, X T x -> active g k l -> bottom_ok g ->
    dot (opt (negb (Nat.eqb l 0) && negb (is30 (tS g k l))) (eqn_t g (cell g k l - ncx)) (- (1) * AS g k l * idz2 g)) x
    + (flux_val g (negb (Nat.eqb l 0)) (tS g k l) (AS g k l) (idz2 g) k l + wall_val (Nat.eqb l 0) (tS g k l) (AS g k l) (idz2 g)) * T (cell g k l)
    - (flux_bbc g (negb (Nat.eqb l 0)) (tS g k l) (idz2 g) k l + wall_bbc (Nat.eqb l 0) (tS g k l) (AS g k l) (idz2 g) (vS g k l)
       + (if Nat.eqb l 0 && (tS g k l =? 0)%Z then -1 / g_dx g * vS g k l else 0))
    = - (enters g T South k l / spacing g South).
  Proof.
    intros T x k l HX Ha Hb. rewrite dot_opt. unfold flux_val, flux_bbc, wall_val, wall_bbc, enters, touches, surface, at_. rewrite ks_at, tC_at, vC_at, !tS_at, !vS_at, !AS_at, !is30_at. cbn [fst snd spacing]. unfold cell, idz2.
    destruct Hsp as (S1 & S2 & S3).
    destruct (Nat.eqb_spec l 0) as [->|Hl]; cbn [negb andb].
    - destruct (flag_at g (k + 1) 0 =? 1)%Z eqn:E1.
      + apply Z.eqb_eq in E1. rewrite E1. cbn [Z.eqb]. field. lra.
      + destruct (flag_at g (k + 1) 0 =? 0)%Z eqn:E0; [|field; lra].
        apply Z.eqb_eq in E0. destruct (Hb k Ha E0) as [->|E]; [field; lra|]. rewrite E. field. lra.
    - destruct (air_at g (k + 1) l) eqn:Ea; cbn [negb].
      + destruct (flag_at g (k + 1) (l + 1) =? 1)%Z; field; lra.
      + replace (k + l * ncx - ncx)%nat with (cell g k (l - 1)) by (unfold cell; nia). rewrite HX by (now apply act_S). unfold cell; cbn [fst snd]. field. lra.
  Qed.
  Lemma north_part : forall T x k l, X T x -> active g k l ->
    dot (opt (negb (north g l) && negb (is30 (tN g k l))) (eqn_t g (cell g k l + ncx)) (- (1) * AN g k l * idz2 g)) x
    + (flux_val g (negb (north g l)) (tN g k l) (AN g k l) (idz2 g) k l + wall_val (north g l) (tN g k l) (AN g k l) (idz2 g)) * T (cell g k l)
    - (flux_bbc g (negb (north g l)) (tN g k l) (idz2 g) k l + wall_bbc (north g l) (tN g k l) (AN g k l) (idz2 g) (vN g k l))
    = - (enters g T North k l / spacing g North).
  Proof.
    intros T x k l HX Ha. rewrite dot_opt. unfold flux_val, flux_bbc, wall_val, wall_bbc, enters, touches, surface, at_. rewrite ks_at, tC_at, vC_at, !tN_at, !vN_at, !AN_at, !is30_at. cbn [fst snd spacing]. unfold cell, idz2.
    destruct Hsp as (S1 & S2 & S3). rewrite north_at by apply Ha.
    destruct (Nat.eqb_spec (l + 1) ncz) as [El|Hl]; cbn [negb andb].
    - destruct (flag_at g (k + 1) (l + 2) =? 1)%Z; field; lra.
    - destruct (air_at g (k + 1) (l + 2)) eqn:Ea; cbn [negb].
      + destruct (flag_at g (k + 1) (l + 1) =? 1)%Z; field; lra.
      + replace (k + l * ncx + ncx)%nat with (cell g k (l + 1)) by (unfold cell; nia). rewrite HX by (now apply act_N). unfold cell; cbn [fst snd]. field. lra.
  Qed.
  Lemma west_part : forall T x k l, X T x -> active g k l ->
    dot (opt (negb (Nat.eqb k 0) && negb (is30 (tW g k l))) (eqn_t g (cell g k l - 1)) (- (1) * AW g k l * idx2 g)) x
    + dot (opt ((tW g k l =? -2)%Z && Nat.eqb k 0) (eqn_t g (cell g k l + (ncx - 1))) (- (1) * AW g k l * idx2 g)) x
    + (flux_val g (onW g k l) (tW g k l) (AW g k l) (idx2 g) k l + wall_val (Nat.eqb k 0) (tW g k l) (AW g k l) (idx2 g)) * T (cell g k l)
    - (flux_bbc g (onW g k l) (tW g k l) (idx2 g) k l + wall_bbc (Nat.eqb k 0) (tW g k l) (AW g k l) (idx2 g) (vW g k l))
    = - (enters g T West k l / spacing g West).
  Proof.
    intros T x k l HX Ha. rewrite !dot_opt. unfold flux_val, flux_bbc, wall_val, wall_bbc, onW, enters, touches, surface, at_. rewrite ks_at, tC_at, vC_at, !tW_at, !vW_at, !AW_at, !is30_at. cbn [fst snd spacing]. unfold cell, idx2.
    destruct Hsp as (S1 & S2 & S3).
    destruct (Nat.eqb_spec k 0) as [->|Hk]; cbn [negb andb orb].
    - rewrite andb_true_r. destruct (flag_at g 0 (l + 1) =? -2)%Z eqn:E2.
      + apply Z.eqb_eq in E2. unfold air_at. rewrite E2. cbn [Z.eqb negb]. destruct (act_pW l Ha E2) as (H1 & _ & _ & _).
        replace (0 + l * ncx + (ncx - 1))%nat with (cell g (ncx - 1) l) by (unfold cell; nia). rewrite HX by exact H1. unfold cell; cbn [fst snd]. field. lra.
      + destruct (flag_at g 0 (l + 1) =? 1)%Z; field; lra.
    - rewrite andb_false_r. destruct (air_at g k (l + 1)) eqn:Ea; cbn [negb].
      + destruct (flag_at g (k + 1) (l + 1) =? 1)%Z; field; lra.
      + replace (k + l * ncx - 1)%nat with (cell g (k - 1) l) by (unfold cell; nia). rewrite HX by (now apply act_W). unfold cell; cbn [fst snd]. field. lra.
  Qed.
  Lemma east_part : forall T x k l, X T x -> active g k l ->
    dot (opt (negb (east g k) && negb (is30 (tE g k l))) (eqn_t g (cell g k l + 1)) (- (1) * AE g k l * idx2 g)) x
    + dot (opt ((tE g k l =? -2)%Z && east g k) (eqn_t g (cell g k l - (ncx - 1))) (- (1) * AE g k l * idx2 g)) x
    + (flux_val g (onE g k l) (tE g k l) (AE g k l) (idx2 g) k l + wall_val (east g k) (tE g k l) (AE g k l) (idx2 g)) * T (cell g k l)
    - (flux_bbc g (onE g k l) (tE g k l) (idx2 g) k l + wall_bbc (east g k) (tE g k l) (AE g k l) (idx2 g) (vE g k l))
    = - (enters g T East k l / spacing g East).
  Proof.
    intros T x k l HX Ha. rewrite !dot_opt. unfold flux_val, flux_bbc, wall_val, wall_bbc, onE, enters, touches, surface, at_. rewrite ks_at, tC_at, vC_at, !tE_at, !vE_at, !AE_at, !is30_at. cbn [fst snd spacing]. unfold cell, idx2.
    destruct Hsp as (S1 & S2 & S3). rewrite east_at by apply Ha.
    destruct (Nat.eqb_spec (k + 1) ncx) as [Ek|Hk]; cbn [negb andb orb].
    - rewrite andb_true_r. destruct (flag_at g (k + 2) (l + 1) =? -2)%Z eqn:E2.
      + apply Z.eqb_eq in E2. unfold air_at. rewrite E2. cbn [Z.eqb negb].
        assert (Ek' : k = (ncx - 1)%nat) by lia. assert (Ha' := Ha). rewrite Ek' in Ha'.
        destruct (act_pE l Ha' ltac:(rewrite <- E2; f_equal; lia)) as (H1 & _ & _ & _).
        replace (k + l * ncx - (ncx - 1))%nat with (cell g 0 l) by (unfold cell; nia). rewrite HX by exact H1. unfold cell; cbn [fst snd]. field. lra.
      + destruct (flag_at g (k + 2) (l + 1) =? 1)%Z; field; lra.
    - rewrite andb_false_r. destruct (air_at g (k + 2) (l + 1)) eqn:Ea; cbn [negb].
      + destruct (flag_at g (k + 1) (l + 1) =? 1)%Z; field; lra.
      + replace (k + l * ncx + 1)%nat with (cell g (k + 1) l) by (unfold cell; nia). rewrite HX by (now apply act_E). unfold cell; cbn [fst snd]. field. lra.
  Qed.
  Lemma row_action : forall T x k l, X T x -> active g k l -> bottom_ok g ->
    dot (row g k l) x - bbc g k l = g_rc g (cell g k l) / g_dt g * T (cell g k l) - allsides (fun s => enters g T s k l / spacing g s).
  Proof.
    intros T x k l HX Ha Hb. unfold allsides.
    pose proof (south_part T x k l HX Ha Hb) as H1. pose proof (north_part T x k l HX Ha) as H2.
    pose proof (west_part T x k l HX Ha) as H3. pose proof (east_part T x k l HX Ha) as H4.
    unfold row. rewrite !dot_app. unfold bbc, diag.
    assert (Hd : dot [(eqn_t g (cell g k l), diag g k l)] x = diag g k l * T (cell g k l)) by (cbn; rewrite HX by exact Ha; ring).
    unfold diag in Hd. rewrite Hd. clear Hd.
    unfold Rminus in *. destruct Hsp as (_ & _ & S3).
    replace (1 * g_rc g (cell g k l) / g_dt g) with (g_rc g (cell g k l) / g_dt g) by (field; lra). lra.
  Qed.

  (** *** symmetry *)
  Definition peq (a b : nat * nat) : bool := Nat.eqb (fst a) (fst b) && Nat.eqb (snd a) (snd b).
  Lemma peq_spec : forall a b, reflect (a = b) (peq a b).
  Proof. intros [a b] [c d]. unfold peq. cbn [fst snd]. destruct (Nat.eqb_spec a c), (Nat.eqb_spec b d); cbn; constructor; congruence. Qed.
  Lemma eqb_peq : forall k l k' l', active g k l -> active g k' l' -> (eqn_t g (cell g k l) =? eqn_t g (cell g k' l'))%Z = peq (k, l) (k', l').
  Proof.
    intros k l k' l' H H'. apply in_fl_active in H, H'. pose proof (eqn_eqb g (k, l) (k', l') H H') as E. cbn [fst snd] in E.
    destruct (peq_spec (k, l) (k', l')) as [Hp|Hp].
    - now apply E.
    - destruct (_ =? _)%Z; [|reflexivity]. exfalso. apply Hp. now apply E.
  Qed.
  Definition cS (c c' : nat * nat) : R := let '(k, l) := c in if negb (Nat.eqb l 0) && peq (k, l - 1)%nat c' then - (1) * AS g k l * idz2 g else 0.
  Definition cN (c c' : nat * nat) : R := let '(k, l) := c in if negb (Nat.eqb (l + 1) ncz) && peq (k, l + 1)%nat c' then - (1) * AN g k l * idz2 g else 0.
  Definition cW (c c' : nat * nat) : R := let '(k, l) := c in if negb (Nat.eqb k 0) && peq (k - 1, l)%nat c' then - (1) * AW g k l * idx2 g else 0.
  Definition cE (c c' : nat * nat) : R := let '(k, l) := c in if negb (Nat.eqb (k + 1) ncx) && peq (k + 1, l)%nat c' then - (1) * AE g k l * idx2 g else 0.
  Definition cpW (c c' : nat * nat) : R := let '(k, l) := c in if (tW g k l =? -2)%Z && Nat.eqb k 0 && peq (ncx - 1, l)%nat c' then - (1) * AW g k l * idx2 g else 0.
  Definition cpE (c c' : nat * nat) : R := let '(k, l) := c in if (tE g k l =? -2)%Z && Nat.eqb (k + 1) ncx && peq (0, l)%nat c' then - (1) * AE g k l * idx2 g else 0.
  Definition cD (c c' : nat * nat) : R := if peq c c' then diag g (fst c) (snd c) else 0.
  Definition M (c c' : nat * nat) : R := coef (row g (fst c) (snd c)) (eqn_t g (cell g (fst c') (snd c'))).
  Lemma act_air : forall k l, active g k l -> air_at g (k + 1) (l + 1) = false.
  Proof. intros k l H. apply H. Qed.
  Lemma M_parts : forall k l k' l', active g k l -> active g k' l' ->
    M (k, l) (k', l') = cS (k, l) (k', l') + (cpE (k, l) (k', l') + (cW (k, l) (k', l') + (cD (k, l) (k', l') + (cE (k, l) (k', l') + (cpW (k, l) (k', l') + cN (k, l) (k', l')))))).
  Proof.
    intros k l k' l' H H'. unfold M, row. cbn [fst snd]. rewrite !coef_app, !coef_opt.
    f_equal; [|f_equal; [|f_equal; [|f_equal; [|f_equal; [|f_equal]]]]]; unfold cS, cN, cW, cE, cpW, cpE, cD.
    - destruct (Nat.eqb_spec l 0) as [El|Hl]; cbn [negb andb]; [reflexivity|].
      replace (cell g k l - ncx)%nat with (cell g k (l - 1)) by (unfold cell; nia). rewrite tS_at, is30_at.
      destruct (air_at g (k + 1) l) eqn:Ea; cbn [negb andb].
      + destruct (peq_spec (k, l - 1)%nat (k', l')) as [E|E]; [|reflexivity]. injection E as <- <-.
        pose proof (act_air _ _ H') as F. replace (l - 1 + 1)%nat with l in F by lia. congruence.
      + rewrite eqb_peq; [reflexivity|now apply act_S|exact H'].
    - rewrite (east_at k) by apply H. rewrite tE_at. destruct (flag_at g (k + 2) (l + 1) =? -2)%Z eqn:E2; cbn [andb]; [|reflexivity].
      destruct (Nat.eqb_spec (k + 1) ncx) as [Ek|Hk]; cbn [andb]; [|reflexivity].
      replace (cell g k l - (ncx - 1))%nat with (cell g 0 l) by (unfold cell; nia). apply Z.eqb_eq in E2.
      assert (Ek' : k = (ncx - 1)%nat) by lia. assert (Ha' := H). rewrite Ek' in Ha'.
      destruct (act_pE l Ha' ltac:(rewrite <- E2; f_equal; lia)) as (H1 & _ & _ & _). rewrite eqb_peq by assumption. reflexivity.
    - destruct (Nat.eqb_spec k 0) as [El|Hl]; cbn [negb andb]; [reflexivity|].
      replace (cell g k l - 1)%nat with (cell g (k - 1) l) by (unfold cell; nia). rewrite tW_at, is30_at.
      destruct (air_at g k (l + 1)) eqn:Ea; cbn [negb andb].
      + destruct (peq_spec (k - 1, l)%nat (k', l')) as [E|E]; [|reflexivity]. injection E as <- <-.
        pose proof (act_air _ _ H') as F. replace (k - 1 + 1)%nat with k in F by lia. congruence.
      + rewrite eqb_peq; [reflexivity|now apply act_W|exact H'].
    - cbn [coef fold_right fst snd]. rewrite eqb_peq by assumption. destruct (peq _ _); ring.
    - rewrite (east_at k) by apply H. destruct (Nat.eqb_spec (k + 1) ncx) as [El|Hl]; cbn [negb andb]; [reflexivity|].
      replace (cell g k l + 1)%nat with (cell g (k + 1) l) by (unfold cell; nia). rewrite tE_at, is30_at.
      destruct (air_at g (k + 2) (l + 1)) eqn:Ea; cbn [negb andb].
      + destruct (peq_spec (k + 1, l)%nat (k', l')) as [E|E]; [|reflexivity]. injection E as <- <-.
        pose proof (act_air _ _ H') as F. replace (k + 1 + 1)%nat with (k + 2)%nat in F by lia. congruence.
      + rewrite eqb_peq; [reflexivity|now apply act_E|exact H'].
    - rewrite tW_at. destruct (flag_at g k (l + 1) =? -2)%Z eqn:E2; cbn [andb]; [|reflexivity].
      destruct (Nat.eqb_spec k 0) as [->|Hk]; cbn [andb]; [|reflexivity].
      replace (cell g 0 l + (ncx - 1))%nat with (cell g (ncx - 1) l) by (unfold cell; nia). apply Z.eqb_eq in E2.
      destruct (act_pW l H E2) as (H1 & _ & _ & _). rewrite eqb_peq by assumption. reflexivity.
    - rewrite (north_at l) by apply H. destruct (Nat.eqb_spec (l + 1) ncz) as [El|Hl]; cbn [negb andb]; [reflexivity|].
      replace (cell g k l + ncx)%nat with (cell g k (l + 1)) by (unfold cell; nia). rewrite tN_at, is30_at.
      destruct (air_at g (k + 1) (l + 2)) eqn:Ea; cbn [negb andb].
      + destruct (peq_spec (k, l + 1)%nat (k', l')) as [E|E]; [|reflexivity]. injection E as <- <-.
        pose proof (act_air _ _ H') as F. replace (l + 1 + 1)%nat with (l + 2)%nat in F by lia. congruence.
      + rewrite eqb_peq; [reflexivity|now apply act_N|exact H'].
  Qed.
  Lemma S_N : forall k l k' l', active g k l -> active g k' l' -> cS (k, l) (k', l') = cN (k', l') (k, l).
  Proof.
    intros k l k' l' H H'. unfold cS, cN. rewrite AS_at, AN_at. destruct H as (A1 & A2 & _), H' as (B1 & B2 & _).
    destruct (Nat.eqb_spec l 0) as [E|E], (Nat.eqb_spec (l' + 1) ncz) as [F|F], (peq_spec (k, l - 1)%nat (k', l')) as [P|P], (peq_spec (k', l' + 1)%nat (k, l)) as [Q|Q];
      cbn [negb andb]; try reflexivity; try (injection P as P1 P2); try (injection Q as Q1 Q2); try (exfalso; lia); try (exfalso; apply P; f_equal; lia); try (exfalso; apply Q; f_equal; lia).
    subst k'. replace (l' + 1)%nat with l by lia. reflexivity.
  Qed.
  Lemma W_E : forall k l k' l', active g k l -> active g k' l' -> cW (k, l) (k', l') = cE (k', l') (k, l).
  Proof.
    intros k l k' l' H H'. unfold cW, cE. rewrite AE_at. change (AW g k l) with (kvert g k l). destruct H as (A1 & A2 & _), H' as (B1 & B2 & _).
    destruct (Nat.eqb_spec k 0) as [E|E], (Nat.eqb_spec (k' + 1) ncx) as [F|F], (peq_spec (k - 1, l)%nat (k', l')) as [P|P], (peq_spec (k' + 1, l')%nat (k, l)) as [Q|Q];
      cbn [negb andb]; try reflexivity; try (injection P as P1 P2); try (injection Q as Q1 Q2); try (exfalso; lia); try (exfalso; apply P; f_equal; lia); try (exfalso; apply Q; f_equal; lia).
    subst l'. replace (k' + 1)%nat with k by lia. reflexivity.
  Qed.
  Lemma pW_pE : forall k l k' l', active g k l -> active g k' l' -> cpW (k, l) (k', l') = cpE (k', l') (k, l).
  Proof.
    intros k l k' l' H H'. unfold cpW, cpE. rewrite AE_at, tW_at, tE_at. change (AW g k l) with (kvert g k l).
    destruct (Nat.eqb_spec k 0) as [->|Hk]; [|rewrite andb_false_r; cbn [andb]; destruct (peq_spec (0, l')%nat (k, l)) as [P|P]; [injection P as P1 P2; lia|rewrite andb_false_r; reflexivity]].
    destruct (Nat.eqb_spec (k' + 1) ncx) as [Ek|Hk]; [|rewrite (andb_false_r (flag_at g (k' + 2) (l' + 1) =? -2)%Z); cbn [andb]; destruct (peq_spec (ncx - 1, l)%nat (k', l')) as [P|P]; [injection P as P1 P2; pose proof (proj1 H); lia|rewrite andb_false_r; reflexivity]].
    rewrite !andb_true_r.
    destruct (peq_spec (ncx - 1, l)%nat (k', l')) as [P|P], (peq_spec (0, l')%nat (0, l)%nat) as [Q|Q]; rewrite ?andb_true_r, ?andb_false_r.
    - injection Q as ->. destruct (Hper l (proj1 (proj2 H))) as [I J]. replace (k' + 2)%nat with (ncx + 1)%nat by lia. rewrite Ek.
      destruct (flag_at g 0 (l + 1) =? -2)%Z eqn:E1, (flag_at g (ncx + 1) (l + 1) =? -2)%Z eqn:E2; try reflexivity.
      + apply Z.eqb_eq in E1. destruct (J E1) as (J1 & _). rewrite J1. reflexivity.
      + apply Z.eqb_eq in E1. apply I in E1. apply Z.eqb_neq in E2. contradiction.
      + apply Z.eqb_eq in E2. apply I in E2. apply Z.eqb_neq in E1. contradiction.
    - exfalso. apply Q. injection P as P1 P2. congruence.
    - exfalso. apply P. injection Q as ->. f_equal. lia.
    - reflexivity.
  Qed.
  Lemma M_sym : forall c c', In c (fl g) -> In c' (fl g) -> M c c' = M c' c.
  Proof.
    intros [k l] [k' l'] H H'. apply in_fl_active in H, H'. rewrite !M_parts by assumption.
    rewrite (S_N k l k' l'), (W_E k l k' l'), (pW_pE k l k' l') by assumption. rewrite <- (S_N k' l' k l), <- (W_E k' l' k l), <- (pW_pE k' l' k l) by assumption.
    assert (D : cD (k, l) (k', l') = cD (k', l') (k, l)).
    { unfold cD. destruct (peq_spec (k, l) (k', l')) as [E|E], (peq_spec (k', l') (k, l)) as [F|F]; try reflexivity; congruence. }
    rewrite D. ring.
  Qed.

  (** *** the system handed over is the system of the rows *)
  Lemma low_M : forall c c', In c (fl g) -> In c' (fl g) -> low g (pos g c) (pos g c') = M c c'.
  Proof.
    intros c c' H H'. unfold low. rewrite !csr_is_row by assumption. destruct (eqn_pos g c H) as [E _], (eqn_pos g c' H') as [E' _]. rewrite <- E, <- E'.
    destruct (Nat.leb (pos g c') (pos g c)); [reflexivity|]. fold (M c' c). now apply M_sym.
  Qed.
  Lemma sum_fl : forall f, sumn (neq g) f = lsum (fun c => f (pos g c)) (fl g).
  Proof. intros f. rewrite sumn_lsum, <- pos_seq, lsum_map. reflexivity. Qed.
  (** columns of a row *)
  Lemma row_cols : forall k l e, active g k l -> In e (row g k l) -> exists c, In c (fl g) /\ fst e = eqn_t g (cell g (fst c) (snd c)).
  Proof.
    intros k l e H He. unfold row in He. rewrite !in_app_iff in He. unfold opt in He.
    destruct He as [He|[He|[He|[He|[He|[He|He]]]]]].
    - destruct (Nat.eqb_spec l 0) as [El|Hl]; cbn [negb andb] in He; [destruct He|]. rewrite tS_at, is30_at in He.
      destruct (air_at g (k + 1) l) eqn:Ea; [destruct He|]. destruct He as [<-|[]]. exists (k, l - 1)%nat. split; [apply in_fl_active; now apply act_S|]. cbn [fst snd]. f_equal. unfold cell. nia.
    - rewrite (east_at k) in He by apply H. rewrite tE_at in He. destruct (flag_at g (k + 2) (l + 1) =? -2)%Z eqn:E2; [|destruct He]. destruct (Nat.eqb_spec (k + 1) ncx) as [Ek|Hk]; [|destruct He].
      destruct He as [<-|[]]. apply Z.eqb_eq in E2. assert (Ek' : k = (ncx - 1)%nat) by lia. assert (Ha' := H). rewrite Ek' in Ha'.
      destruct (act_pE l Ha' ltac:(rewrite <- E2; f_equal; lia)) as (H1 & _). exists (0, l)%nat. split; [now apply in_fl_active|]. cbn [fst snd]. f_equal. unfold cell. nia.
    - destruct (Nat.eqb_spec k 0) as [El|Hl]; cbn [negb andb] in He; [destruct He|]. rewrite tW_at, is30_at in He.
      destruct (air_at g k (l + 1)) eqn:Ea; [destruct He|]. destruct He as [<-|[]]. exists (k - 1, l)%nat. split; [apply in_fl_active; now apply act_W|]. cbn [fst snd]. f_equal. unfold cell. nia.
    - destruct He as [<-|[]]. exists (k, l). split; [now apply in_fl_active|reflexivity].
    - rewrite (east_at k) in He by apply H. destruct (Nat.eqb_spec (k + 1) ncx) as [El|Hl]; cbn [negb andb] in He; [destruct He|]. rewrite tE_at, is30_at in He.
      destruct (air_at g (k + 2) (l + 1)) eqn:Ea; [destruct He|]. destruct He as [<-|[]]. exists (k + 1, l)%nat. split; [apply in_fl_active; now apply act_E|]. cbn [fst snd]. f_equal. unfold cell. nia.
    - rewrite tW_at in He. destruct (flag_at g k (l + 1) =? -2)%Z eqn:E2; [|destruct He]. destruct (Nat.eqb_spec k 0) as [->|Hk]; [|destruct He].
      destruct He as [<-|[]]. apply Z.eqb_eq in E2. destruct (act_pW l H E2) as (H1 & _). exists (ncx - 1, l)%nat. split; [now apply in_fl_active|]. cbn [fst snd]. f_equal. unfold cell. nia.
    - rewrite (north_at l) in He by apply H. destruct (Nat.eqb_spec (l + 1) ncz) as [El|Hl]; cbn [negb andb] in He; [destruct He|]. rewrite tN_at, is30_at in He.
      destruct (air_at g (k + 1) (l + 2)) eqn:Ea; [destruct He|]. destruct He as [<-|[]]. exists (k, l + 1)%nat. split; [apply in_fl_active; now apply act_N|]. cbn [fst snd]. f_equal. unfold cell. nia.
  Qed.
  Definition byeq (x : nat -> R) (z : Z) : R := x (Z.to_nat z).
  Lemma coef_dot : forall r x, (forall e, In e r -> exists c, In c (fl g) /\ fst e = eqn_t g (cell g (fst c) (snd c))) ->
    lsum (fun c => coef r (eqn_t g (cell g (fst c) (snd c))) * x (pos g c)) (fl g) = dot r (byeq x).
  Proof.
    induction r as [|[z a] r IH]; intros x H.
    - apply lsum_0. intros. cbn. ring.
    - cbn [dot fold_right fst snd]. fold (dot r (byeq x)). rewrite <- IH by (intros; apply H; now right).
      destruct (H (z, a) (or_introl eq_refl)) as [d [Hd Ez]]. cbn [fst] in Ez. subst z.
      rewrite (lsum_ext _ _ (fun c => (if (eqn_t g (cell g (fst d) (snd d)) =? eqn_t g (cell g (fst c) (snd c)))%Z then a * x (pos g c) else 0) + coef r (eqn_t g (cell g (fst c) (snd c))) * x (pos g c))).
      2:{ intros c _. cbn [coef fold_right fst snd]. fold (coef r (eqn_t g (cell g (fst c) (snd c)))). destruct (_ =? _)%Z; ring. }
      rewrite lsum_plus. f_equal.
      rewrite (lsum_pick _ (fun c => (eqn_t g (cell g (fst d) (snd d)) =? eqn_t g (cell g (fst c) (snd c)))%Z) (fun c => a * x (pos g c)) (fl g) d); [reflexivity| |apply nodup_fl|exact Hd].
      intros c Hc. now apply eqn_eqb.
  Qed.
  Lemma Mx : forall c x, In c (fl g) -> lsum (fun c' => M c c' * x (pos g c')) (fl g) = dot (row g (fst c) (snd c)) (byeq x).
  Proof. intros [k l] x H. unfold M. apply coef_dot. cbn [fst snd]. apply in_fl_active in H. intros e He. now apply row_cols with (1 := H). Qed.
  Lemma solved_rows : forall x b, solved g x b <-> forall c, In c (fl g) -> dot (row g (fst c) (snd c)) (byeq x) = b (pos g c).
  Proof.
    intros x b. unfold solved. split.
    - intros H c Hc. destruct (eqn_pos g c Hc) as [_ Hp]. rewrite <- (H _ Hp), sum_fl, <- Mx by exact Hc. apply lsum_ext. intros c' Hc'. rewrite low_M by assumption. reflexivity.
    - intros H i Hi. destruct (pos_surj g i Hi) as [c [Hc <-]]. rewrite <- (H c Hc), sum_fl, <- Mx by exact Hc. apply lsum_ext. intros c' Hc'. rewrite low_M by assumption. reflexivity.
  Qed.
  (** fields from solutions *)
  Lemma X_of : forall T x, (forall k l, active g k l -> T (cell g k l) = x (pos g (k, l))) -> X T (byeq x).
  Proof. intros T x H k l Ha. rewrite H by exact Ha. reflexivity. Qed.

  Lemma solved_balanced : forall src T T' x, bottom_ok g -> (forall k l, active g k l -> T' (cell g k l) = x (pos g (k, l))) ->
    (solved g x (rhs_vec g src T) <-> forall k l, active g k l -> balanced g src T T' k l).
  Proof.
    intros src T T' x Hb HT. rewrite solved_rows. destruct Hsp as (S1 & S2 & S3).
    assert (K : forall k l, active g k l -> (dot (row g k l) (byeq x) = rhs_vec g src T (pos g (k, l)) <-> balanced g src T T' k l)).
    { intros k l H. rewrite rhs_at by (now apply in_fl_active). cbn [fst snd]. pose proof (row_action T' (byeq x) k l (X_of T' x HT) H Hb) as RA.
      unfold balanced, rhs0, at_. cbn [fst snd]. change (k + l * ncx)%nat with (cell g k l).
      replace (g_rc g (cell g k l) * (T' (cell g k l) - T (cell g k l)) / g_dt g) with (g_rc g (cell g k l) / g_dt g * T' (cell g k l) - 1 * g_rc g (cell g k l) * T (cell g k l) / g_dt g) by (field; lra).
      split; intros E; lra. }
    split.
    - intros H k l Ha. apply K; [exact Ha|]. apply (H (k, l)). now apply in_fl_active.
    - intros H [k l] Hc. apply in_fl_active in Hc. cbn [fst snd]. apply K; auto.
  Qed.
End Core.
