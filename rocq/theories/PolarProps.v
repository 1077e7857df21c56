(** * C121: diffusion of heat and composition in polar mode *)
From Coq Require Import Reals ZArith List Bool Arith Lra Lia.
From Verif Require Import GridModel RheoModel DiffModel DiffProofs DiffCore LinSolve DiffProps PolarModel PolarProofs.
Import ListNotations.
Local Open Scope R_scope.

(** ** The solver: in polar mode the answer solves the assembled system whatever the matrix; otherwise if it is symmetric *)
Theorem C121_solve : forall polar n A b x, energy_solve polar n A b x ->
  polar = true \/ (forall i j, (i < n)%nat -> (j < n)%nat -> A i j = A j i) ->
  forall i, (i < n)%nat -> sumn n (fun j => A i j * x j) = b i.
Proof.
  intros [|] n A b x H HA i Hi; [now apply polar_solves|]. destruct HA as [E|HA]; [discriminate|].
  rewrite <- (H i Hi). apply sumn_ext. intros j Hj. rewrite (half_sym n A HA) by assumption. reflexivity.
Qed.
Print Assumptions C121_solve.
(** an answer exists whenever the matrix is regular *)
Theorem C121_answer_exists : forall n A b, (forall x, (forall i, (i < n)%nat -> sumn n (fun j => A i j * x j) = 0) -> forall j, (j < n)%nat -> x j = 0) ->
  exists x, energy_solve true n A b x.
Proof. exact polar_exists. Qed.
Print Assumptions C121_answer_exists.
(** Without polar mode an unsymmetric matrix is not the one that is solved. *)
Definition unsym (i j : nat) : R := if Nat.eqb i j then 1 else if Nat.eqb i 0 then 1 else 0.
Theorem C121_unsymmetric_refuted : exists n A b x, energy_solve false n A b x /\ energy_solve true n A b (fun i => if Nat.eqb i 0 then b 0%nat - b 1%nat else b 1%nat) /\
  ~ (forall i, (i < n)%nat -> sumn n (fun j => A i j * x j) = b i).
Proof.
  exists 2%nat, unsym, (fun _ => 1), (fun _ => 1). split; [|split].
  - intros i Hi. destruct i as [|[|i]]; [| |lia]; unfold sumn, half, unsym; cbn; ring.
  - exists (fun i => if Nat.eqb i 0 then 0 else 1). split.
    + intros i Hi. destruct i as [|[|i]]; [| |lia]; unfold sumn, half, times_transpose, sumn, unsym; cbn; ring.
    + intros i Hi. destruct i as [|[|i]]; [| |lia]; unfold sumn, unsym; cbn; ring.
  - intros H. specialize (H 0%nat ltac:(lia)). unfold sumn, unsym in H. cbn in H. lra.
Qed.
Print Assumptions C121_unsymmetric_refuted.

(** ** The balance of each cell *)
Theorem C121_balance : forall g p src out T T', usable g -> pstep g p src out T (Some T') ->
  (forall k l, active g k l -> pbalanced g p src T T' k l /\ 0 <= at_ g T' (k, l)) /\
  (forall k l, (k < g_ncx g)%nat -> (l < g_ncz g)%nat -> air_at g (k + 1) (l + 1) = true -> at_ g T' (k, l) = out) /\
  (forall j, (g_ncx g * g_ncz g <= j)%nat -> T' j = T j).
Proof.
  intros g p src out T T' (Hp & Hs & Hb) [x [Hx HT]]. pose proof (extract_facts g x out T) as F. rewrite <- HT in F. destruct F as (F1 & F2 & F3).
  assert (HT' : forall k l, active g k l -> T' (cell g k l) = x (pos g (k, l))).
  { intros k l Ha. rewrite F1 by apply Ha. assert (Hf := Ha). apply in_fl_active, in_fl in Hf. destruct Hf as [_ ->]. reflexivity. }
  repeat split.
  - apply (proj1 (psolved_balanced g p Hp Hs src T T' x Hb HT')); [|assumption]. now apply polar_solves.
  - unfold at_. cbn [fst snd]. change (0 <= T' (cell g k l)). rewrite HT' by assumption. apply F2. now apply in_fl_active.
  - intros k l Hk Hl Hair. unfold at_. cbn [fst snd]. change (T' (cell g k l) = out). rewrite F1 by assumption.
    unfold air_at, flag_at in Hair. unfold fluid, ext. rewrite Hair. reflexivity.
  - exact F3.
Qed.
Print Assumptions C121_balance.

(** ** Comparison *)
Section PAux.
  Variable g : dgrid.
  Variable p : pcoord.
  Hypothesis Hu : usable g.
  Hypothesis Hph : physical g.
  Hypothesis Hm : moderate g p.
  Let Hsp : spacings_ok g := proj1 (proj2 Hu).

  Lemma to_mono : forall a kf T1 T2 k l, a <= 1 -> 0 <= kf ->
    at_ g T2 (k, l) - at_ g T1 (k, l) <= at_ g T2 (k, l + 1)%nat - at_ g T1 (k, l + 1)%nat -> to_above g T1 a kf k l <= to_above g T2 a kf k l.
  Proof.
    intros a kf T1 T2 k l Ha Hk H. destruct Hsp as (S1 & _ & _). unfold to_above, Rdiv. apply Rmult_le_compat_r; [left; apply Rinv_0_lt_compat; nra|].
    apply Rmult_le_compat_l; [|lra]. apply Rmult_le_pos; lra.
  Qed.
  Lemma to_zero_mono : forall a kf T1 T2 k l, a <= 1 -> 0 <= kf -> at_ g T2 (k, l) <= at_ g T1 (k, l) -> to_zero g T1 a kf k l <= to_zero g T2 a kf k l.
  Proof.
    intros a kf T1 T2 k l Ha Hk H. destruct Hsp as (S1 & _ & _). unfold to_zero, Rdiv. apply Ropp_le_contravar. apply Rmult_le_compat_r; [left; apply Rinv_0_lt_compat; nra|].
    apply Rmult_le_compat_l; [|lra]. apply Rmult_le_pos; lra.
  Qed.
  Lemma over_cell : forall k l, active g k l -> over g k l = CellAbove -> active g k (l + 1).
  Proof.
    intros k l Ha E. unfold over in E. destruct (air_at g (k + 1) (l + 2)) eqn:Ea; [discriminate|]. destruct (Nat.eqb_spec (l + 1) (g_ncz g)); [discriminate|]. now apply act_N.
  Qed.
  Lemma gain_mono : forall T1 T2 k l, active g k l -> at_ g T2 (k, l) <= at_ g T1 (k, l) ->
    (forall k' l', active g k' l' -> at_ g T2 (k, l) - at_ g T1 (k, l) <= at_ g T2 (k', l') - at_ g T1 (k', l')) ->
    west_gain g p T1 k l <= west_gain g p T2 k l /\ east_gain g p T1 k l <= east_gain g p T2 k l.
  Proof.
    intros T1 T2 k l Ha H0 H. destruct (Hm l (proj1 (proj2 Ha))) as [M1 M2]. destruct Hph as (P1 & _).
    unfold west_gain, east_gain. pose proof (over_cell k l Ha) as Ho.
    destruct (over g k l); (split; [destruct (Nat.eqb k 0); [|lra]|destruct (Nat.eqb (k + 1) (g_ncx g)); [|lra]]); try lra;
      try (apply to_zero_mono; [assumption|apply P1|assumption]); apply to_mono; try assumption; try apply P1; apply H; now apply Ho.
  Qed.
  Lemma pcompare : forall src1 src2 T1 T2 T1' T2',
    (forall k l, active g k l -> pbalanced g p src1 T1 T1' k l) -> (forall k l, active g k l -> pbalanced g p src2 T2 T2' k l) ->
    (forall k l, active g k l -> at_ g T1 (k, l) <= at_ g T2 (k, l)) -> (forall k l, active g k l -> at_ g src1 (k, l) <= at_ g src2 (k, l)) ->
    forall k l, active g k l -> at_ g T1' (k, l) <= at_ g T2' (k, l).
  Proof.
    intros src1 src2 T1 T2 T1' T2' B1 B2 H0 Hs k l Ha.
    destruct (argmin (fun c => at_ g T2' c - at_ g T1' c) (fl g)) as [[k0 l0] [Hmi Hmin]]; [intros E; apply in_fl_active in Ha; rewrite E in Ha; destruct Ha|].
    pose proof (Hmin (k, l) ltac:(now apply in_fl_active)) as Hkl. cbv beta in Hkl.
    cut (0 <= at_ g T2' (k0, l0) - at_ g T1' (k0, l0)); [lra|].
    apply Rnot_lt_le. intros Hneg. apply in_fl_active in Hmi. specialize (B1 k0 l0 Hmi). specialize (B2 k0 l0 Hmi). unfold pbalanced in B1, B2.
    assert (Hside : forall s, enters g T1' s k0 l0 / spacing g s <= enters g T2' s k0 l0 / spacing g s).
    { intros s. pose proof (spacing_pos g Hu s) as Hh. unfold Rdiv at 1 2. apply Rmult_le_compat_r; [left; now apply Rinv_0_lt_compat|].
      unfold enters. destruct (touches g s k0 l0) as [|c a|v a|q] eqn:Et; [lra| | |lra].
      - destruct (touched_cell g Hu Hph s k0 l0 c a Hmi Et) as [Hc Hpos]. apply in_fl_active in Hc. rewrite <- surjective_pairing in Hc. specialize (Hmin c Hc). cbv beta in Hmin.
        unfold Rdiv. apply Rmult_le_compat_r; [left; now apply Rinv_0_lt_compat|]. apply Rmult_le_compat_l; [exact Hpos|lra].
      - pose proof (touched_value g Hph s k0 l0 v a Et) as Hpos. unfold Rdiv at 1 3. apply Rmult_le_compat_r; [left; apply Rinv_0_lt_compat; lra|]. apply Rmult_le_compat_l; [exact Hpos|lra]. }
    destruct (gain_mono T1' T2' k0 l0 Hmi ltac:(lra) ltac:(intros k' l' H'; apply (Hmin (k', l')); now apply in_fl_active)) as [G1 G2].
    specialize (H0 k0 l0 Hmi). specialize (Hs k0 l0 Hmi). pose proof (Hside South). pose proof (Hside West). pose proof (Hside East). pose proof (Hside North).
    unfold allsides in B1, B2. destruct Hph as (_ & _ & _ & P4). specialize (P4 k0 l0 Hmi). destruct Hsp as (_ & _ & S3).
    set (rc := at_ g (g_rc g) (k0, l0)) in *.
    assert (Hle : rc * (at_ g T1' (k0, l0) - at_ g T1 (k0, l0)) / g_dt g <= rc * (at_ g T2' (k0, l0) - at_ g T2 (k0, l0)) / g_dt g) by lra.
    apply (Rmult_le_compat_r (g_dt g)) in Hle; [|lra]. unfold Rdiv in Hle. rewrite !Rmult_assoc, Rinv_l, !Rmult_1_r in Hle by lra.
    apply Rmult_le_reg_l in Hle; [lra|exact P4].
  Qed.
End PAux.

(** the matrix of polar mode is regular *)
Lemma polar_kernel : forall g p, usable g -> physical g -> moderate g p -> trivial_kernel (neq g) (pmat g p).
Proof.
  intros g p Hu Hph Hm x H j Hj. destruct (pos_surj g j Hj) as [c [Hc <-]]. destruct Hu as (Hp & Hs & Hb).
  set (g0 := Dgrid (g_ncx g) (g_ncz g) (g_dx g) (g_dz g) (g_dt g) (g_typ g) (fun _ => 0) (g_kx g) (g_kz g) (g_rc g) (g_mink g)).
  assert (U0 : usable g0) by (split; [exact Hp|split; [exact Hs|intros k Hk Ht; left; reflexivity]]).
  assert (B : forall k l, active g0 k l -> pbalanced g0 p (fun _ => 0) (fun _ => 0) (field_of g0 x) k l).
  { apply (psolved_balanced g0 p (proj1 U0) (proj1 (proj2 U0)) (fun _ => 0) (fun _ => 0) (field_of g0 x) x (proj2 (proj2 U0))).
    - intros k l Ha. apply field_of_cell. apply Ha.
    - intros i Hi. change (pmat g0 p) with (pmat g p). change (neq g0) with (neq g). rewrite H by exact Hi. symmetry.
      destruct (pos_surj g0 i Hi) as [d [Hd <-]]. rewrite rhs_at by exact Hd. unfold rhs0, bbc.
      assert (Fb : forall b t i k l, flux_bbc g0 b t i k l = 0) by (intros [|] t i' k' l'; unfold flux_bbc, vC; cbn [g_val g0]; [|reflexivity]; destruct (negb _); [reflexivity|]; destruct (_ =? _)%Z; [ring|reflexivity]).
      assert (Wb : forall b t a i, wall_bbc b t a i 0 = 0) by (intros b t a i'; unfold wall_bbc; destruct (_ && _); [ring|reflexivity]).
      rewrite !Fb. change (vS g0) with (fun _ _ : nat => 0). change (vW g0) with (fun _ _ : nat => 0). change (vE g0) with (fun _ _ : nat => 0). change (vN g0) with (fun _ _ : nat => 0). cbv beta. rewrite !Wb.
      destruct (_ && _); unfold Rdiv; ring. }
  assert (Z : forall k l, active g0 k l -> pbalanced g0 p (fun _ => 0) (fun _ => 0) (fun _ => 0) k l).
  { intros k l _. unfold pbalanced, allsides, enters, west_gain, east_gain, to_above, to_zero, at_. cbn [g_rc g0]. destruct Hs as (S1 & S2 & S3).
    assert (Ht : forall s, match touches g0 s k l with Closed => 0 | ToCell _ a => a * (0 - 0) / spacing g0 s | ToValue v a => a * (v - 0) / (spacing g0 s / 2) | Flux q => - q end = 0).
    { intros s. unfold touches, surface, val_at. cbn [g_val g0]. destruct s;
      repeat match goal with |- context [if ?b then _ else _] => destruct b end; unfold Rdiv; ring. }
    rewrite !Ht. cbn [g_dt g_dx g_dz g_ncx g0 spacing]. destruct (over g0 k l), (Nat.eqb k 0), (Nat.eqb (k + 1) (g_ncx g)); unfold Rdiv; ring. }
  destruct c as [k l]. apply in_fl_active in Hc.
  pose proof (pcompare g0 p U0 Hph Hm _ _ _ _ _ _ B Z ltac:(intros; lra) ltac:(intros; lra) k l Hc) as L1.
  pose proof (pcompare g0 p U0 Hph Hm _ _ _ _ _ _ Z B ltac:(intros; lra) ltac:(intros; lra) k l Hc) as L2.
  unfold at_ in L1, L2. cbn [fst snd] in L1, L2. change (k + l * g_ncx g0)%nat with (cell g0 k l) in *. rewrite !field_of_cell in L1, L2 by apply Hc. change (pos g0 (k, l)) with (pos g (k, l)) in *. lra.
Qed.
(** ** Every solve in polar mode has one outcome *)
Theorem C121_one_outcome : forall g p src out T, usable g -> physical g -> moderate g p ->
  exists o, pstep g p src out T o /\
    (forall o', pstep g p src out T o' -> match o, o' with None, None => True | Some T1, Some T2 => forall j, T1 j = T2 j | _, _ => False end).
Proof.
  intros g p src out T Hu Hph Hm. pose proof (polar_kernel g p Hu Hph Hm) as K.
  destruct (polar_exists (neq g) (pmat g p) (rhs_vec g src T) K) as [x Hx]. exists (extract g x out T). split; [exists x; split; [exact Hx|reflexivity]|].
  intros o' (x' & Hx' & ->).
  assert (E : forall c, In c (fl g) -> x (pos g c) = x' (pos g c)).
  { intros c Hc. apply Rminus_diag_uniq. apply (K (fun j => x j - x' j)); [|apply eqn_pos; exact Hc]. intros i Hi.
    rewrite (sumn_ext _ _ (fun j => pmat g p i j * x j + (-1) * (pmat g p i j * x' j))) by (intros; ring).
    rewrite sumn_plus, sumn_scal, (polar_solves _ _ _ _ Hx i Hi), (polar_solves _ _ _ _ Hx' i Hi). ring. }
  pose proof (extract_facts g x out T) as F. pose proof (extract_facts g x' out T) as F'.
  destruct (extract g x out T) as [T1|], (extract g x' out T) as [T2|].
  - destruct F as (F1 & _ & F3), F' as (F1' & _ & F3'). intros j. destruct (lt_dec j (g_ncx g * g_ncz g)) as [Hj|Hj]; [|now rewrite F3, F3' by lia].
    assert (N0 : (g_ncx g <> 0)%nat) by (intros N; rewrite N in Hj; lia).
    pose proof (Nat.div_mod j (g_ncx g) N0) as D. pose proof (Nat.mod_upper_bound j (g_ncx g) N0) as U.
    assert (L : (j / g_ncx g < g_ncz g)%nat) by (apply Nat.div_lt_upper_bound; lia).
    replace j with (cell g (j mod g_ncx g) (j / g_ncx g)) by (unfold cell; lia). rewrite F1, F1' by assumption.
    destruct (fluid g (j mod g_ncx g) (j / g_ncx g)) eqn:Ef; [|reflexivity]. apply (E (_, _)). apply in_fl. tauto.
  - destruct F as (_ & F2 & _), F' as (c & Hc & Hn). specialize (F2 c Hc). rewrite (E c Hc) in F2. lra.
  - destruct F as (c & Hc & Hn), F' as (_ & F2 & _). specialize (F2 c Hc). rewrite (E c Hc) in Hn. lra.
  - exact I.
Qed.
Print Assumptions C121_one_outcome.

(** The fractions are between 0 and pi/2 times the ratio of the spacings. *)
Theorem C121_fraction : forall g p x l, 0 < g_dx g -> 0 < g_dz g -> 0 < fraction g p x l < PI / 2 * (g_dx g / g_dz g).
Proof.
  intros g p x l Hx Hz. unfold fraction. pose proof (atan_bound (p_zc p l / x)) as B.
  assert (A : 0 < PI / 2 - Rabs (atan (p_zc p l / x))) by (unfold Rabs; destruct (Rcase_abs _); lra).
  pose proof (atan_increasing _ _ A) as I. rewrite atan_0 in I. pose proof (atan_bound (PI / 2 - Rabs (atan (p_zc p l / x)))) as B'.
  set (t := atan (PI / 2 - Rabs (atan (p_zc p l / x)))) in *. assert (Q : 0 < g_dx g / g_dz g) by (apply Rdiv_lt_0_compat; assumption).
  replace (t * g_dx g / g_dz g) with (t * (g_dx g / g_dz g)) by (unfold Rdiv; ring). split; [apply Rmult_lt_0_compat; assumption|]. apply Rmult_lt_compat_r; lra.
Qed.
Print Assumptions C121_fraction.

(** ** A uniform body stays uniform if no heat can pass the sides of the uppermost cells of the side columns, and only then *)
Definition only_feels (g : dgrid) (v : R) : Prop := forall k l s, active g k l ->
  match touches g s k l with Closed | ToCell _ _ => True | ToValue w _ => w = v | Flux q => q = 0 end.
Definition sides_covered (g : dgrid) : Prop :=
  (forall l, active g 0 l -> over g 0 l <> NothingAbove \/ kvert g 0 l = 0) /\
  (forall l, active g (g_ncx g - 1) l -> over g (g_ncx g - 1) l = CellAbove \/ kvert g (g_ncx g) l = 0).
Theorem C121_uniform : forall g p out T T' v, usable g -> physical g -> moderate g p -> only_feels g v -> sides_covered g ->
  (forall k l, active g k l -> at_ g T (k, l) = v) -> pstep g p (fun _ => 0) out T (Some T') -> forall k l, active g k l -> at_ g T' (k, l) = v.
Proof.
  intros g p out T T' v Hu Hph Hm Hf (Sw & Se) HT Hst k l Ha. pose proof (C121_balance g p _ out T T' Hu Hst) as (B & _ & _).
  assert (U : forall k l, active g k l -> pbalanced g p (fun _ => 0) T (fun _ => v) k l).
  { clear k l Ha. intros k l Ha. unfold pbalanced. rewrite (HT k l Ha). unfold west_gain, east_gain, to_above, at_.
    assert (Z : forall s, enters g (fun _ => v) s k l = 0).
    { intros s. unfold enters, at_. specialize (Hf k l s Ha). destruct (touches g s k l); [reflexivity| | |]; [unfold Rdiv; ring|subst; unfold Rdiv; ring|subst; ring]. }
    unfold allsides. rewrite !Z.
    assert (W : (if Nat.eqb k 0 then match over g k l with AirAbove => 0 | CellAbove => (1 - fraction g p (west_x g p) l) * kvert g 0 l * (v - v) / (g_dx g * g_dx g) | NothingAbove => to_zero g (fun _ => v) (fraction g p (west_x g p) l) (kvert g 0 l) k l end else 0) = 0).
    { destruct (Nat.eqb_spec k 0) as [-> | _]; [|reflexivity]. specialize (Sw l Ha). destruct (over g 0 l); [reflexivity|unfold Rdiv; ring|]. destruct Sw as [Sw|Sw]; [congruence|]. unfold to_zero. rewrite Sw. unfold Rdiv; ring. }
    rewrite W.
    assert (E : (if Nat.eqb (k + 1) (g_ncx g) then match over g k l with CellAbove => (1 - fraction g p (east_x g p) l) * kvert g (k + 1) l * (v - v) / (g_dx g * g_dx g) | _ => to_zero g (fun _ => v) (fraction g p (east_x g p) l) (kvert g (k + 1) l) k l end else 0) = 0).
    { destruct (Nat.eqb_spec (k + 1) (g_ncx g)) as [Ek|_]; [|reflexivity]. assert (Ek' : k = (g_ncx g - 1)%nat) by lia. subst k. rewrite Ek. destruct (Se l Ha) as [Eo|Eo]; [rewrite Eo; unfold Rdiv; ring|]. rewrite Eo. destruct (over g (g_ncx g - 1) l); unfold to_zero, Rdiv; ring. }
    rewrite E. unfold Rdiv. ring. }
  assert (B' : forall k l, active g k l -> pbalanced g p (fun _ => 0) T T' k l) by (intros; now apply B).
  pose proof (pcompare g p Hu Hph Hm _ _ _ _ _ _ B' U ltac:(intros; lra) ltac:(intros; lra) k l Ha) as L1.
  pose proof (pcompare g p Hu Hph Hm _ _ _ _ _ _ U B' ltac:(intros; lra) ltac:(intros; lra) k l Ha) as L2.
  unfold at_ in L1 at 2. unfold at_ in L2 at 1. lra.
Qed.
Print Assumptions C121_uniform.

Theorem C121_uniform_lost : forall g p out T T' v l, usable g -> physical g -> only_feels g v -> 0 < v ->
  (forall k l, active g k l -> at_ g T (k, l) = v) -> pstep g p (fun _ => 0) out T (Some T') ->
  active g (g_ncx g - 1) l -> over g (g_ncx g - 1) l <> CellAbove -> 0 < kvert g (g_ncx g) l -> fraction g p (east_x g p) l < 1 ->
  (g_ncx g = 1%nat -> fraction g p (west_x g p) l <= 1) ->
  ~ (forall k l, active g k l -> at_ g T' (k, l) = v).
Proof.
  intros g p out T T' v l Hu Hph Hf Hv HT Hst Ha Ho Hk Hfr Hw1 HU. pose proof (C121_balance g p _ out T T' Hu Hst) as (B & _ & _).
  destruct (B _ _ Ha) as [Bl _]. unfold pbalanced in Bl. rewrite (HU _ _ Ha), (HT _ _ Ha) in Bl. destruct Hu as (Hper & (S1 & S2 & S3) & Hb).
  assert (Z : forall s, enters g T' s (g_ncx g - 1) l = 0).
  { intros s. unfold enters. pose proof (Hf _ _ s Ha) as F. destruct (touches g s (g_ncx g - 1) l) as [|c a|w a|q] eqn:Et; [reflexivity| | |subst; ring].
    - destruct (touched_cell g (conj Hper (conj (conj S1 (conj S2 S3)) Hb)) Hph s _ _ c a Ha Et) as [Hc _]. rewrite (surjective_pairing c), (HU _ _ Hc), (HU _ _ Ha). unfold Rdiv; ring.
    - subst w. rewrite (HU _ _ Ha). unfold Rdiv; ring. }
  unfold allsides in Bl. rewrite !Z in Bl.
  assert (E : east_gain g p T' (g_ncx g - 1) l < 0).
  { unfold east_gain. replace (g_ncx g - 1 + 1)%nat with (g_ncx g) by (destruct Ha; lia). rewrite Nat.eqb_refl.
    assert (N : to_zero g T' (fraction g p (east_x g p) l) (kvert g (g_ncx g) l) (g_ncx g - 1) l < 0).
    { unfold to_zero. rewrite (HU _ _ Ha). apply Ropp_lt_gt_0_contravar. apply Rdiv_lt_0_compat; [|nra]. apply Rmult_lt_0_compat; [|exact Hv]. apply Rmult_lt_0_compat; lra. }
    destruct (over g (g_ncx g - 1) l); [exact N|congruence|exact N]. }
  assert (W : west_gain g p T' (g_ncx g - 1) l <= 0).
  { unfold west_gain. destruct (Nat.eqb_spec (g_ncx g - 1) 0) as [E1|_]; [|lra]. destruct (over g (g_ncx g - 1) l) eqn:Eo; [lra|congruence|].
    assert (g_ncx g = 1%nat) by (destruct Ha; lia). specialize (Hw1 H). unfold to_zero. rewrite (HU _ _ Ha).
    apply Rge_le, Ropp_0_le_ge_contravar. unfold Rdiv. apply Rmult_le_pos; [|left; apply Rinv_0_lt_compat; nra]. apply Rmult_le_pos; [|lra]. destruct Hph as (P1 & _). apply Rmult_le_pos; [lra|apply P1]. }
  change (at_ g (fun _ : nat => 0) (g_ncx g - 1, l)%nat) with 0 in Bl. unfold Rdiv in Bl. rewrite Rminus_eq_0 in Bl. lra.
Qed.
Print Assumptions C121_uniform_lost.

(** a field that satisfies the balance is the outcome of the solve *)
Lemma balanced_is_outcome : forall g p src out T x, usable g -> physical g -> moderate g p -> (forall i, 0 <= x i) ->
  (forall k l, active g k l -> pbalanced g p src T (field_of g x) k l) ->
  exists T', pstep g p src out T (Some T') /\ forall k l, active g k l -> at_ g T' (k, l) = x (pos g (k, l)).
Proof.
  intros g p src out T x Hu Hph Hm Hx B. pose proof (polar_kernel g p Hu Hph Hm) as K. destruct Hu as (Hp & Hs & Hb) eqn:Eu.
  assert (S : forall i, (i < neq g)%nat -> sumn (neq g) (fun j => pmat g p i j * x j) = rhs_vec g src T i).
  { apply (psolved_balanced g p Hp Hs src T (field_of g x) x Hb); [|exact B]. intros k l Ha. apply field_of_cell. apply Ha. }
  destruct (polar_exists (neq g) (pmat g p) (rhs_vec g src T) K) as [x0 Hx0]. pose proof Hx0 as (y & Hy & Hxy).
  assert (E : forall i, (i < neq g)%nat -> x i = x0 i).
  { intros i Hi. apply Rminus_diag_uniq. apply (K (fun j => x j - x0 j)); [|exact Hi]. intros m Hmm.
    rewrite (sumn_ext _ _ (fun j => pmat g p m j * x j + (-1) * (pmat g p m j * x0 j))) by (intros; ring).
    rewrite sumn_plus, sumn_scal, (S m Hmm), (polar_solves _ _ _ _ Hx0 m Hmm). ring. }
  pose proof (extract_facts g x out T) as F. destruct (extract g x out T) as [T'|] eqn:ET.
  - exists T'. split.
    + exists x. split; [|symmetry; exact ET]. exists y. split; [exact Hy|]. intros i Hi. rewrite E by exact Hi. now apply Hxy.
    + intros k l Ha. destruct F as (F1 & _ & _). unfold at_. cbn [fst snd]. change (T' (cell g k l) = x (pos g (k, l))). rewrite F1 by apply Ha.
      assert (Hf := Ha). apply in_fl_active, in_fl in Hf. destruct Hf as [_ ->]. reflexivity.
  - destruct F as (c & _ & Hn). specialize (Hx (pos g c)). lra.
Qed.

(** ** What polar mode does not do *)
(** one column of two cells, closed all around; [top] is the flag of the upper cell *)
Definition g_two (top : Z) : dgrid := Dgrid 1 2 1 4 1 (fun j => nth j [2;2;2; 2;-1;2; 2;top;2; 2;2;2]%Z 2%Z) (fun _ => 0) (fun _ => 1) (fun _ => 1) (fun _ => 1) 0.
Definition p_two : pcoord := Pcoord (fun i => match i with O => -1 / 2 | _ => 1 / 2 end) (fun _ => 1).
Lemma two_usable : forall top, usable (g_two top) /\ physical (g_two top) /\ moderate (g_two top) p_two.
Proof.
  intros top. split; [split; [|split]|split].
  - intros l Hl. cbn in Hl. split; [|intros E]; (destruct l as [|[|l]]; [| |lia]; cbn in *; (split; discriminate) || discriminate).
  - repeat split; cbn; lra.
  - intros k _ _. left. reflexivity.
  - repeat split; intros; unfold kvert, khoriz, at_; cbn [g_kx g_kz g_rc g_mink g_two]; lra.
  - intros l _. pose proof PI_4. pose proof (C121_fraction (g_two top) p_two (west_x (g_two top) p_two) l ltac:(cbn; lra) ltac:(cbn; lra)) as F1.
    pose proof (C121_fraction (g_two top) p_two (east_x (g_two top) p_two) l ltac:(cbn; lra) ltac:(cbn; lra)) as F2. cbn [g_dx g_dz g_two] in F1, F2. split; lra.
Qed.
Lemma two_half : forall top x l, fraction (g_two top) p_two x l < 1 / 2.
Proof. intros top x l. pose proof PI_4. pose proof (C121_fraction (g_two top) p_two x l ltac:(cbn; lra) ltac:(cbn; lra)) as F. cbn [g_dx g_dz g_two] in F. lra. Qed.

(** The cell of the east side that lies below the air (or below a closed top) exchanges heat with a neighbour at zero: a closed
    body of uniform temperature 1, without sources, cools there. *)
Theorem C121_surface_refuted : exists g p out T T', usable g /\ physical g /\ moderate g p /\ only_feels g 1 /\
  (forall k l, active g k l -> at_ g T (k, l) = 1) /\ pstep g p (fun _ => 0) out T (Some T') /\
  exists k l, active g k l /\ over g k l = AirAbove /\ at_ g T' (k, l) < 1.
Proof.
  set (g := g_two 30). set (a := fraction g p_two (east_x g p_two) 0). assert (Ha : a < 1 / 2) by apply two_half.
  destruct (two_usable 30) as (U & P & M). fold g in U, P, M.
  assert (act : forall k l, active g k l -> k = 0%nat /\ l = 0%nat).
  { intros k l (A1 & A2 & A3). cbn in A1, A2. assert (k = 0%nat) by lia. subst k. destruct l as [|[|l]]; [auto|discriminate|lia]. }
  destruct (balanced_is_outcome g p_two (fun _ => 0) 0 (fun _ => 1) (fun _ => 1 / (2 - a)) U P M) as (T' & HS & HT).
  - intros _. left. apply Rdiv_lt_0_compat; lra.
  - intros k l H. destruct (act k l H) as [-> ->]. unfold pbalanced, west_gain, east_gain, to_zero, allsides, enters.
    change (touches g South 0 0) with Closed. change (touches g West 0 0) with Closed. change (touches g East 0 0) with Closed. change (touches g North 0 0) with Closed.
    change (over g 0 0) with AirAbove. fold a. unfold at_, field_of, kvert. cbn [g_kx g_rc g_dt g_dx g_ncx Nat.eqb Nat.add g g_two spacing]. field. split; [lra|]. change (g_dz g) with 4. lra.
  - exists g, p_two, 0, (fun _ => 1), T'. split; [exact U|]. split; [exact P|]. split; [exact M|].
    split; [intros k l s H; destruct (act k l H) as [-> ->]; destruct s; exact I|]. split; [reflexivity|]. split; [exact HS|].
    exists 0%nat, 0%nat. assert (A : active g 0 0) by (repeat split; cbn; lia). split; [exact A|]. split; [reflexivity|].
    rewrite (HT 0%nat 0%nat A). apply (Rmult_lt_reg_r (2 - a)); [lra|]. unfold Rdiv. rewrite Rmult_1_l, Rinv_l by lra. lra.
Qed.
Print Assumptions C121_surface_refuted.

(** The fraction is the height, in units of the vertical spacing, at which the ghost cell of the side meets the column of the cell.
    Linear interpolation at that height gives the cell itself the weight [1 - fraction]; the code gives it the weight [fraction].
    A closed side next to which the temperature decreases upwards loses more heat than the interpolation asks for. *)
Theorem C121_zero_flux_refuted : exists g p src out T T', usable g /\ physical g /\ moderate g p /\ pstep g p src out T (Some T') /\
  active g 0 0 /\ touches g West 0 0 = Closed /\ over g 0 0 = CellAbove /\ at_ g T' (0, 1)%nat < at_ g T' (0, 0)%nat /\
  west_gain g p T' 0 0 < fraction g p (west_x g p) 0 * kvert g 0 0 * (at_ g T' (0, 1)%nat - at_ g T' (0, 0)%nat) / (g_dx g * g_dx g).
Proof.
  set (g := g_two (-1)). destruct (two_usable (-1)) as (U & P & M). fold g in U, P, M.
  set (x := fun i : nat => match i with O => 2 | _ => 1 end).
  set (src := fun j : nat => 0 - (allsides (fun s => enters g (field_of g x) s 0 j / spacing g s) + west_gain g p_two (field_of g x) 0 j + east_gain g p_two (field_of g x) 0 j)).
  destruct (balanced_is_outcome g p_two src 0 (field_of g x) x U P M) as (T' & HS & HT).
  - intros [|i]; cbn; lra.
  - intros k l (A1 & A2 & A3). cbn in A1. assert (k = 0%nat) by lia. subst k. unfold pbalanced. unfold at_ at 4. cbn [fst snd].
    replace (0 + l * g_ncx g)%nat with l by (cbn; lia). unfold src. unfold Rdiv at 1. ring.
  - assert (A0 : active g 0 0) by (repeat split; cbn; lia). assert (A1 : active g 0 1) by (repeat split; cbn; lia).
    pose proof (HT _ _ A0) as E0. pose proof (HT _ _ A1) as E1. change (x (pos g (0, 0)%nat)) with 2 in E0. change (x (pos g (0, 1)%nat)) with 1 in E1.
    exists g, p_two, src, 0, (field_of g x), T'. split; [exact U|]. split; [exact P|]. split; [exact M|]. split; [exact HS|]. split; [exact A0|]. split; [reflexivity|]. split; [reflexivity|].
    split; [rewrite E0, E1; lra|]. unfold west_gain. change (over g 0 0) with CellAbove. cbn [Nat.eqb]. unfold to_above. change (0 + 1)%nat with 1%nat. rewrite E0, E1.
    pose proof (two_half (-1) (west_x g p_two) 0) as H. fold g in H. set (a := fraction g p_two (west_x g p_two) 0) in *. change (kvert g 0 0) with 1. cbn [g_dx g g_two]. lra.
Qed.
Print Assumptions C121_zero_flux_refuted.

(** ** Examples *)
Definition g_pol : dgrid := Dgrid 2 2 1 4 1 (fun j => nth j [2;2;2;2; 2;-1;-1;2; 2;30;30;2; 2;2;2;2]%Z 2%Z) (fun _ => 0) (fun _ => 1) (fun _ => 1) (fun _ => 1) 0.
Example C121_ex_over : over g_pol 0 0 = AirAbove /\ active g_pol 1 0 /\ over (g_two (-1)) 0 0 = CellAbove /\ over (g_two (-1)) 0 1 = NothingAbove.
Proof. repeat split; cbn; lia. Qed.
Example C121_ex_solve : energy_solve true 2 unsym (fun i => INR i) (fun i => if Nat.eqb i 0 then -1 else 1).
Proof.
  exists (fun i => if Nat.eqb i 0 then -1 else 2). split; intros i Hi; destruct i as [|[|i]]; try lia; unfold sumn, half, times_transpose, sumn, unsym; cbn; ring.
Qed.
(** a column whose upper cell is kept at the fixed value 5 of its surface and whose lower cell touches it *)
Definition g_col : dgrid := Dgrid 2 2 1 4 1 (fun j => nth j [2;2;2;2; 2;-1;-1;2; 2;-1;-1;2; 30;30;30;30]%Z 2%Z) (fun _ => 5) (fun _ => 1) (fun _ => 1) (fun _ => 1) 0.
Example C121_ex_feels : only_feels g_col 5 /\ over g_col 0 0 = CellAbove /\ over g_col 1 0 = CellAbove /\ over g_col 0 1 = AirAbove /\ over g_col 1 1 = AirAbove.
Proof.
  split; [|repeat split]. intros k l s (A1 & A2 & _). cbn in A1, A2. destruct k as [|[|k]]; [| |lia]; (destruct l as [|[|l]]; [| |lia]); destruct s; exact I.
Qed.
(** the hypotheses of C121_uniform and of C121_uniform_lost can be met *)
Definition g_iso (ks : R) : dgrid := Dgrid 2 2 1 4 1 (fun j => nth j [2;2;2;2; 2;-1;-1;2; 2;-1;-1;2; 30;30;30;30]%Z 2%Z) (fun _ => 5) (fun _ => ks) (fun _ => 1) (fun _ => 1) 0.
Example C121_ex_uniform : usable (g_iso 0) /\ physical (g_iso 0) /\ moderate (g_iso 0) p_two /\ only_feels (g_iso 0) 5 /\ sides_covered (g_iso 0).
Proof.
  split; [split; [|split]|split; [|split; [|split]]].
  - intros l Hl. cbn in Hl. split; [|intros E]; (destruct l as [|[|l]]; [| |lia]; cbn in *; (split; discriminate) || discriminate).
  - repeat split; cbn; lra.
  - intros k _ E. exfalso. destruct k as [|[|[|[|k]]]]; cbn in E; try discriminate. destruct k as [|k]; cbn in E; [discriminate|].
    revert E. unfold flag_at. cbn. repeat (destruct k as [|k]; cbn; [discriminate|]). discriminate.
  - repeat split; intros; unfold kvert, khoriz, at_; cbn [g_kx g_kz g_rc g_mink g_iso]; lra.
  - intros l _. pose proof PI_4. pose proof (C121_fraction (g_iso 0) p_two (west_x (g_iso 0) p_two) l ltac:(cbn; lra) ltac:(cbn; lra)) as F1.
    pose proof (C121_fraction (g_iso 0) p_two (east_x (g_iso 0) p_two) l ltac:(cbn; lra) ltac:(cbn; lra)) as F2. cbn [g_dx g_dz g_iso] in F1, F2. split; lra.
  - intros k l s (A1 & A2 & _). cbn in A1, A2. destruct k as [|[|k]]; [| |lia]; (destruct l as [|[|l]]; [| |lia]); destruct s; exact I.
  - split; intros l _; right; reflexivity.
Qed.
Example C121_ex_lost : active (g_iso 1) 1 1 /\ over (g_iso 1) 1 1 <> CellAbove /\ 0 < kvert (g_iso 1) 2 1 /\ fraction (g_iso 1) p_two (east_x (g_iso 1) p_two) 1 < 1.
Proof.
  split; [repeat split; cbn; lia|]. split; [discriminate|]. split; [unfold kvert; cbn [g_kx g_iso]; lra|].
  pose proof PI_4. pose proof (C121_fraction (g_iso 1) p_two (east_x (g_iso 1) p_two) 1 ltac:(cbn; lra) ltac:(cbn; lra)) as F2. cbn [g_dx g_dz g_iso] in F2. lra.
Qed.
