(** * C79: melt fraction; C80: heat capacity, expansivity and volume source of melting cells *)
From Coq Require Import ZArith Reals List Bool Lra Lia Psatz.
Import ListNotations.
From Verif Require Import P2GModel AdvModel AdvProofs ReseedModel MeltModel.
Local Open Scope R_scope.

(** ** Specification *)
(** The laws that can be chosen, with the temperatures (K, pressure in MPa) between
    which rock melts: the published solidus, kept at least 100 K below the liquidus. *)
Definition known (law : Z) : Prop := (law = 1 \/ law = 10 \/ law = 11 \/ law = 40 \/ law = 41)%Z.
Definition begins (law : Z) (p : R) : R :=
  match solidus law p with Some ts => Rmin ts (liquidus law p - 100) | None => 0 end.
Definition ends (law : Z) (p : R) : R := liquidus law p.
(** Relaxation with time constant [tk] over a step [dt] towards [target]. *)
Definition relaxed (tk dt target old : R) : R := target + tk / (tk + dt) * (old - target).
Definition linear (a b t : R) : R := (t - a) / (b - a).

(** ** Lemmas *)
Lemma tiny_pos : 0 < tiny.
Proof. unfold tiny. apply Rinv_0_lt_compat. apply pow_lt; lra. Qed.
Lemma millionth_range : 0 < millionth < 1.
Proof. unfold millionth. split; simpl; lra. Qed.
Lemma clamp_range x : 0 <= unit_clamp x <= 1.
Proof.
  unfold unit_clamp. destruct (Rltb_spec x 0).
  - destruct (Rltb_spec 1 0); lra.
  - destruct (Rltb_spec 1 x); lra.
Qed.
Lemma clamp_mono x y : x <= y -> unit_clamp x <= unit_clamp y.
Proof.
  intros H. unfold unit_clamp.
  destruct (Rltb_spec x 0), (Rltb_spec y 0); destruct (Rltb_spec 1 0); destruct (Rltb_spec 1 x), (Rltb_spec 1 y); lra.
Qed.
Lemma clamp_id x : 0 <= x <= 1 -> unit_clamp x = x.
Proof. intros H. unfold unit_clamp. destruct (Rltb_spec x 0); [lra|]. destruct (Rltb_spec 1 x); lra. Qed.
Lemma clamp_low x : x <= 0 -> unit_clamp x = 0.
Proof. intros H. unfold unit_clamp. destruct (Rltb_spec x 0). - destruct (Rltb_spec 1 0); lra. - destruct (Rltb_spec 1 x); lra. Qed.
Lemma clamp_high x : 1 <= x -> unit_clamp x = 1.
Proof. intros H. unfold unit_clamp. destruct (Rltb_spec x 0); [lra|]. destruct (Rltb_spec 1 x); lra. Qed.
Lemma apart_min ts tl : apart ts tl = Rmin ts (tl - 100).
Proof. unfold apart, Rmin. destruct (Rltb_spec (tl - 100) ts), (Rle_dec ts (tl - 100)); lra. Qed.
Lemma apart_lt ts tl : apart ts tl < tl.
Proof. rewrite apart_min. pose proof (Rmin_r ts (tl - 100)). lra. Qed.
Lemma steep_nz law u : 0 < uT u -> steepness law u <> 0.
Proof.
  intros H. unfold steepness. destruct (law =? 1)%Z; [lra|].
  assert (0 < / 10 ^ 7) by (apply Rinv_0_lt_compat; apply pow_lt; lra).
  assert (0 < 1 / uT u) by (apply Rdiv_lt_0_compat; lra).
  assert (0 < / 10 ^ 7 / (1 / uT u)) by (apply Rdiv_lt_0_compat; assumption). lra.
Qed.
Lemma exp_le a b : a <= b -> exp a <= exp b.
Proof. intros [H | ->]; [left; apply exp_increasing; exact H | right; reflexivity]. Qed.
Lemma eq_mono al a b t1 t2 : al <> 0 -> a < b -> t1 <= t2 -> equilibrium al a b t1 <= equilibrium al a b t2.
Proof.
  intros Hal Hab Ht. unfold equilibrium.
  destruct (Rtotal_order al 0) as [N | [E | P]]; [|contradiction|].
  - assert (D : exp (al * b) - exp (al * a) < 0) by (pose proof (exp_increasing (al * b) (al * a) ltac:(nra)); lra).
    assert (E : exp (al * t2) <= exp (al * t1)) by (apply exp_le; nra).
    unfold Rdiv. assert (I : / (exp (al * b) - exp (al * a)) < 0) by (apply Rinv_lt_0_compat; exact D). nra.
  - assert (D : 0 < exp (al * b) - exp (al * a)) by (pose proof (exp_increasing (al * a) (al * b) ltac:(nra)); lra).
    assert (E : exp (al * t1) <= exp (al * t2)) by (apply exp_le; nra).
    unfold Rdiv. assert (I : 0 < / (exp (al * b) - exp (al * a))) by (apply Rinv_0_lt_compat; exact D). nra.
Qed.
Lemma eq_den al a b : al <> 0 -> a < b -> exp (al * b) - exp (al * a) <> 0.
Proof.
  intros Hal Hab. destruct (Rtotal_order al 0) as [N | [E | P]]; [|contradiction|].
  - pose proof (exp_increasing (al * b) (al * a) ltac:(nra)); lra.
  - pose proof (exp_increasing (al * a) (al * b) ltac:(nra)); lra.
Qed.
Lemma eq_at_a al a b : equilibrium al a b a = 0.
Proof. unfold equilibrium. unfold Rdiv. rewrite Rminus_diag_eq by reflexivity. ring. Qed.
Lemma eq_at_b al a b : al <> 0 -> a < b -> equilibrium al a b b = 1.
Proof. intros H1 H2. unfold equilibrium. field. apply eq_den; assumption. Qed.
Lemma known_pos law : known law -> (0 <? law)%Z = true.
Proof. intros [-> | [-> | [-> | [-> | ->]]]]; reflexivity. Qed.
Lemma known_solidus law p : known law -> exists ts, solidus law p = Some ts.
Proof. intros [-> | [-> | [-> | [-> | ->]]]]; unfold solidus; cbn; eexists; reflexivity. Qed.
Lemma solidus_known law p ts : solidus law p = Some ts -> known law.
Proof.
  unfold solidus, known.
  destruct (Z.eqb_spec law 1); [tauto|]. destruct (Z.eqb_spec law 10); [tauto|]. destruct (Z.eqb_spec law 11); [tauto|].
  destruct (Z.eqb_spec law 40); [tauto|]. destruct (Z.eqb_spec law 41); [tauto|discriminate].
Qed.
Lemma liquidus_pos law p : 0 <= p -> 0 < liquidus law p.
Proof. intros H. unfold liquidus. repeat destruct (_ =? _)%Z; lra. Qed.

Section One.
  Variables (u : unit) (law : Z).
  Hypotheses (HT : 0 < uT u) (HS : 0 < uS u).
  Definition mpa (P : R) : R := P / 10 ^ 6 * uS u.
  Definition kelvin (T : R) : R := T * uT u.
  Lemma mpa_pos P : 0 < P -> 0 < mpa P.
  Proof. intros H. unfold mpa. apply Rmult_lt_0_compat; [|exact HS]. apply Rdiv_lt_0_compat; [exact H|apply pow_lt; lra]. Qed.
  Lemma melting_done P T phi0 tk dt : known law -> tiny < T -> tiny < P ->
    partial_melting u P T phi0 tk dt law =
    Done (unit_clamp (dt / (tk + dt) * equilibrium (steepness law u) (begins law (mpa P)) (ends law (mpa P)) (kelvin T)
                      + tk / (tk + dt) * phi0), latent law / (uJ u / um u)).
  Proof.
    intros K H1 H2. unfold partial_melting. rewrite (known_pos _ K).
    destruct (Rltb_spec tiny T); [|contradiction]. destruct (Rltb_spec tiny P); [|contradiction]. cbn [andb].
    fold (mpa P). fold (kelvin T). destruct (known_solidus law (mpa P) K) as [ts E]. rewrite E.
    pose proof tiny_pos. pose proof (liquidus_pos law (mpa P) ltac:(left; apply mpa_pos; lra)).
    destruct (Rltb_spec 0 (liquidus law (mpa P))); [|contradiction].
    unfold begins, ends. rewrite E, apart_min. reflexivity.
  Qed.
  Lemma begins_ends p : known law -> begins law p < ends law p.
  Proof. intros K. unfold begins, ends. destruct (known_solidus law p K) as [ts ->]. pose proof (Rmin_r ts (liquidus law p - 100)). lra. Qed.
End One.

(** ** C79 *)
(** The melt fraction is a fraction, whatever the input. *)
Theorem C79_fraction : forall u P T phi0 tk dt law phi ql,
  partial_melting u P T phi0 tk dt law = Done (phi, ql) -> 0 <= phi <= 1.
Proof.
  intros u P T phi0 tk dt law phi ql H. unfold partial_melting in H.
  destruct ((0 <? law)%Z && Rltb tiny T && Rltb tiny P); [|injection H as <- <-; lra].
  destruct (solidus law _); [|discriminate].
  destruct (Rltb 0 _); injection H as <- <-; [apply clamp_range | lra].
Qed.
Print Assumptions C79_fraction.
Example C79_fraction_ex : exists phi ql, partial_melting (Unit 1 1 1 1) (10 ^ 6) 1100 0 0 1 1 = Done (phi, ql) /\ 0 <= phi <= 1.
Proof.
  assert (tiny < 1) by (unfold tiny; rewrite <- Rinv_1; apply Rinv_lt_contravar; simpl; lra).
  eexists _, _. split; [apply (melting_done (Unit 1 1 1 1) 1); cbn; unfold known; try tauto; simpl; lra|]. apply clamp_range.
Qed.

(** Hotter rock has at least as much melt. *)
Theorem C79_hotter_melts_more : forall u P T1 T2 phi0 tk dt law phi1 phi2 q1 q2,
  0 < uT u -> 0 < uS u -> 0 <= tk -> 0 < dt -> T1 <= T2 ->
  partial_melting u P T1 phi0 tk dt law = Done (phi1, q1) ->
  partial_melting u P T2 phi0 tk dt law = Done (phi2, q2) -> phi1 <= phi2.
Proof.
  intros u P T1 T2 phi0 tk dt law phi1 phi2 q1 q2 HT HS Htk Hdt HTT H1 H2.
  pose proof (C79_fraction _ _ _ _ _ _ _ _ _ H2) as R2.
  assert (C : {known law /\ tiny < T1 /\ tiny < P} + {partial_melting u P T1 phi0 tk dt law = Done (0, 0)} + {partial_melting u P T1 phi0 tk dt law = UB}).
  { unfold partial_melting. destruct (0 <? law)%Z; cbn [andb]; [|left; right; reflexivity].
    destruct (Rltb_spec tiny T1); cbn [andb]; [|left; right; reflexivity].
    destruct (Rltb_spec tiny P); [|left; right; reflexivity].
    destruct (solidus law _) eqn:E; [|right; reflexivity]. left; left. split; [|split; assumption]. exact (solidus_known _ _ _ E). }
  destruct C as [[[K [A B]] | Z0] | Z0].
  - rewrite (melting_done u law HS) in H1 by assumption. rewrite (melting_done u law HS) in H2 by (assumption || lra).
    injection H1 as <- _. injection H2 as <- _. apply clamp_mono. apply Rplus_le_compat_r. apply Rmult_le_compat_l.
    + apply Rmult_le_pos; [lra|]. left. apply Rinv_0_lt_compat. lra.
    + apply eq_mono; [apply steep_nz; exact HT | apply begins_ends; exact K|]. unfold kelvin. nra.
  - rewrite Z0 in H1. injection H1 as <- _. lra.
  - rewrite Z0 in H1. discriminate.
Qed.
Print Assumptions C79_hotter_melts_more.

(** Below the temperature at which melting begins, rock without melt stays without;
    above the liquidus molten rock stays molten; at once if melting is not delayed. *)
Theorem C79_solid_stays_solid : forall u P T phi0 tk dt law,
  0 < uT u -> 0 < uS u -> 0 <= tk -> 0 < dt -> known law -> tiny < T -> tiny < P ->
  T * uT u <= begins law (P / 10 ^ 6 * uS u) -> phi0 <= 0 \/ tk = 0 ->
  exists ql, partial_melting u P T phi0 tk dt law = Done (0, ql).
Proof.
  intros u P T phi0 tk dt law HT HS Htk Hdt K H1 H2 Hs H0. rewrite (melting_done u law HS) by assumption. eexists. f_equal. f_equal.
  apply clamp_low.
  pose proof (eq_mono (steepness law u) (begins law (mpa u P)) (ends law (mpa u P)) (kelvin u T) (begins law (mpa u P))
    (steep_nz law u HT) (begins_ends law (mpa u P) K) Hs) as M. rewrite eq_at_a in M.
  assert (A : 0 < dt / (tk + dt)) by (apply Rdiv_lt_0_compat; lra).
  assert (B : 0 <= tk / (tk + dt)) by (apply Rmult_le_pos; [lra|left; apply Rinv_0_lt_compat; lra]).
  destruct H0 as [H0 | H0]; [nra|]. rewrite H0 in *. unfold Rdiv at 2. rewrite Rmult_0_l, Rmult_0_l. nra.
Qed.
Print Assumptions C79_solid_stays_solid.
Theorem C79_liquid_stays_liquid : forall u P T phi0 tk dt law,
  0 < uT u -> 0 < uS u -> 0 <= tk -> 0 < dt -> known law -> tiny < T -> tiny < P ->
  ends law (P / 10 ^ 6 * uS u) <= T * uT u -> phi0 >= 1 \/ tk = 0 ->
  exists ql, partial_melting u P T phi0 tk dt law = Done (1, ql).
Proof.
  intros u P T phi0 tk dt law HT HS Htk Hdt K H1 H2 Hs H0. rewrite (melting_done u law HS) by assumption. eexists. f_equal. f_equal.
  apply clamp_high.
  pose proof (eq_mono (steepness law u) (begins law (mpa u P)) (ends law (mpa u P)) (ends law (mpa u P)) (kelvin u T)
    (steep_nz law u HT) (begins_ends law (mpa u P) K) Hs) as M.
  rewrite eq_at_b in M by (apply steep_nz || apply begins_ends; assumption).
  assert (A : 0 < dt / (tk + dt)) by (apply Rdiv_lt_0_compat; lra).
  assert (B : 0 <= tk / (tk + dt)) by (apply Rmult_le_pos; [lra|left; apply Rinv_0_lt_compat; lra]).
  assert (C : dt / (tk + dt) + tk / (tk + dt) = 1) by (field; lra).
  destruct H0 as [H0 | H0]; [nra|]. rewrite H0 in *. unfold Rdiv at 2. rewrite Rmult_0_l, Rmult_0_l.
  replace (dt / (0 + dt)) with 1 by (field; lra). lra.
Qed.
Print Assumptions C79_liquid_stays_liquid.
Example C79_ends_ex : begins 1 100 = 87315 / 100 /\ ends 1 100 = 147315 / 100 /\ begins 40 1000 = 1394 + 132899 / 1000 - 5014 / 1000.
Proof.
  unfold begins, ends, solidus, liquidus. cbn [Z.eqb Pos.eqb]. repeat split.
  - rewrite Rmin_left; lra.
  - lra.
  - destruct (Rltb_spec 10000 1000); [lra|]. rewrite Rmin_left; simpl; lra.
Qed.

(** In between the melt fraction relaxes to a value that depends on temperature and
    pressure only, the gap shrinking by the factor tk/(tk+dt) in each step. *)
Theorem C79_relaxes : forall u P T phi0 tk dt law,
  0 < uT u -> 0 < uS u -> 0 <= tk -> 0 < dt -> known law -> tiny < T -> tiny < P ->
  begins law (P / 10 ^ 6 * uS u) <= T * uT u <= ends law (P / 10 ^ 6 * uS u) -> 0 <= phi0 <= 1 ->
  let target := equilibrium (steepness law u) (begins law (P / 10 ^ 6 * uS u)) (ends law (P / 10 ^ 6 * uS u)) (T * uT u) in
  0 <= target <= 1 /\
  exists ql, partial_melting u P T phi0 tk dt law = Done (relaxed tk dt target phi0, ql).
Proof.
  intros u P T phi0 tk dt law HT HS Htk Hdt K H1 H2 [Ha Hb] H0 target.
  assert (R : 0 <= target <= 1).
  { unfold target. split.
    - rewrite <- (eq_at_a (steepness law u) (begins law (P / 10 ^ 6 * uS u)) (ends law (P / 10 ^ 6 * uS u))).
      apply eq_mono; [apply steep_nz; exact HT | apply begins_ends; exact K | exact Ha].
    - rewrite <- (eq_at_b (steepness law u) (begins law (P / 10 ^ 6 * uS u)) (ends law (P / 10 ^ 6 * uS u))) by (apply steep_nz || apply begins_ends; assumption).
      apply eq_mono; [apply steep_nz; exact HT | apply begins_ends; exact K | exact Hb]. }
  split; [exact R|]. rewrite (melting_done u law HS) by assumption. eexists. f_equal. f_equal.
  fold target. unfold mpa, kelvin. fold target. unfold relaxed.
  replace (dt / (tk + dt) * target + tk / (tk + dt) * phi0) with (target + tk / (tk + dt) * (phi0 - target)) by (field; lra).
  apply clamp_id.
  assert (B : 0 <= tk / (tk + dt)) by (apply Rmult_le_pos; [lra|left; apply Rinv_0_lt_compat; lra]).
  assert (A : 0 < dt / (tk + dt)) by (apply Rdiv_lt_0_compat; lra).
  assert (C : dt / (tk + dt) + tk / (tk + dt) = 1) by (field; lra). nra.
Qed.
Print Assumptions C79_relaxes.

(** Except for law 1 that value is the linear one up to the factor exp(-a (Tl-Ts)), a
    being 1e-7 per unit of temperature chosen for the calculation. *)
Lemma exp_chord a b : 0 <= a -> a <= b -> 0 < b -> (exp a - 1) * b <= (exp b - 1) * a.
Proof.
  intros Ha Hab Hb.
  assert (T1 : exp a * (1 + (b - a)) <= exp b).
  { replace (exp b) with (exp a * exp (b - a)) by (rewrite <- exp_plus; f_equal; ring).
    apply Rmult_le_compat_l; [left; apply exp_pos|]. apply exp_ineq1_le. }
  assert (T2 : exp a * (1 - a) <= 1).
  { replace 1 with (exp a * exp (- a)) at 2 by (rewrite <- exp_plus, Rplus_opp_r; apply exp_0).
    apply Rmult_le_compat_l; [left; apply exp_pos|]. pose proof (exp_ineq1_le (- a)). lra. }
  nra.
Qed.
Theorem C79_nearly_linear : forall u law a b t,
  0 < uT u -> law <> 1%Z -> a < b -> a <= t <= b ->
  let al := / 10 ^ 7 * uT u in
  linear a b t * exp (- (al * (b - a))) <= equilibrium (steepness law u) a b t <= linear a b t.
Proof.
  intros u law a b t HT Hl Hab Ht al.
  assert (Eal : steepness law u = al).
  { unfold steepness, al. destruct (Z.eqb_spec law 1); [contradiction|]. field. lra. }
  rewrite Eal. assert (Pal : 0 < al). { unfold al. apply Rmult_lt_0_compat; [apply Rinv_0_lt_compat; apply pow_lt; lra | exact HT]. }
  assert (E : equilibrium al a b t = (exp (al * (t - a)) - 1) / (exp (al * (b - a)) - 1)).
  { unfold equilibrium. replace (al * t) with (al * (t - a) + al * a) by ring. replace (al * b) with (al * (b - a) + al * a) by ring.
    rewrite !exp_plus. pose proof (exp_increasing 0 (al * (b - a)) ltac:(nra)) as I. rewrite exp_0 in I. pose proof (exp_pos (al * a)).
    field. split; [lra|]. apply Rgt_not_eq. nra. }
  rewrite E. set (x := al * (t - a)). set (y := al * (b - a)).
  assert (Hy : 0 < y) by (unfold y; nra). assert (Hx : 0 <= x <= y) by (unfold x, y; nra).
  assert (L : linear a b t = x / y) by (unfold linear, x, y; field; lra). rewrite L.
  assert (D : 0 < exp y - 1) by (pose proof (exp_increasing 0 y Hy) as I; rewrite exp_0 in I; lra).
  split.
  - assert (I1 : x <= exp x - 1) by (pose proof (exp_ineq1_le x); lra).
    assert (I2 : exp y - 1 <= y * exp y).
    { pose proof (exp_ineq1_le (- y)). assert (Q : exp y * exp (- y) = 1) by (rewrite <- exp_plus, Rplus_opp_r; apply exp_0).
      pose proof (exp_pos y). nra. }
    apply Rmult_le_reg_r with (exp y - 1); [exact D|].
    replace ((exp x - 1) / (exp y - 1) * (exp y - 1)) with (exp x - 1) by (field; lra).
    apply Rle_trans with x; [|exact I1].
    apply Rmult_le_reg_r with y; [exact Hy|].
    replace (x / y * exp (- y) * (exp y - 1) * y) with (x * (exp (- y) * (exp y - 1))) by (field; lra).
    apply Rmult_le_compat_l; [lra|]. assert (Q : exp (- y) * exp y = 1) by (rewrite <- exp_plus, Rplus_opp_l; apply exp_0).
    pose proof (exp_pos (- y)). nra.
  - pose proof (exp_chord x y ltac:(lra) ltac:(lra) Hy) as C.
    apply Rmult_le_reg_r with (exp y - 1); [exact D|].
    replace ((exp x - 1) / (exp y - 1) * (exp y - 1)) with (exp x - 1) by (field; lra).
    apply Rmult_le_reg_r with y; [exact Hy|].
    replace (x / y * (exp y - 1) * y) with ((exp y - 1) * x) by (field; lra). lra.
Qed.
Print Assumptions C79_nearly_linear.

(** Refuted: the melt fraction of a given rock at a given temperature and pressure does
    not depend on the units. Counting temperatures in units of 10^7 K (law 40) instead
    of kelvins turns a tenth of the way into the melting interval into practically no melt. *)
Theorem C79_units_refuted : exists u1 u2 P T1 T2 phi1 phi2 q1 q2,
  0 < uT u1 /\ 0 < uT u2 /\ uS u1 = uS u2 /\ uJ u1 = uJ u2 /\ um u1 = um u2 /\ T1 * uT u1 = T2 * uT u2 /\
  partial_melting u1 P T1 0 0 1 40 = Done (phi1, q1) /\ partial_melting u2 P T2 0 0 1 40 = Done (phi2, q2) /\ phi1 > 2 * phi2.
Proof.
  set (u1 := Unit 1 (10 ^ 6) 1 1). set (u2 := Unit (10 ^ 7) (10 ^ 6) 1 1).
  assert (Ht : tiny < 1 / 10 ^ 5). { unfold tiny. replace (1 / 10 ^ 5) with (/ 10 ^ 5) by field. apply Rinv_lt_contravar; simpl; lra. }
  assert (K : known 40) by (unfold known; tauto).
  assert (Hp1 : mpa u1 1 = 1) by (unfold mpa, u1; cbn [uS]; field). assert (Hp2 : mpa u2 1 = 1) by (unfold mpa, u2; cbn [uS]; field).
  assert (Bg : begins 40 1 = 1394 + 132899 / 1000000 - 5014 / 1000000000).
  { unfold begins, solidus, liquidus. cbn [Z.eqb Pos.eqb]. destruct (Rltb_spec 10000 1); [lra|]. rewrite Rmin_left; simpl; lra. }
  assert (En : ends 40 1 = 2073 + 114 / 1000) by (unfold ends, liquidus; cbn [Z.eqb Pos.eqb]; ring).
  set (a := begins 40 1) in *. set (b := ends 40 1) in *.
  set (t := (a + b) / 2).
  eexists u1, u2, 1, t, (t / 10 ^ 7), _, _, _, _.
  split; [cbn; lra|]. split; [cbn; lra|]. split; [reflexivity|]. split; [reflexivity|]. split; [reflexivity|].
  split; [unfold u1, u2; cbn [uT]; field|].
  split; [apply melting_done; [cbn; lra|exact K|unfold t; lra|lra]|].
  split; [apply melting_done; [cbn; lra|exact K|unfold t; unfold Rdiv in Ht |- *; simpl in Ht |- *; lra|lra]|].
  rewrite Hp1, Hp2. fold a b.
  assert (Hab : a < b) by lra.
  assert (K1 : kelvin u1 t = t) by (unfold kelvin, u1; cbn [uT]; ring).
  assert (K2 : kelvin u2 (t / 10 ^ 7) = t) by (unfold kelvin, u2; cbn [uT]; field).
  rewrite K1, K2. replace (1 / (0 + 1)) with 1 by field. unfold Rdiv at 1 2. rewrite !Rmult_0_l, !Rplus_0_r, !Rmult_1_l.
  assert (Hl : linear a b t = 1 / 2) by (unfold linear, t; field; lra).
  (* first: at least 1/2 * exp(-68/10^6) >= 2/5 *)
  destruct (C79_nearly_linear u1 40 a b t ltac:(cbn; lra) ltac:(discriminate) Hab ltac:(unfold t; lra)) as [L1 U1].
  rewrite Hl in L1, U1. cbn [uT u1] in L1. 
  assert (E1 : 9 / 10 <= exp (- (/ 10 ^ 7 * 1 * (b - a)))).
  { apply Rle_trans with (1 + - (/ 10 ^ 7 * 1 * (b - a))); [|apply exp_ineq1_le].
    assert (/ 10 ^ 7 * 1 * (b - a) <= / 10 ^ 7 * 10 ^ 6) by (assert (0 < / 10 ^ 7) by (apply Rinv_0_lt_compat; simpl; lra); nra).
    replace (/ 10 ^ 7 * 10 ^ 6) with (1 / 10) in H by (simpl; field). lra. }
  (* second *)
  assert (S2 : steepness 40 u2 = 1) by (unfold steepness, u2; cbn [uT Z.eqb Pos.eqb]; field).
  rewrite S2. unfold equilibrium at 2. rewrite !Rmult_1_l.
  set (h := t - a). assert (Hh : h = (b - a) / 2) by (unfold h, t; field). assert (h > 9) by lra.
  assert (E2 : (exp t - exp a) / (exp b - exp a) = 1 / (exp h + 1)).
  { replace t with (h + a) by (unfold h; ring). replace b with (h + h + a) by (rewrite Hh; field).
    rewrite !exp_plus. pose proof (exp_pos a). pose proof (exp_increasing 0 h ltac:(lra)) as I. rewrite exp_0 in I.
    assert (D1 : exp h + 1 <> 0) by lra. assert (D2 : exp h - 1 <> 0) by lra. assert (D3 : exp a <> 0) by lra.
    replace (exp h * exp h * exp a - exp a) with (exp a * (exp h - 1) * (exp h + 1)) by ring.
    field. repeat split; assumption. }
  rewrite E2. assert (X : 9 < exp h) by (pose proof (exp_ineq1_le h); lra).
  assert (Y : 1 / (exp h + 1) <= 1 / 10). { unfold Rdiv. apply Rmult_le_compat_l; [lra|]. apply Rinv_le_contravar; lra. }
  assert (P1 : 0 < 1 / (exp h + 1)) by (apply Rdiv_lt_0_compat; lra).
  rewrite (clamp_id (1 / (exp h + 1))) by lra.
  rewrite clamp_id by lra. lra.
Qed.
Print Assumptions C79_units_refuted.

(** Refuted: law 11 uses the solidus of Schenker et al. (2012). A misplaced comma cuts the
    last term: rock at 780 K and 100 MPa, above that solidus, has no melt. *)
Definition schenker_solidus (p : R) : R := 889 - 17900 / (p + 54) + 20200 / (p + 54) ^ 2.
Theorem C79_comma_refuted : exists u P T,
  0 < uT u /\ 0 < uS u /\ P / 10 ^ 6 * uS u = 100 /\ T * uT u > schenker_solidus 100 + 5 /\
  exists ql, partial_melting u P T 0 0 1 11 = Done (0, ql).
Proof.
  exists (Unit 1 1 1 1), (10 ^ 8), 780. cbn [uT uS].
  assert (Ht : tiny < 1) by (unfold tiny; rewrite <- Rinv_1; apply Rinv_lt_contravar; simpl; lra).
  split; [lra|]. split; [lra|]. split; [simpl; field|]. split; [unfold schenker_solidus; simpl; lra|].
  apply C79_solid_stays_solid; cbn [uT uS]; try lra.
  - unfold known; tauto.
  - replace (10 ^ 8 / 10 ^ 6 * 1) with 100 by (simpl; field).
    unfold begins, solidus, liquidus. cbn [Z.eqb Pos.eqb]. destruct (Rltb_spec 1200 100); [lra|]. apply Rmin_glb; lra.
Qed.
Print Assumptions C79_comma_refuted.

(** Refuted: compressing hot mantle (laws 40 and 41 are meant to share their solidus) does
    not melt it. With law 41, raising the pressure from 9900 to 10100 MPa at 2400 K does. *)
Theorem C79_divided_refuted : exists u T phi q1 q2,
  0 < uT u /\ 0 < uS u /\
  partial_melting u 9900 T 0 0 1 41 = Done (0, q1) /\ partial_melting u 10100 T 0 0 1 41 = Done (phi, q2) /\ phi > 0 /\
  exists phi40 q3, partial_melting u 9900 T 0 0 1 40 = Done (phi40, q3) /\ phi40 > 0.
Proof.
  set (u := Unit 1 (10 ^ 6) 1 1).
  assert (Ht : tiny < 1) by (unfold tiny; rewrite <- Rinv_1; apply Rinv_lt_contravar; simpl; lra).
  assert (M : forall P, mpa u P = P) by (intros P; unfold mpa, u; cbn [uS]; field).
  assert (Kel : kelvin u 2400 = 2400) by (unfold kelvin, u; cbn [uT]; ring).
  assert (Pos : forall law P, known law -> tiny < P -> begins law P < 2400 <= ends law P ->
    exists phi q, partial_melting u P 2400 0 0 1 law = Done (phi, q) /\ phi > 0).
  { intros law P K HP [B1 B2]. eexists _, _. split; [apply melting_done; [cbn; lra|exact K|lra|exact HP]|].
    rewrite M, Kel. replace (1 / (0 + 1)) with 1 by field. replace (0 / (0 + 1) * 0) with 0 by field. rewrite Rplus_0_r, Rmult_1_l.
    assert (N : steepness law u <> 0) by (apply steep_nz; cbn; lra).
    assert (A : begins law P < ends law P) by lra.
    assert (X : 0 <= equilibrium (steepness law u) (begins law P) (ends law P) 2400 <= 1).
    { split; [rewrite <- (eq_at_a (steepness law u) (begins law P) (ends law P)); apply eq_mono; (assumption || lra)
             |rewrite <- (eq_at_b (steepness law u) (begins law P) (ends law P)) by assumption; apply eq_mono; (assumption || lra)]. }
    rewrite clamp_id by exact X. destruct X as [[X | X] _]; [lra|]. exfalso.
    unfold equilibrium in X. pose proof (eq_den _ _ _ N A) as D. symmetry in X.
    assert (E : exp (steepness law u * 2400) - exp (steepness law u * begins law P) = 0).
    { apply Rmult_eq_reg_r with (/ (exp (steepness law u * ends law P) - exp (steepness law u * begins law P))).
      - unfold Rdiv in X. rewrite X. ring.
      - apply Rinv_neq_0_compat. exact D. }
    assert (E' : exp (steepness law u * 2400) = exp (steepness law u * begins law P)) by lra.
    apply exp_inv in E'. apply Rmult_eq_reg_l in E'; [lra|exact N]. }
  destruct (Pos 41%Z 10100) as [p2 [q2 [E2 G2]]]; [unfold known; tauto|lra| |].
  { unfold begins, ends, solidus, liquidus. cbn [Z.eqb Pos.eqb]. destruct (Rltb_spec 10000 10100); [|lra]. rewrite Rmin_left; lra. }
  destruct (Pos 40%Z 9900) as [p3 [q3 [E3 G3]]]; [unfold known; tauto|lra| |].
  { unfold begins, ends, solidus, liquidus. cbn [Z.eqb Pos.eqb]. destruct (Rltb_spec 10000 9900); [lra|]. rewrite Rmin_left; simpl; lra. }
  destruct (C79_solid_stays_solid u 9900 2400 0 0 1 41) as [q1 E1]; try (cbn; lra); try (unfold known; tauto).
  { replace (9900 / 10 ^ 6 * uS u) with 9900 by (symmetry; apply M). cbn [uT u]. unfold begins, solidus, liquidus. cbn [Z.eqb Pos.eqb].
    destruct (Rltb_spec 10000 9900); [lra|]. apply Rmin_glb; simpl; lra. }
  exists u, 2400, p2, q1, q2. split; [cbn; lra|]. split; [cbn; lra|]. split; [exact E1|]. split; [exact E2|]. split; [exact G2|].
  exists p3, q3. split; assumption.
Qed.
Print Assumptions C79_divided_refuted.

(** Refuted: unknown melting laws are reported. A latent heat that was never set is used. *)
Theorem C79_unknown_law_refuted : forall u P T phi0 tk dt law,
  (0 < law)%Z -> ~ known law -> tiny < T -> tiny < P -> partial_melting u P T phi0 tk dt law = UB.
Proof.
  intros u P T phi0 tk dt law Hl Hk H1 H2. unfold partial_melting.
  destruct (Z.ltb_spec 0 law); [|lia]. destruct (Rltb_spec tiny T); [|contradiction]. destruct (Rltb_spec tiny P); [|contradiction]. cbn [andb].
  destruct (solidus law _) eqn:E; [|reflexivity]. apply solidus_known in E. contradiction.
Qed.
Print Assumptions C79_unknown_law_refuted.
Example C79_unknown_law_refuted_ex : (0 < 2)%Z /\ ~ known 2.
Proof. unfold known. split; lia. Qed.

(** Melt fraction of a cell: a fraction if the shares of the phases are. *)
Lemma melt_fraction_range u c : forall fs acc out,
  Forall (fun f => 0 <= share f) fs -> melt_fraction u c fs acc = Done out ->
  acc <= out <= acc + fold_right (fun f s => share f + s) 0 fs.
Proof.
  induction fs as [|f fs IH]; intros acc out HF H; cbn [melt_fraction fold_right] in *.
  - injection H as <-. lra.
  - inversion_clear HF as [|? ? F1 F2]. destruct (present f).
    + destruct (melt_of u c (cP c) (cT c) f) as [[phi q]| |] eqn:E; try discriminate.
      pose proof (C79_fraction _ _ _ _ _ _ _ _ _ E). specialize (IH _ _ F2 H). nra.
    + specialize (IH _ _ F2 H). lra.
Qed.
Theorem C79_cell_fraction : forall u c fs out,
  Forall (fun f => 0 <= share f) fs -> fold_right (fun f s => share f + s) 0 fs <= 1 ->
  melt_fraction u c fs 0 = Done out -> 0 <= out <= 1.
Proof. intros u c fs out HF HS H. pose proof (melt_fraction_range u c fs 0 out HF H). lra. Qed.
Print Assumptions C79_cell_fraction.
Example C79_cell_fraction_ex :
  let fs := [Phase (1 / 4) 40 1 1 1 1; Phase (3 / 4) 0 1 1 1 1] in
  Forall (fun f => 0 <= share f) fs /\ fold_right (fun f s => share f + s) 0 fs <= 1 /\
  exists out, melt_fraction (Unit 1 1 1 1) (Cellv 1 1600 0 1 1 1) fs 0 = Done out.
Proof.
  assert (Ht : tiny < 1 / 10) by (unfold tiny; replace (1 / 10) with (/ 10 ^ 1) by (simpl; field); apply Rinv_lt_contravar; simpl; lra).
  cbn [share fold_right]. split; [repeat constructor; cbn; lra|]. split; [lra|].
  cbn [melt_fraction]. unfold present. cbn [share].
  destruct (Rltb_spec tiny (Rabs (1 / 4))) as [_|N]; [|rewrite Rabs_right in N; lra].
  destruct (Rltb_spec tiny (Rabs (3 / 4))) as [_|N]; [|rewrite Rabs_right in N; lra].
  unfold melt_of at 1. cbn [cP cT cphi0 cdt ptk plaw].
  rewrite melting_done; [|cbn; lra|unfold known; tauto|lra|lra].
  unfold melt_of. cbn [cP cT cphi0 cdt ptk plaw]. unfold partial_melting. cbn [Z.ltb Z.compare andb]. eexists. reflexivity.
Qed.
(** On the markers it is a fraction after every update. *)
Theorem C79_marker_fraction : forall phi inc, 0 <= marker_phi phi inc <= 1.
Proof.
  intros phi inc. unfold marker_phi. destruct (Rgeb_spec 0 (phi + inc)).
  - destruct (Rgeb_spec 0 1); lra.
  - destruct (Rgeb_spec (phi + inc) 1); lra.
Qed.
Print Assumptions C79_marker_fraction.
Theorem C79_marker_update : forall phi inc, 0 <= phi + inc <= 1 -> marker_phi phi inc = phi + inc.
Proof.
  intros phi inc H. unfold marker_phi. destruct (Rgeb_spec 0 (phi + inc)).
  - destruct (Rgeb_spec 0 1); lra.
  - destruct (Rgeb_spec (phi + inc) 1); lra.
Qed.
Print Assumptions C79_marker_update.

(** ** C80 *)
Definition mixture (q : phase -> R) (fs : list phase) : R := fold_right (fun f s => share f * q f + s) 0 fs.
Definition well_shared (fs : list phase) : Prop := Forall (fun f => share f > tiny) fs.
Lemma present_shared f : share f > tiny -> present f = true.
Proof. intros H. pose proof tiny_pos. unfold present. rewrite Rabs_right by lra. destruct (Rltb_spec tiny (share f)); [reflexivity|lra]. Qed.

Lemma melt_terms_cp u c f cpm alm :
  0 < uT u -> 0 < uS u -> 0 < uJ u -> 0 < um u -> 0 <= ptk f -> 0 < cdt c -> 0 < cT c ->
  melt_terms u c f = Done (cpm, alm) -> 0 <= cpm.
Proof.
  intros HT HS HJ Hm Htk Hdt HTc H. unfold melt_terms in H.
  destruct (melt_of u c (cP c) (cT c) f) as [[phi Ql]| |] eqn:E0; try discriminate.
  destruct (Rltb_spec tiny phi) as [G|G]; [|injection H as <- _; lra].
  destruct (melt_of u c (cP c - cP c * millionth) (cT c) f) as [[m1 x1]| |]; try discriminate.
  destruct (melt_of u c (cP c + cP c * millionth) (cT c) f) as [[p1 x2]| |]; try discriminate.
  destruct (melt_of u c (cP c) (cT c - cT c * millionth) f) as [[m2 x3]| |] eqn:Em; try discriminate.
  destruct (melt_of u c (cP c) (cT c + cT c * millionth) f) as [[p2 x4]| |] eqn:Ep; try discriminate.
  injection H as <- _. pose proof millionth_range as MR.
  assert (HQ : 0 <= Ql).
  { unfold melt_of, partial_melting in E0. destruct ((0 <? plaw f)%Z && Rltb tiny (cT c) && Rltb tiny (cP c)); [|injection E0 as _ <-; lra].
    destruct (solidus _ _); [|discriminate]. destruct (Rltb 0 _); injection E0 as _ <-; [|lra].
    apply Rmult_le_pos; [unfold latent; repeat destruct (_ =? _)%Z; lra|]. left. apply Rinv_0_lt_compat. apply Rdiv_lt_0_compat; assumption. }
  apply Rmult_le_pos; [exact HQ|]. apply Rmult_le_pos.
  - unfold melt_of in Em, Ep. pose proof (C79_hotter_melts_more u (cP c) (cT c - cT c * millionth) (cT c + cT c * millionth) _ _ _ _ _ _ _ _ HT HS Htk Hdt ltac:(nra) Em Ep). lra.
  - left. apply Rinv_0_lt_compat. assert (0 < cT c * millionth) by nra. lra.
Qed.

(** Melting only adds to the heat capacity of a cell; without melt, heat capacity and
    expansivity are the mixtures of those of the phases. *)
Theorem C80_heat_capacity : forall u tag c fs cp al,
  0 < uT u -> 0 < uS u -> 0 < uJ u -> 0 < um u -> 0 < cdt c -> 0 < cT c ->
  tag 0%nat <> 30%Z -> tag 0%nat <> 31%Z -> well_shared fs -> Forall (fun f => 0 <= ptk f) fs ->
  alpha_cp u tag c fs (0, 0) = Done (cp, al) -> mixture pCp fs <= cp.
Proof.
  intros u tag c fs cp al HT HS HJ Hm Hdt HTc T1 T2 WS HK.
  assert (R0 : rock0 tag = true).
  { unfold rock0. destruct (Z.eqb_spec (tag 0%nat) 30); [contradiction|]. destruct (Z.eqb_spec (tag 0%nat) 31); [contradiction|]. reflexivity. }
  assert (G : forall fs acc cp al, well_shared fs -> Forall (fun f => 0 <= ptk f) fs ->
    alpha_cp u tag c fs acc = Done (cp, al) -> fst acc + mixture pCp fs <= cp).
  { clear fs cp al WS HK. induction fs as [|f fs IH]; intros acc cp al WS HK H; cbn [alpha_cp mixture fold_right] in *.
    - injection H as ->. cbn. lra.
    - inversion_clear WS as [|? ? W1 W2]. inversion_clear HK as [|? ? K1 K2]. rewrite (present_shared f W1), R0 in H. cbn [andb] in H.
      destruct (melt_terms u c f) as [[cpm alm]| |] eqn:E; try discriminate.
      pose proof (melt_terms_cp u c f cpm alm HT HS HJ Hm K1 Hdt HTc E). specialize (IH _ _ _ W2 K2 H). cbn [fst] in IH.
      fold (mixture pCp fs). pose proof tiny_pos. nra. }
  intros H. specialize (G fs (0, 0) cp al WS HK H). cbn [fst] in G. lra.
Qed.
Print Assumptions C80_heat_capacity.
Lemma melt_total u P T phi0 tk dt law : 0 < uS u -> (law <= 0)%Z \/ known law ->
  exists phi q, partial_melting u P T phi0 tk dt law = Done (phi, q).
Proof.
  intros HS [H | K].
  - unfold partial_melting. destruct (Z.ltb_spec 0 law); [lia|]. cbn [andb]. eexists _, _; reflexivity.
  - destruct (Rlt_dec tiny T) as [A|A]; [destruct (Rlt_dec tiny P) as [B|B]|].
    + rewrite melting_done by assumption. eexists _, _; reflexivity.
    + unfold partial_melting. destruct (Rltb_spec tiny P); [contradiction|]. rewrite andb_false_r. eexists _, _; reflexivity.
    + unfold partial_melting. destruct (Rltb_spec tiny T); [contradiction|]. rewrite andb_false_r. eexists _, _; reflexivity.
Qed.
(** With known laws the result is always defined. *)
Theorem C80_defined : forall u tag c fs, 0 < uS u -> Forall (fun f => (plaw f <= 0)%Z \/ known (plaw f)) fs ->
  exists cp al, alpha_cp u tag c fs (0, 0) = Done (cp, al).
Proof.
  intros u tag c fs HS HF. generalize (0, 0). induction fs as [|f fs IH]; intros acc; cbn [alpha_cp].
  - destruct acc as [x y]. exists x, y. reflexivity.
  - inversion_clear HF as [|? ? F1 F2]. destruct (present f && rock0 tag); [|apply IH; exact F2].
    assert (M : forall P T, exists phi q, melt_of u c P T f = Done (phi, q)) by (intros; unfold melt_of; apply melt_total; assumption).
    unfold melt_terms. destruct (M (cP c) (cT c)) as [phi [q ->]]. destruct (Rltb tiny phi); [|apply IH; exact F2].
    destruct (M (cP c - cP c * millionth) (cT c)) as [? [? ->]]. destruct (M (cP c + cP c * millionth) (cT c)) as [? [? ->]].
    destruct (M (cP c) (cT c - cT c * millionth)) as [? [? ->]]. destruct (M (cP c) (cT c + cT c * millionth)) as [? [? ->]].
    apply IH; exact F2.
Qed.
Print Assumptions C80_defined.
Example C80_heat_capacity_ex :
  let fs := [Phase (1 / 4) 40 0 800 (1 / 100) 3; Phase (3 / 4) 0 0 1000 0 3] in
  exists cp al, alpha_cp (Unit 1 1 1 1) (fun _ => (-1)%Z) (Cellv 1 1600 0 1 1 1) fs (0, 0) = Done (cp, al) /\ 950 <= cp.
Proof.
  intros fs. assert (Ht : tiny < 1 / 10) by (unfold tiny; replace (1 / 10) with (/ 10 ^ 1) by (simpl; field); apply Rinv_lt_contravar; simpl; lra).
  destruct (C80_defined (Unit 1 1 1 1) (fun _ => (-1)%Z) (Cellv 1 1600 0 1 1 1) fs) as [cp [al E]].
  - cbn; lra.
  - apply Forall_cons; [right; unfold known; cbn; tauto|]. apply Forall_cons; [left; cbn; lia|]. apply Forall_nil.
  - exists cp, al. split; [exact E|].
    apply Rle_trans with (mixture pCp fs); [unfold mixture, fs; cbn [fold_right share pCp]; lra|].
    apply (C80_heat_capacity (Unit 1 1 1 1) (fun _ => (-1)%Z) (Cellv 1 1600 0 1 1 1) fs cp al); try (cbn; lra); try lia; try exact E.
    + repeat constructor; cbn; lra.
    + repeat constructor; cbn; lra.
Qed.
Theorem C80_without_melt : forall u tag c fs,
  tag 0%nat <> 30%Z -> tag 0%nat <> 31%Z -> well_shared fs ->
  (forall f, In f fs -> exists q, melt_of u c (cP c) (cT c) f = Done (0, q)) ->
  alpha_cp u tag c fs (0, 0) = Done (mixture pCp fs, mixture palp fs).
Proof.
  intros u tag c fs T1 T2 WS HM.
  assert (R0 : rock0 tag = true).
  { unfold rock0. destruct (Z.eqb_spec (tag 0%nat) 30); [contradiction|]. destruct (Z.eqb_spec (tag 0%nat) 31); [contradiction|]. reflexivity. }
  assert (G : forall fs acc, well_shared fs -> (forall f, In f fs -> exists q, melt_of u c (cP c) (cT c) f = Done (0, q)) ->
    alpha_cp u tag c fs acc = Done (fst acc + mixture pCp fs, snd acc + mixture palp fs)).
  { clear fs WS HM. induction fs as [|f fs IH]; intros acc WS HM; cbn [alpha_cp mixture fold_right].
    - rewrite !Rplus_0_r. destruct acc; reflexivity.
    - inversion_clear WS as [|? ? W1 W2]. rewrite (present_shared f W1), R0. cbn [andb].
      destruct (HM f (or_introl eq_refl)) as [q E]. unfold melt_terms. rewrite E. pose proof tiny_pos.
      destruct (Rltb_spec tiny 0); [lra|]. rewrite IH by (assumption || (intros; apply HM; right; assumption)). cbn [fst snd].
      fold (mixture pCp fs) (mixture palp fs). f_equal. f_equal; ring. }
  rewrite G by assumption. cbn [fst snd]. rewrite !Rplus_0_l. reflexivity.
Qed.
Print Assumptions C80_without_melt.
Example C80_without_melt_ex :
  let fs := [Phase (1 / 4) 1 0 800 (1 / 100) 3; Phase (3 / 4) 0 0 1000 0 3] in
  well_shared fs /\ (forall f, In f fs -> exists q, melt_of (Unit 1 1 1 1) (Cellv 1 500 0 1 1 1) 1 500 f = Done (0, q)).
Proof.
  assert (Ht : tiny < 1 / 10) by (unfold tiny; replace (1 / 10) with (/ 10 ^ 1) by (simpl; field); apply Rinv_lt_contravar; simpl; lra).
  split; [repeat constructor; cbn; lra|].
  intros f [<- | [<- | []]]; unfold melt_of; cbn [cP cT cphi0 cdt ptk plaw].
  - apply C79_solid_stays_solid; cbn [uT uS]; try lra; [unfold known; tauto|].
    unfold begins, solidus, liquidus. cbn [Z.eqb Pos.eqb]. apply Rmin_glb; lra.
  - unfold partial_melting. cbn [Z.ltb Z.compare andb]. eexists; reflexivity.
Qed.

(** The volume source has the sign of the temperature change, vanishes without one, and
    is alpha dT/dt for a single phase at its reference density. *)
Theorem C80_volume_source : forall tag c fs,
  tag 0%nat <> 30%Z -> tag 0%nat <> 31%Z -> well_shared fs ->
  mass_source tag c fs = mixture (fun f => palp f * prho f) fs / crho c * (cT c - cT0 c) / cdt c.
Proof.
  intros tag c fs T1 T2 WS.
  assert (R0 : rock0 tag = true).
  { unfold rock0. destruct (Z.eqb_spec (tag 0%nat) 30); [contradiction|]. destruct (Z.eqb_spec (tag 0%nat) 31); [contradiction|]. reflexivity. }
  unfold mass_source.
  assert (G : forall fs acc, well_shared fs ->
    fold_left (fun acc f => if present f && rock0 tag then acc + share f * (palp f * prho f / crho c * (cT c - cT0 c) / cdt c) else acc) fs acc
    = acc + mixture (fun f => palp f * prho f) fs / crho c * (cT c - cT0 c) / cdt c).
  { clear fs WS. induction fs as [|f fs IH]; intros acc WS; cbn [fold_left mixture fold_right].
    - unfold Rdiv. ring.
    - inversion_clear WS as [|? ? W1 W2]. rewrite IH by assumption. rewrite (present_shared f W1), R0. cbn [andb]. fold (mixture (fun f => palp f * prho f) fs).
      unfold Rdiv. ring. }
  rewrite G by exact WS. ring.
Qed.
Print Assumptions C80_volume_source.

(** Refuted: the surface test concerns the cell. It looks at cell 0: if that one is in the
    air, every cell of rock gets heat capacity and expansivity zero (and no volume source). *)
Theorem C80_surface_test_refuted : forall u tag c fs, tag 0%nat = 30%Z ->
  alpha_cp u tag c fs (0, 0) = Done (0, 0) /\ mass_source tag c fs = 0.
Proof.
  intros u tag c fs T0. assert (R0 : rock0 tag = false) by (unfold rock0; rewrite T0; reflexivity). split.
  - induction fs as [|f fs IH]; cbn [alpha_cp]; [reflexivity|]. rewrite R0, andb_false_r. exact IH.
  - unfold mass_source. induction fs as [|f fs IH]; cbn [fold_left]; [reflexivity|]. rewrite R0 in *. rewrite andb_false_r. exact IH.
Qed.
Print Assumptions C80_surface_test_refuted.
