(** C34, C48, C49: anisotropic stiffness, directors, rotation of stored stresses. *)
From Coq Require Import ZArith Reals List Bool Lra Lia Psatz.
Import ListNotations.
From Verif Require Import P2GModel AnisoModel AnisoProofs.
Local Open Scope R_scope.

(** ** C34 *)
Theorem C34_operator_is_rotated_layered_law : forall eta fac nx nz e, unit_dir (nx, nz) ->
  of_ten (apply_op (picard_operator true eta fac (marker_d1 nx nz) (marker_d2 nx nz)) e) =
  layered_stress eta fac (nx, nz) (of_ten e).
Proof. intros. symmetry. now apply layered_closed. Qed.
Print Assumptions C34_operator_is_rotated_layered_law.

(** With several markers around the node, the averaged orientation gives the
    average of the markers' laws. *)
Theorem C34_operator_of_marker_mixture : forall eta fac l e, mixture l ->
  of_ten (apply_op (picard_operator true eta fac (node_d1 l) (node_d2 l)) e) = mixed_stress eta fac l (of_ten e).
Proof. intros. symmetry. now apply mixed_closed. Qed.
Print Assumptions C34_operator_of_marker_mixture.

Theorem C34_operator_symmetric : forall b eta fac d1 d2,
  let k := picard_operator b eta fac d1 d2 in k12 k = k21 k /\ k13 k = k31 k /\ k23 k = k32 k.
Proof. intros. repeat split. Qed.
Print Assumptions C34_operator_symmetric.

Theorem C34_factor_one_or_switched_off_is_isotropic : forall b eta fac d1 d2 e, b = false \/ fac = 1 ->
  of_ten (apply_op (picard_operator b eta fac d1 d2) e) = scl (2 * eta) (of_ten e).
Proof.
  intros b eta fac d1 d2 e H. assert (A : aniS b fac = 0).
  { destruct H as [-> | ->]; unfold aniS; [reflexivity|]. destruct b; field. }
  apply M2_eq; unfold of_ten, apply_op, picard_operator, scl; rewrite A; cbn; ring.
Qed.
Print Assumptions C34_factor_one_or_switched_off_is_isotropic.

Theorem C34_deviatoric_stress : forall b eta fac d1 d2 e,
  trace (of_ten (apply_op (picard_operator b eta fac d1 d2) e)) = 2 * eta * trace (of_ten e).
Proof. intros. unfold trace, of_ten, apply_op, picard_operator. cbn. ring. Qed.
Print Assumptions C34_deviatoric_stress.

(** Dissipation is bounded below by the weaker of the two viscosities. *)
Theorem C34_dissipation : forall eta fac l e, mixture l -> 0 <= eta -> 0 < fac ->
  2 * Rmin eta (eta / fac) * (txx e ^ 2 + tzz e ^ 2 + 2 * txz e ^ 2) <=
  inner (of_ten (apply_op (picard_operator true eta fac (node_d1 l) (node_d2 l)) e)) (of_ten e).
Proof. intros. rewrite <- mixed_closed by assumption. now apply mixed_coercive. Qed.
Print Assumptions C34_dissipation.

Theorem C34_grid_stress_is_operator : forall eta fac d1 d2 e,
  grid_stress eta fac d1 d2 e = apply_op (picard_operator true eta fac d1 d2) e.
Proof. exact grid_stress_is_operator. Qed.
Print Assumptions C34_grid_stress_is_operator.

(** The elastic trial: the effective strain rate produces the old stress plus the
    stress of the strain rate (for every averaged orientation). *)
Theorem C34_effective_strain_rate_carries_old_stress : forall fac l e t0 eta_e eta,
  mixture l -> 0 < fac -> eta_e <> 0 ->
  let E := effective_strain_rate e t0 (node_d1 l) (node_d2 l) (1 - 1 / fac) eta_e true in
  grid_stress eta fac (node_d1 l) (node_d2 l) E =
  plus_ten (grid_stress eta fac (node_d1 l) (node_d2 l) e) (scale_ten (eta / eta_e) t0).
Proof.
  intros fac l e t0 eta_e eta M F Ee E.
  assert (D : let a := 1 - 1 / fac in (1 - a + 2 * a * node_d1 l) * (1 - 2 * a * node_d1 l) - 4 * a ^ 2 * node_d2 l ^ 2 <> 0).
  { cbv zeta. destruct (node_bounds l M) as (B1 & B2 & B3).
    assert (G : 0 < 1 / fac) by (apply Rdiv_lt_0_compat; lra).
    set (g := 1 / fac) in *. clearbody g.
    set (d1 := node_d1 l) in *. set (d2 := node_d2 l) in *.
    replace ((1 - (1 - g) + 2 * (1 - g) * d1) * (1 - 2 * (1 - g) * d1) - 4 * (1 - g) ^ 2 * d2 ^ 2)
      with (g + (1 - g) ^ 2 * (2 * d1 * (1 - 2 * d1) - 4 * d2 ^ 2)) by ring.
    pose proof (pow2_ge_0 (1 - g)). nra. }
  assert (S := effective_shift fac (node_d1 l) (node_d2 l) e t0 eta_e ltac:(lra) Ee D). fold E in S.
  assert (L : forall x, grid_stress eta fac (node_d1 l) (node_d2 l) x = scale_ten eta (unit_op fac (node_d1 l) (node_d2 l) x)).
  { intros x. rewrite grid_stress_is_operator. apply ten_eq; unfold unit_op, apply_op, picard_operator, scale_ten; cbn;
    ring. }
  rewrite !L, S. set (u := unit_op _ _ _ e). clearbody u. apply ten_eq; cbn; field; exact Ee.
Qed.
Print Assumptions C34_effective_strain_rate_carries_old_stress.

(** *** Two markers with different directors around a node. *)
Definition mix_ex : list (R * (R * R)) := [(/ 2, (3 / 5, 4 / 5)); (1, (- 4 / 5, 3 / 5)); (1 / 4, (1, 0))].
Example C34_ex : mixture mix_ex /\ node_d2 mix_ex <> 0 /\ node_d1 mix_ex <> 0 /\
  inner (of_ten (apply_op (picard_operator true 3 6 (node_d1 mix_ex) (node_d2 mix_ex)) (Ten 1 (-1) 2))) (of_ten (Ten 1 (-1) 2)) > 0.
Proof.
  assert (M : mixture mix_ex).
  { split; [|unfold weights; cbn; lra]. intros p [<-|[<-|[<-|[]]]]; unfold unit_dir; cbn; split; lra. }
  split; [exact M|]. repeat split.
  - unfold node_d2, waverage, marker_d2; cbn. lra.
  - unfold node_d1, waverage, marker_d1; cbn. lra.
  - eapply Rlt_le_trans; [|apply C34_dissipation; [exact M|lra|lra]]. cbn.
    rewrite Rmin_right by lra. lra.
Qed.

(** ** C48 *)
Theorem C48_initial_director_unit : forall angle polar x z, unit_dir (initial_director angle polar x z) /\
  initial_director angle polar x z =
  let a := if polar then angle - atan (x / z) else angle in (cos a, sin a).
Proof.
  intros angle polar x z. unfold initial_director. set (a := if polar then _ else _).
  pose proof (sin2_cos2 a) as P. unfold Rsqr in P.
  replace (cos a * cos a + sin a * sin a) with 1 by lra. rewrite sqrt_1. unfold Rdiv. rewrite Rinv_1, !Rmult_1_r.
  split; [unfold unit_dir; cbn; lra|reflexivity].
Qed.
Print Assumptions C48_initial_director_unit.

(** The director stays a unit vector for every velocity gradient and step, and
    turns at the rate of a material line along the layer. *)
Theorem C48_director_follows_layer : forall dt a b c d n, unit_dir n ->
  unit_dir (director_update dt a b c d n) /\
  director_update dt a b c d n =
  normalise (fst n + dt * layer_spin a b c d n * fst (layer_of n),
             snd n + dt * layer_spin a b c d n * snd (layer_of n)).
Proof.
  intros dt a b c d n U. rewrite director_update_spec by exact U. split; [|reflexivity].
  apply normalise_unit. rewrite (spin_norm (dt * layer_spin a b c d n) n U).
  pose proof (pow2_ge_0 (dt * layer_spin a b c d n)). lra.
Qed.
Print Assumptions C48_director_follows_layer.

(** A rigid rotation at rate [w] turns it by atan (w dt), in the sense of the flow. *)
Theorem C48_rigid_rotation : forall dt w phi,
  director_update dt 0 (- w) w 0 (cos phi, sin phi) = (cos (phi + atan (dt * w)), sin (phi + atan (dt * w))).
Proof.
  intros dt w phi.
  assert (U : unit_dir (cos phi, sin phi)).
  { unfold unit_dir. cbn [fst snd]. pose proof (sin2_cos2 phi) as P. unfold Rsqr in P. nra. }
  rewrite director_update_spec by exact U.
  assert (S : layer_spin 0 (- w) w 0 (cos phi, sin phi) = w).
  { unfold layer_spin, dot, grad_apply, layer_of. cbn [fst snd].
    pose proof (sin2_cos2 phi) as P. unfold Rsqr in P.
    transitivity (w * (sin phi * sin phi + cos phi * cos phi)); [ring|rewrite P; ring]. }
  rewrite S. unfold layer_of. cbn [fst snd]. rewrite <- normalise_rotates. reflexivity.
Qed.
Print Assumptions C48_rigid_rotation.

(** Director and its opposite describe the same layering and stay opposite. *)
Theorem C48_opposite_directors_equivalent : forall eta fac nx nz dt a b c d,
  picard_operator true eta fac (marker_d1 (- nx) (- nz)) (marker_d2 (- nx) (- nz)) =
  picard_operator true eta fac (marker_d1 nx nz) (marker_d2 nx nz) /\
  (unit_dir (nx, nz) -> director_update dt a b c d (- nx, - nz) =
     (- fst (director_update dt a b c d (nx, nz)), - snd (director_update dt a b c d (nx, nz)))).
Proof.
  intros. split.
  - replace (marker_d1 (- nx) (- nz)) with (marker_d1 nx nz) by (unfold marker_d1; ring).
    replace (marker_d2 (- nx) (- nz)) with (marker_d2 nx nz) by (unfold marker_d2; ring). reflexivity.
  - intros U. assert (U' : unit_dir (- nx, - nz)) by (unfold unit_dir in *; cbn [fst snd] in *; lra).
    rewrite !director_update_spec by assumption.
    assert (S : layer_spin a b c d (- nx, - nz) = layer_spin a b c d (nx, nz))
      by (unfold layer_spin, dot, grad_apply, layer_of; cbn; ring).
    rewrite S. set (s := layer_spin a b c d (nx, nz)).
    assert (Dt : forall x z, normalise (- x, - z) = (- fst (normalise (x, z)), - snd (normalise (x, z)))).
    { intros x z. unfold normalise, dot. cbn [fst snd]. replace (- x * - x + - z * - z) with (x * x + z * z) by ring.
      unfold Rdiv. f_equal; ring. }
    rewrite <- Dt. f_equal. unfold layer_of. cbn [fst snd]. f_equal; ring.
Qed.
Print Assumptions C48_opposite_directors_equivalent.

(** The invariant that drives the local viscosity does not depend on the orientation. *)
Theorem C48_viscosity_orientation_free : forall angle angle' e, local_Eii angle e = local_Eii angle' e.
Proof. intros. now rewrite !local_Eii_invariant. Qed.
Print Assumptions C48_viscosity_orientation_free.

(** Local stress and matrix describe the same layers when the director points up ... *)
Theorem C48_local_stress_matches_operator_upward_director : forall nx nz fac eta e, unit_dir (nx, nz) -> 0 <= nz ->
  local_stress (marker_angle nx) fac eta e = grid_stress eta fac (marker_d1 nx nz) (marker_d2 nx nz) e.
Proof.
  intros nx nz fac eta e U N.
  assert (H : of_ten (local_stress (marker_angle nx) fac eta e) =
    of_ten (grid_stress eta fac (marker_d1 nx nz) (marker_d2 nx nz) e)).
  { destruct (angle_of_director nx nz U) as (C & S). rewrite Rabs_right in S by lra.
    rewrite local_stress_layers, C, S, grid_stress_is_operator. now apply layered_closed. }
  injection H as A B _ C. now apply ten_eq.
Qed.
Print Assumptions C48_local_stress_matches_operator_upward_director.

(** ... and mirrored layers when it points down, although the layering is the same
    as that of the opposite, upward director. *)
Theorem C48_downward_director_mirrored_refuted : exists nx nz fac eta e, unit_dir (nx, nz) /\
  local_stress (marker_angle nx) fac eta e <> grid_stress eta fac (marker_d1 nx nz) (marker_d2 nx nz) e /\
  local_stress (marker_angle (- nx)) fac eta e = grid_stress eta fac (marker_d1 nx nz) (marker_d2 nx nz) e.
Proof.
  exists (3 / 5), (- 4 / 5), 2, 1, (Ten 1 (-1) 1).
  assert (U : unit_dir (3 / 5, - 4 / 5)) by (unfold unit_dir; cbn; lra).
  split; [exact U|]. split.
  - intro H. apply (f_equal of_ten) in H.
    destruct (angle_of_director _ _ U) as (C & S). rewrite Rabs_left in S by lra.
    rewrite local_stress_layers, C, S in H.
    rewrite layered_closed in H by (unfold unit_dir; cbn; lra). rewrite grid_stress_is_operator in H.
    apply (f_equal m11) in H. unfold of_ten, apply_op, picard_operator, aniS, marker_d1, marker_d2 in H. cbn in H. lra.
  - replace (marker_d1 (3 / 5) (- 4 / 5)) with (marker_d1 (- (3 / 5)) (4 / 5)) by (unfold marker_d1; field).
    replace (marker_d2 (3 / 5) (- 4 / 5)) with (marker_d2 (- (3 / 5)) (4 / 5)) by (unfold marker_d2; field).
    apply C48_local_stress_matches_operator_upward_director; [unfold unit_dir; cbn|]; lra.
Qed.
Print Assumptions C48_downward_director_mirrored_refuted.

Example C48_ex : unit_dir (3 / 5, 4 / 5) /\
  director_update (1 / 2) 1 2 3 (-1) (3 / 5, 4 / 5) <> (3 / 5, 4 / 5).
Proof.
  assert (U : unit_dir (3 / 5, 4 / 5)) by (unfold unit_dir; cbn; lra). split; [exact U|].
  intro H. rewrite director_update_spec in H by exact U.
  set (s := 1 / 2 * layer_spin 1 2 3 (-1) (3 / 5, 4 / 5)) in *.
  assert (Es : s = 27 / 25) by (unfold s, layer_spin, dot, grad_apply, layer_of; cbn; field).
  unfold normalise in H. rewrite (spin_norm s _ U) in H. injection H as H1 H2.
  assert (P : 0 < sqrt (1 + s ^ 2)) by (apply sqrt_lt_R0; nra).
  set (m := sqrt _) in *. unfold layer_of in *. cbn [fst snd] in *.
  assert (A : 3 / 5 + s * - (4 / 5) = 3 / 5 * m) by (apply Rmult_eq_reg_r with (/ m); [|apply Rinv_neq_0_compat; lra];
    replace (3 / 5 * m * / m) with (3 / 5) by (field; lra); exact H1).
  rewrite Es in A. lra.
Qed.

(** ** C49 *)
(** What a correct rotation by the angle [dt w] is. *)
Definition rotated_stress (dt w : R) (t : ten) : M2 :=
  mul (rot (dt * w)) (mul (of_ten t) (tr (rot (dt * w)))).
Definition spin_matrix (w : R) : M2 := mk2 0 (- w) w 0.

(** The Jaumann option, given the marker's spin, adds dt (W T - T W). *)
Theorem C49_jaumann_increment : forall dt w t,
  of_ten (rotate_stress Jaumann dt w t) =
  add (of_ten t) (scl dt (add (mul (spin_matrix w) (of_ten t)) (scl (-1) (mul (of_ten t) (spin_matrix w))))).
Proof. intros. apply M2_eq; unfold of_ten, add, scl, mul, spin_matrix, rotate_stress; cbn; ring. Qed.
Print Assumptions C49_jaumann_increment.

(** The analytical option is an exact rotation (all invariants kept), but by the
    opposite angle. *)
Theorem C49_analytical_is_opposite_rotation : forall dt w t,
  of_ten (rotate_stress Analytical dt w t) = rotated_stress dt (- w) t.
Proof.
  intros. unfold rotated_stress, rot. replace (dt * - w) with (- (dt * w)) by ring. rewrite cos_neg, sin_neg.
  apply M2_eq; unfold of_ten, mul, tr, rotate_stress; cbn; ring.
Qed.
Print Assumptions C49_analytical_is_opposite_rotation.

Theorem C49_analytical_sense_refuted : exists dt w t,
  of_ten (rotate_stress Analytical dt w t) <> rotated_stress dt w t /\
  txx (rotate_stress Analytical dt w t) - txx t > 0 /\ m11 (rotated_stress dt w t) - txx t < 0 /\
  txx (rotate_stress Jaumann dt w t) - txx t < 0.
Proof.
  exists (PI / 4), 1, (Ten 0 0 1).
  assert (S : sin (PI / 4) * cos (PI / 4) = / 2).
  { rewrite sin_PI4, cos_PI4. assert (Q := sqrt_sqrt 2 ltac:(lra)). assert (P := sqrt_lt_R0 2 ltac:(lra)).
    replace (1 / sqrt 2 * (1 / sqrt 2)) with (1 / (sqrt 2 * sqrt 2)) by (field; lra). rewrite Q. lra. }
  assert (A : txx (rotate_stress Analytical (PI / 4) 1 (Ten 0 0 1)) = 1).
  { cbn. rewrite Rmult_1_r. rewrite !Rmult_0_l. lra. }
  assert (B : m11 (rotated_stress (PI / 4) 1 (Ten 0 0 1)) = -1).
  { unfold rotated_stress, rot, mul, tr, of_ten. cbn. rewrite !Rmult_1_r. lra. }
  repeat split.
  - intro H. apply (f_equal m11) in H. rewrite B in H. cbn in H. cbn in A. lra.
  - rewrite A. cbn. lra.
  - rewrite B. cbn. lra.
  - cbn. pose proof PI_RGT_0. lra.
Qed.
Print Assumptions C49_analytical_sense_refuted.

(** As written, no marker is rotated at all, whatever the flow and the option. *)
Theorem C49_stored_stress_unchanged : forall mode dt p2g wxz active stress k,
  snd (stress_rotation_phase mode dt p2g wxz active stress) k = stress k.
Proof.
  intros. unfold stress_rotation_phase. cbn [snd]. destruct (active k); [|reflexivity].
  destruct mode; unfold rotate_stress; apply ten_eq; cbn [txx tzz txz];
    rewrite ?Rmult_0_r, ?cos_0, ?sin_0; ring.
Qed.
Print Assumptions C49_stored_stress_unchanged.

(** With uniform spin and any rotation option the stored stress is therefore wrong. *)
Theorem C49_stress_rotation_refuted : exists dt w t,
  rotated_stress dt w t <> of_ten t /\
  forall mode p2g k,
    snd (stress_rotation_phase mode dt p2g (fun _ => w) (fun _ => true) (fun _ => t)) k = t.
Proof.
  exists (PI / 4), 1, (Ten 0 0 1). split.
  - intro H. apply (f_equal m11) in H. unfold rotated_stress, rot, mul, tr, of_ten in H. cbn in H.
    assert (S : sin (PI / 4) * cos (PI / 4) = / 2).
    { rewrite sin_PI4, cos_PI4. assert (Q := sqrt_sqrt 2 ltac:(lra)). assert (P := sqrt_lt_R0 2 ltac:(lra)).
      replace (1 / sqrt 2 * (1 / sqrt 2)) with (1 / (sqrt 2 * sqrt 2)) by (field; lra). rewrite Q. lra. }
    rewrite !Rmult_1_r in H. lra.
  - intros mode p2g k. apply C49_stored_stress_unchanged.
Qed.
Print Assumptions C49_stress_rotation_refuted.

(** And the grid's vorticity is overwritten by zero wherever markers are present. *)
Theorem C49_grid_vorticity_erased : forall mode dt s per g ms tag wxz active stress k,
  tag k <> 30%Z -> tag k <> 31%Z -> / 10 ^ 30 <= WM s per g ms k ->
  fst (stress_rotation_phase mode dt (p2mastah_values s per g ms tag) wxz active stress) k = 0.
Proof.
  intros mode dt s per g ms tag wxz active stress k T1 T2 Big.
  unfold stress_rotation_phase, p2mastah_values. cbn [fst]. set (ms' := map _ _).
  assert (tp : 0 < tiny) by (unfold tiny; apply Rinv_0_lt_compat, pow_lt; lra). change (/ 10 ^ 30) with tiny in Big.
  assert (Q : forall l st, WM s per g (map (fun p => Marker (mx (snd p)) (mz (snd p)) (mph (snd p)) 0) (combine (seq st (length l)) l)) k
     = WM s per g l k).
  { unfold WM. induction l as [|m l IH]; intros st; [reflexivity|]. cbn [length seq combine map sumR fold_right].
    unfold sumR in IH. rewrite IH. f_equal. }
  unfold node_value. assert (E : WM s per g ms' k = WM s per g ms k) by apply Q. rewrite E.
  destruct (Rlt_dec _ tiny) as [L|_]; [rewrite Rabs_right in L by lra; lra|].
  replace (tag k =? 30)%Z with false by (symmetry; now apply Z.eqb_neq).
  replace (tag k =? 31)%Z with false by (symmetry; now apply Z.eqb_neq). cbn [orb bwd].
  assert (B : BMWM Arithmetic s per g ms' k = 0).
  { unfold BMWM, ms'. clear. generalize 0%nat as st. induction ms as [|m l IH]; intros st; [reflexivity|].
    cbn [length seq combine map sumR fold_right]. unfold sumR in IH. rewrite IH. cbn. lra. }
  rewrite B. unfold Rdiv. ring.
Qed.
Print Assumptions C49_grid_vorticity_erased.

(** The interpolation gives marker number [i] the [i]-th value of the array: handed the
    markers' own values it is the ordinary interpolation of the markers. *)
Theorem C49_values_go_to_their_markers : forall s per g ms tag d field k,
  p2mastah_values s per g ms tag (fun i => mval (nth i ms d)) field k =
  node_value Arithmetic s per g ms (tag k) (field k) k.
Proof.
  intros s per g ms tag d field k. unfold p2mastah_values. f_equal.
  assert (Q : forall l pre, map (fun p => Marker (mx (snd p)) (mz (snd p)) (mph (snd p)) (mval (nth (fst p) (pre ++ l) d)))
    (combine (seq (length pre) (length l)) l) = l).
  { induction l as [|m l IH]; intros pre; [reflexivity|]. cbn [length seq combine map fst snd]. f_equal.
    - rewrite app_nth2, Nat.sub_diag by lia. now destruct m.
    - specialize (IH (pre ++ [m])). rewrite app_length in IH. cbn [length] in IH. rewrite Nat.add_1_r, <- app_assoc in IH. exact IH. }
  exact (Q ms []).
Qed.
Print Assumptions C49_values_go_to_their_markers.

Example C49_ex : / 10 ^ 30 <= WM NineCell false (family_nodes Vertices 4 4 0 0 1 1) [Marker 1 1 0 5] 5%Z.
Proof.
  unfold WM, marker_weight, sumR. cbn [fold_right mph Z.eqb].
  rewrite Rplus_0_r. unfold contributions. 
  assert (N : nearest 1 0 1 4 = 1%Z).
  { unfold nearest. assert (C : Zceil ((1 - 0) / 1 + / 2) = 2%Z).
    { unfold Zceil. replace (- ((1 - 0) / 1 + / 2)) with (- 3 / 2) by field.
      assert (U : (-1)%Z = up (- 3 / 2)) by (apply tech_up; lra). rewrite <- U. reflexivity. }
    rewrite C. reflexivity. }
  cbn [gNx gNz gX gZ gdx gdz family_nodes mx mz]. replace (0 + 0 * 1) with 0 by ring. rewrite N.
  unfold at_node, w2. cbn. 
  repeat match goal with |- context [Rabs ?a] => first [rewrite (Rabs_right a) by lra | rewrite (Rabs_left a) by lra] end.
  apply Rle_trans with (/ 10 ^ 1); [apply (Rinv_le_contravar (10 ^ 1) (10 ^ 30)); [lra|apply Rle_pow; [lra|lia]]|]. cbn [pow]. lra.
Qed.
