(** C17-C20: advection sub-steps, adaptive time step, memory safety of its
    evaluation, memory of a time step. *)
From Coq Require Import List ZArith Reals Bool Lia Lra.
Import ListNotations.
From Verif Require Import TimeStepModel TimeStepProofs.
Open Scope R_scope.

(** ** C17 *)

(** The sub-steps add up to the solve step; all have the same positive length;
    each is at most the step allowed for advection, except that a single step may
    exceed it by the documented tolerance; their number is the least possible;
    the model time step is unchanged afterwards. *)
Theorem C17_substeps_cover_solve_step :
  forall dt_solve dta, 0 < dt_solve -> 0 < dta ->
  let (subs, after) := advection dt_solve dta in
  fold_right Rplus 0 subs = dt_solve /\ after = dt_solve /\ (1 <= length subs)%nat /\
  (forall d, In d subs -> 0 < d /\ (d <= dta \/ (length subs = 1%nat /\ 0.95 * d <= dta))) /\
  (forall m : Z, (1 <= m)%Z -> dt_solve / IZR m <= dta -> (Z.of_nat (length subs) <= m)%Z).
Proof.
  intros dt_solve dta Hs Ha. unfold advection.
  destruct (substeps dt_solve dta) as [n d] eqn:E.
  destruct (substeps_spec _ _ _ _ Hs Ha E) as (H1 & H2 & H3 & H4 & H5).
  rewrite sum_repeat, repeat_length, INR_IZR_INZ, Z2Nat.id by lia.
  split; [exact H3|]. split; [reflexivity|]. split; [lia|]. split; [|exact H5].
  intros d' Hd'. apply repeat_spec in Hd'. subst d'. split; [exact H2|].
  destruct H4 as [H4|[-> H4]]; [now left|right; auto].
Qed.
Print Assumptions C17_substeps_cover_solve_step.

(** With adaptive stepping: in one sub-step no grid velocity crosses more than
    the Courant fraction of a cell (within the 5 percent tolerance), unless the
    advection step was raised to the user's minimum or motion is negligible. *)
Theorem C17_courant_respected_by_substeps :
  forall c Nx Nz Vx Vz dt0 dt_solve, constant_dt c = false -> growth c * dt0 <= 10 ^ 30 ->
  let dta := courant_dt c Nx Nz Vx Vz dt0 in
  0 < dt_solve -> 0 < dta ->
  (forall v, is_velocity Nx Nz Vx Vz v -> Rabs v < / 10 ^ 30) \/ dta = dt_min c \/
  forall d v, In d (fst (advection dt_solve dta)) -> is_velocity Nx Nz Vx Vz v ->
    0.95 * (Rabs v * d) <= Courant c * dmin c.
Proof.
  intros c Nx Nz Vx Vz dt0 dt_solve Hc Hg dta Hs Ha.
  destruct (courant_cases c Nx Nz Vx Vz dt0 Hc Hg) as [H|[H|(_ & H & _)]]; [now left|now right; left|].
  right. right. intros d v Hd Hv. fold dta in H. specialize (H v Hv ltac:(lra)).
  unfold advection in Hd. destruct (substeps dt_solve dta) as [n d0] eqn:E.
  destruct (substeps_spec _ _ _ _ Hs Ha E) as (H1 & H2 & H3 & H4 & H5).
  cbn in Hd. apply repeat_spec in Hd. subst d0. pose proof (Rabs_pos v).
  destruct H4 as [H4|[_ H4]]; nra.
Qed.
Print Assumptions C17_courant_respected_by_substeps.

(** With fixed stepping the Courant limit is not enforced at all. *)
Theorem C17_fixed_step_respects_courant_refuted :
  exists c Nx Nz Vx Vz dt0 dt_solve d v, constant_dt c = true /\ 0 < Courant c /\ 0 < dmin c /\
    0 < dt_solve /\ In d (fst (advection dt_solve (courant_dt c Nx Nz Vx Vz dt0))) /\
    is_velocity Nx Nz Vx Vz v /\ 1000 * (Courant c * dmin c) < Rabs v * d.
Proof.
  exists (DtCfg 0.5 1 1 true false false 0 false 0 1 1 0), 3%nat, 3%nat, (fun _ => 1000), (fun _ => 0),
    1, 1, 1, 1000.
  unfold advection, courant_dt, substeps, dmin, MINV. cbn.
  rewrite (proj2 (gtb_false (0.95 * 1) 1)) by lra. cbn.
  destruct (Rle_dec 1 1); [|lra].
  repeat split; try lra; try reflexivity.
  - left. reflexivity.
  - left. exists 0%nat. split; [cbn; lia|reflexivity].
  - rewrite Rabs_right by lra. lra.
Qed.
Print Assumptions C17_fixed_step_respects_courant_refuted.

(** Instance: solve step 1, advection step 0.3: four sub-steps of 0.25. *)
Example C17_ex : fst (advection 1 0.3) = [1/4; 1/4; 1/4; 1/4].
Proof.
  unfold advection, substeps. rewrite (proj2 (gtb_true (0.95 * 1) 0.3)) by lra.
  assert (E : Rceil (1 / 0.3) = 4%Z).
  { destruct (Rceil_spec (1 / 0.3)) as [A B].
    assert (3 < Rceil (1 / 0.3))%Z by (apply lt_IZR; lra).
    assert (Rceil (1 / 0.3) < 5)%Z by (apply lt_IZR; lra). lia. }
  rewrite E. reflexivity.
Qed.

(** ** C18 *)

Theorem C18_step_within_user_limits :
  forall c Nx Nz Vx Vz dt0, constant_dt c = false -> dt_min c <= dt_max c ->
  dt_min c <= courant_dt c Nx Nz Vx Vz dt0 <= dt_max c.
Proof. intros. unfold courant_dt. rewrite H. now apply clamp_bounds. Qed.
Print Assumptions C18_step_within_user_limits.

Theorem C18_courant_and_growth_limits :
  forall c Nx Nz Vx Vz dt0,
  constant_dt c = false -> growth c * dt0 <= 10 ^ 30 ->
  let dt := courant_dt c Nx Nz Vx Vz dt0 in
  (forall v, is_velocity Nx Nz Vx Vz v -> Rabs v < / 10 ^ 30) \/
  dt = dt_min c \/
  (dt <= (if dt_elastic c then 1.25 else 2) * dt0 /\
   (forall v, is_velocity Nx Nz Vx Vz v -> 0 <= dt -> Rabs v * dt <= Courant c * Rmin (dx c) (dz c)) /\
   (surf_proc c = true -> surf_Vinc c <> 0 -> Rabs (surf_Vinc c) * dt <= Courant c * Rmin (dx c) (dz c)) /\
   (chem c = true -> dt <= dt_reac c)).
Proof. exact courant_cases. Qed.
Print Assumptions C18_courant_and_growth_limits.

(** The step is not reduced without reason: it is one of its limits. *)
Theorem C18_step_is_as_long_as_allowed :
  forall c Nx Nz Vx Vz dt0,
  constant_dt c = false -> surf_proc c = false -> chem c = false ->
  growth c * dt0 <= 10 ^ 30 ->
  (exists v, is_velocity Nx Nz Vx Vz v /\ / 10 ^ 30 <= Rabs v) ->
  let dt := courant_dt c Nx Nz Vx Vz dt0 in
  dt = dt_min c \/ dt = dt_max c \/ dt = (if dt_elastic c then 1.25 else 2) * dt0 \/
  exists v, is_velocity Nx Nz Vx Vz v /\ Rabs v * dt = Courant c * Rmin (dx c) (dz c).
Proof. exact courant_maximal. Qed.
Print Assumptions C18_step_is_as_long_as_allowed.

(** Negligible motion: the initial step, within the limits. *)
Theorem C18_no_motion_uses_initial_step :
  forall c Nx Nz Vx Vz dt0, constant_dt c = false ->
  (forall v, is_velocity Nx Nz Vx Vz v -> Rabs v < / 10 ^ 30) ->
  dt_min c <= dt_start c <= dt_max c ->
  courant_dt c Nx Nz Vx Vz dt0 = dt_start c.
Proof.
  intros c Nx Nz Vx Vz dt0 Hc Hv [Ha Hb]. unfold courant_dt. rewrite Hc.
  destruct (vmax_spec Nx Nz Vx Vz) as (Hp & _ & Hat).
  assert (L : vmax_of Nx Nz Vx Vz < / 10 ^ 30).
  { destruct Hat as [->|(v & I & <-)]; [apply Rinv_0_lt_compat, pow30_pos|now apply Hv]. }
  unfold dt_reset. rewrite (proj2 (gtb_true _ _) L), orb_true_r. unfold dt_clamp.
  rewrite (proj2 (gtb_false (dt_start c) (dt_max c))) by lra.
  rewrite (proj2 (gtb_false (dt_min c) (dt_start c))) by lra. reflexivity.
Qed.
Print Assumptions C18_no_motion_uses_initial_step.

Theorem C18_fixed_step :
  forall c Nx Nz Vx Vz dt0, constant_dt c = true -> courant_dt c Nx Nz Vx Vz dt0 = dt_start c.
Proof. intros c Nx Nz Vx Vz dt0 H. unfold courant_dt. now rewrite H. Qed.
Print Assumptions C18_fixed_step.

(** Instance: 3x3 vertices, one velocity 4 downwards at the last node, spacing
    1 and 2, Courant number 1/2, previous step 1: the step is 1/8. *)
Example C18_ex :
  courant_dt (DtCfg (1/2) 1 2 false true false 0 false 0 1 100 0) 3 3
    (fun _ => 0) (fun c => if Nat.eqb c 11 then -4 else 1) 1 = 1/8.
Proof.
  set (c := DtCfg (1/2) 1 2 false true false 0 false 0 1 100 0).
  set (Vx := fun _ : nat => 0). set (Vz := fun c : nat => if Nat.eqb c 11 then -4 else 1).
  assert (V : vmax_of 3 3 Vx Vz = 4).
  { destruct (vmax_spec 3 3 Vx Vz) as (Hp & Hb & Hat).
    assert (4 <= vmax_of 3 3 Vx Vz).
    { specialize (Hb (-4)). rewrite Rabs_left in Hb by lra. replace 4 with (- -4) by ring. apply Hb.
      right. exists 11%nat. split; [cbn; lia|reflexivity]. }
    assert (vmax_of 3 3 Vx Vz <= 4); [|lra].
    destruct Hat as [H0|(v & [(k & Hk & E)|(k & Hk & E)] & Ev)]; [lra| |]; rewrite <- Ev, E.
    - unfold Vx. rewrite Rabs_R0. lra.
    - unfold Vz. destruct (Nat.eqb k 11).
      + rewrite Rabs_left; lra.
      + rewrite Rabs_right; lra. }
  unfold courant_dt. change (constant_dt c) with false. cbv iota. rewrite V.
  assert (P : dt_pre c 1 4 = 1/8).
  { unfold dt_pre, dmin, MINV, growth. cbn.
    destruct (Rle_dec 1 2); [|lra]. rewrite (Rabs_right 4) by lra.
    rewrite (proj2 (gtb_false (1 / 2 * 1 / 4) (1.25 * 1))) by lra. field. }
  assert (B : 1 <= 10 ^ 30) by (apply pow_R1_Rle; lra).
  unfold dt_reset. rewrite P.
  rewrite (proj2 (gtb_false (1/8) (10 ^ 30))) by lra.
  rewrite (proj2 (gtb_false (/ 10 ^ 30) 4)).
  2:{ apply Rle_trans with 1; [|lra]. rewrite <- Rinv_1. apply Rinv_le_contravar; lra. }
  unfold dt_clamp. cbn [orb dt_max dt_min c].
  rewrite (proj2 (gtb_false (1/8) 100)) by lra. cbv iota. rewrite (proj2 (gtb_false 0 (1/8))) by lra.
  reflexivity.
Qed.

(** ** C19 *)

(** Exactly the entries 0 .. length+Nx of the temperature arrays are read: the
    evaluation reads Nx+1 entries past their end, on every grid. *)
Theorem C19_exact_reads :
  forall Nx Nz, (2 <= Nx)%nat -> (1 <= Nz)%nat -> forall i,
  In i (thermal_reads Nx Nz) <-> (i < temperature_length Nx Nz + (Nx + 1))%nat.
Proof. intros Nx Nz Hx Hz i. rewrite (thermal_reads_exact Nx Nz Hx Hz). lia. Qed.
Print Assumptions C19_exact_reads.

Theorem C19_reads_in_range_refuted :
  forall Nx Nz, (2 <= Nx)%nat -> (1 <= Nz)%nat ->
  exists i, In i (thermal_reads Nx Nz) /\ ~ (i < temperature_length Nx Nz)%nat.
Proof.
  intros Nx Nz Hx Hz. exists (temperature_length Nx Nz). split; [|lia].
  apply (thermal_reads_exact Nx Nz Hx Hz). lia.
Qed.
Print Assumptions C19_reads_in_range_refuted.

(** The two velocity loops of the same function stay in range. *)
Theorem C19_velocity_reads_in_range :
  forall Nx Nz i,
  (In i (visit Nx (Nz + 1) Nx) -> (i < Nx * (Nz + 1))%nat) /\
  (In i (visit (Nx + 1) Nz (Nx + 1)) -> (i < (Nx + 1) * Nz)%nat).
Proof. intros. split; apply visit_bound. Qed.
Print Assumptions C19_velocity_reads_in_range.

Example C19_ex : In 24%nat (thermal_reads 5 6) /\ temperature_length 5 6 = 20%nat.
Proof. split; [vm_compute; tauto|reflexivity]. Qed.

(** ** C20 *)

(** With the mechanical solve active: for any number of time steps, any number
    of nonlinear passes in each, with or without Jacobian, every block released
    was live, no live block is overwritten, and nothing stays allocated. *)
Theorem C20_mechanical_runs_are_balanced :
  forall need (runs : list (list bool)),
  exists m, mem_run wild (flat_map (step_mem true need) runs) = Some m /\
  forall p, m p <> Live.
Proof. intros need runs. apply steps_mem_ok. discriminate. Qed.
Print Assumptions C20_mechanical_runs_are_balanced.

(** With the mechanical solve off the very first step releases a pointer that
    was never set. *)
Theorem C20_without_mechanics_refuted :
  forall need passes rest, mem_run wild (step_mem false need passes ++ rest) = None.
Proof. reflexivity. Qed.
Print Assumptions C20_without_mechanics_refuted.

Example C20_ex :
  mem_run wild (step_mem true true [false; true] ++ step_mem true true [true]) <> None.
Proof.
  destruct (C20_mechanical_runs_are_balanced true [[false; true]; [true]]) as (m & H & _).
  cbn [flat_map] in H. rewrite app_nil_r in H. rewrite H. discriminate.
Qed.
