(** C106, C107, C108: first velocity field, first time step, velocities of the surface. *)
From Coq Require Import List ZArith Reals Bool Arith Lia Lra.
Import ListNotations.
From Verif Require Import GridModel GridProofs NumModel NumProofs NumProps BCModel BCProofs BCProps TimeStepModel TimeStepProofs TimeStepProps
  P2GModel P2GProofs AdvModel AdvProofs FlagModel SurfModel SurfProofs InitModel InitProofs.
Local Open Scope R_scope.

(** ** C106 *)

(** The background flow: pure shear with divergence [2 d / 3] in the plane (a third of
    [d] is out of the plane), or simple shear of strain rate [e] plus divergence. *)
Definition background_vx (periodic : bool) (e d x z : R) : R :=
  if periodic then 2 * e * z + d / 3 * x else (d / 3 - e) * x.
Definition background_vz (periodic : bool) (e d z : R) : R :=
  if periodic then d / 3 * z else (d / 3 + e) * z.

(** Every node that is not a ghost: zero in the air, the prescribed value where the
    normal velocity is prescribed, elsewhere the background flow at step 0 and the
    previous value later on. *)
Theorem C106_velocity_at_the_start : forall nx nz t valu valv xg zvx zg b f,
  (2 <= nx)%nat -> (2 <= nz)%nat ->
  let f' := start_fields nx nz t valu valv xg zvx zg b f in
  (forall i j, (i < nx)%nat -> (1 <= j < nz)%nat -> (i < nx - 1)%nat \/ tu t (i + j * nx) <> (-12)%Z ->
     let c := (i + j * nx)%nat in
     (tu t c = 30%Z -> u_in f' c = 0) /\ (tu t c = 0%Z -> u_in f' c = valu c) /\
     (tu t c <> 30%Z -> tu t c <> 0%Z -> bg_first b = false -> u_in f' c = u_in f c) /\
     (tu t c <> 30%Z -> tu t c <> 0%Z -> bg_first b = true -> bg_e b <> 0 \/ bg_periodic b = true ->
        u_in f' c = background_vx (bg_periodic b) (bg_e b) (bg_d b) (xg i) (zvx j))) /\
  (forall i j, (1 <= i < nx)%nat -> (j < nz)%nat ->
     let c := (i + j * (nx + 1))%nat in
     (tv t c = 30%Z -> v_in f' c = 0) /\ (tv t c = 0%Z -> v_in f' c = valv c) /\
     (tv t c <> 30%Z -> tv t c <> 0%Z -> bg_first b = false -> v_in f' c = v_in f c) /\
     (tv t c <> 30%Z -> tv t c <> 0%Z -> bg_first b = true -> bg_e b <> 0 \/ bg_periodic b = true ->
        v_in f' c = background_vz (bg_periodic b) (bg_e b) (bg_d b) (zg j))).
Proof.
  intros nx nz t valu valv xg zvx zg b f Hx Hz f'. unfold f', start_fields, apply_bc. cbn [u_in v_in].
  set (u0 := each_node nx _ _ _). set (v0 := each_node (nx + 1) _ _ _). split.
  - intros i j I J E. set (c := (i + j * nx)%nat) in *.
    destruct (vx_ghosts nx nz t valu u0 Hx Hz) as (_ & _ & C).
    assert (Q : bc_u nx nz t valu u0 c = u0 c).
    { unfold c. rewrite (Nat.add_comm i). apply C; auto. rewrite (Nat.add_comm (j * nx)). exact E. }
    rewrite Q. unfold u0, c. rewrite each_node_at by lia. fold c. unfold start_vx.
    destruct (Z.eqb_spec (tu t c) 30), (Z.eqb_spec (tu t c) 0); repeat split; intros; try congruence; try lia.
    + rewrite H1. reflexivity.
    + rewrite H1. unfold background_vx. destruct (bg_periodic b); [field|]. destruct (Req_EM_T (bg_e b) 0); [|field].
      destruct H2; [contradiction|discriminate].
  - intros i j I J. set (c := (i + j * (nx + 1))%nat) in *.
    destruct (C31_vz_ghosts nx nz t valv v0 Hx) as (_ & C).
    assert (Q : bc_v nx nz t valv v0 c = v0 c) by (unfold c; rewrite (Nat.add_comm i); apply C; lia).
    rewrite Q. unfold v0, c. rewrite each_node_at by lia. fold c. unfold start_vz.
    destruct (Z.eqb_spec (tv t c) 30), (Z.eqb_spec (tv t c) 0); repeat split; intros; try congruence; try lia.
    + rewrite H1. reflexivity.
    + rewrite H1. unfold background_vz. destruct (bg_periodic b); [field|]. destruct (Req_EM_T (bg_e b) 0); [|field].
      destruct H2; [contradiction|discriminate].
Qed.
Print Assumptions C106_velocity_at_the_start.

(** Divergence of cell (i, j) of the staggered grid, and its faces. *)
Definition cell_div (nx : nat) (dx dz : R) (f : fields) (i j : nat) : R :=
  (u_in f (i + 1 + (j + 1) * nx)%nat - u_in f (i + (j + 1) * nx)%nat) / dx +
  (v_in f (i + 1 + (j + 1) * (nx + 1))%nat - v_in f (i + 1 + j * (nx + 1))%nat) / dz.

(** The first field has the same divergence in every rock cell: [2 d / 3]. Prescribed
    normal velocities count if they are those of the background flow (as the built-in
    templates are for [d = 0]). *)
Theorem C106_divergence_at_the_start : forall nx nz t valu valv xmin zmin dx dz b f i j,
  (2 <= nx)%nat -> (2 <= nz)%nat -> 0 < dx -> 0 < dz -> (i < nx - 1)%nat -> (j < nz - 1)%nat ->
  bg_first b = true -> bg_e b <> 0 \/ bg_periodic b = true ->
  let xg k := xmin + INR k * dx in let zg l := zmin + INR l * dz in let zvx l := zmin - dz / 2 + INR l * dz in
  (forall k, (k = i \/ k = i + 1)%nat -> let c := (k + (j + 1) * nx)%nat in
     tu t c <> 30%Z /\ tu t c <> (-12)%Z /\
     (tu t c = 0%Z -> valu c = background_vx (bg_periodic b) (bg_e b) (bg_d b) (xg k) (zvx (j + 1)%nat))) ->
  (forall l, (l = j \/ l = j + 1)%nat -> let c := (i + 1 + l * (nx + 1))%nat in
     tv t c <> 30%Z /\ (tv t c = 0%Z -> valv c = background_vz (bg_periodic b) (bg_e b) (bg_d b) (zg l))) ->
  cell_div nx dx dz (start_fields nx nz t valu valv xg zvx zg b f) i j = 2 * bg_d b / 3.
Proof.
  intros nx nz t valu valv xmin zmin dx dz b f i j Hx Hz Dx Dz I J F E xg zg zvx U V.
  destruct (C106_velocity_at_the_start nx nz t valu valv xg zvx zg b f Hx Hz) as [A B].
  set (f' := start_fields _ _ _ _ _ _ _ _ _ _) in *.
  assert (UU : forall k, (k = i \/ k = i + 1)%nat -> u_in f' (k + (j + 1) * nx)%nat =
     background_vx (bg_periodic b) (bg_e b) (bg_d b) (xg k) (zvx (j + 1)%nat)).
  { intros k K. destruct (U k K) as (U1 & U2 & U3).
    destruct (A k (j + 1)%nat ltac:(lia) ltac:(lia) (or_intror U2)) as (_ & P & _ & Q).
    destruct (Z.eq_dec (tu t (k + (j + 1) * nx)) 0) as [T|T]; [rewrite P by exact T; apply U3; exact T|apply Q; assumption]. }
  assert (VV : forall l, (l = j \/ l = j + 1)%nat -> v_in f' (i + 1 + l * (nx + 1))%nat =
     background_vz (bg_periodic b) (bg_e b) (bg_d b) (zg l)).
  { intros l L. destruct (V l L) as (V1 & V3).
    destruct (B (i + 1)%nat l ltac:(lia) ltac:(lia)) as (_ & P & _ & Q).
    destruct (Z.eq_dec (tv t (i + 1 + l * (nx + 1))) 0) as [T|T]; [rewrite P by exact T; apply V3; exact T|apply Q; assumption]. }
  unfold cell_div. rewrite !UU, !VV by auto. unfold background_vx, background_vz, xg, zg. rewrite !plus_INR. cbn [INR].
  destruct (bg_periodic b); field; lra.
Qed.
Print Assumptions C106_divergence_at_the_start.

(** Pure-shear box of 3 x 3 vertices under the built-in template (-x e on the sides,
    z e at bottom and top, free slip): the hypotheses hold in the first cell. *)
Example C106_divergence_ex :
  let e := 5 in
  let t := Types (fun c => nth c [13;13;13; 0;-1;0; 0;-1;0; 13;13;13]%Z 30%Z)
                 (fun c => nth c [13;0;0;13; 13;-1;-1;13; 13;0;0;13]%Z 30%Z) (fun _ => (-1)%Z) in
  let xg k := -1 + INR k * 1 in let zg l := -1 + INR l * 1 in let zvx l := -1 - 1 / 2 + INR l * 1 in
  cell_div 3 1 1 (start_fields 3 3 t (fun c => - xg (c mod 3)%nat * e) (fun c => zg (c / 4)%nat * e) xg zvx zg
    (Background e 0 7 false true) (Fields (fun _ => 0) (fun _ => 0) (fun _ => 0))) 0 0 = 0.
Proof.
  cbv zeta. rewrite C106_divergence_at_the_start; try lia; try lra; cbn [bg_first bg_e bg_d bg_periodic]; try reflexivity; try (left; lra); try lra.
  - intros k [-> | ->]; cbn; repeat split; try discriminate; intros; unfold background_vx; try field; try lra.
  - intros l [-> | ->]; cbn; repeat split; try discriminate; intros; unfold background_vz; try field; try lra.
Qed.

(** All ghost and periodic conditions hold for the first field, if the east column
    next to the ghost rows agrees with the west one (true for simple shear without
    divergence). *)
Theorem C106_boundary_conditions_hold : forall nx nz t valu valv xg zvx zg b f,
  (2 <= nx)%nat -> (2 <= nz)%nat ->
  (forall j, (j = 1 \/ j = nz - 1)%nat -> tu t (j * nx + (nx - 1)) = (-12)%Z ->
     bg_first b = true /\ bg_periodic b = true /\ bg_d b = 0 /\ tu t (j * nx) <> 30%Z /\ tu t (j * nx) <> 0%Z) ->
  let f' := start_fields nx nz t valu valv xg zvx zg b f in
  vx_conditions nx nz t valu (u_in f') /\ vz_conditions nx nz t valv (v_in f').
Proof.
  intros nx nz t valu valv xg zvx zg b f Hx Hz S f'. unfold f', start_fields, apply_bc. cbn [u_in v_in]. split.
  - apply C31_vx_ghosts; [exact Hx|exact Hz|]. intros j J T. destruct (S j J T) as (F & P & D & T1 & T2).
    replace (j * nx + (nx - 1))%nat with (nx - 1 + j * nx)%nat in * by lia. replace (j * nx)%nat with (0 + j * nx)%nat in T1, T2 |- * by lia.
    change (nx - 1 + (0 + j * nx))%nat with (nx - 1 + j * nx)%nat.
    rewrite !each_node_at by lia. unfold start_vx. rewrite T, F, P, D.
    rewrite (proj2 (Z.eqb_neq _ _) T1), (proj2 (Z.eqb_neq _ _) T2). cbn [Z.eqb]. field.
  - apply C31_vz_ghosts. exact Hx.
Qed.
Print Assumptions C106_boundary_conditions_hold.

(** With divergence but no strain rate the first field is at rest, not the background
    flow: its divergence is 0 instead of [2 d / 3]. *)
Theorem C106_pure_divergence_refuted : exists t valu valv xg zvx zg b f,
  bg_first b = true /\ bg_d b = 3 /\
  (forall c, tu t c = (-1)%Z /\ tv t c = (-1)%Z) /\
  (forall k, xg k = INR k /\ zg k = INR k /\ zvx k = INR k - 1 / 2) /\
  cell_div 3 1 1 (start_fields 3 3 t valu valv xg zvx zg b f) 0 0 <> 2 * bg_d b / 3.
Proof.
  exists (Types (fun _ => (-1)%Z) (fun _ => (-1)%Z) (fun _ => (-1)%Z)), (fun _ => 0), (fun _ => 0),
    INR, (fun k => INR k - 1 / 2), INR, (Background 0 3 0 false true), (Fields (fun _ => 0) (fun _ => 0) (fun _ => 0)).
  split; [reflexivity|]. split; [reflexivity|]. split; [auto|]. split; [auto|].
  assert (U : forall u, bc_u 3 3 (Types (fun _ => (-1)%Z) (fun _ => (-1)%Z) (fun _ => (-1)%Z)) (fun _ => 0) u = u) by reflexivity.
  assert (V : forall u, bc_v 3 3 (Types (fun _ => (-1)%Z) (fun _ => (-1)%Z) (fun _ => (-1)%Z)) (fun _ => 0) u = u) by reflexivity.
  unfold cell_div, start_fields, apply_bc. cbn [u_in v_in]. rewrite U, V.
  change (0 + 1 + (0 + 1) * 3)%nat with (1 + 1 * 3)%nat. change (0 + (0 + 1) * 3)%nat with (0 + 1 * 3)%nat.
  change (0 + 1 + (0 + 1) * (3 + 1))%nat with (1 + 1 * (3 + 1))%nat. change (0 + 1 + 0 * (3 + 1))%nat with (1 + 0 * (3 + 1))%nat.
  rewrite !each_node_at by lia. unfold start_vx, start_vz. cbn [tu tv Z.eqb bg_first bg_e bg_d bg_periodic].
  destruct (Req_EM_T 0 0); lra.
Qed.
Print Assumptions C106_pure_divergence_refuted.

(** Pressure: the background pressure at step 0 in every cell, later the previous one,
    and zero in the air. *)
Theorem C106_pressure_at_the_start : forall nx nz t valu valv xg zvx zg b f i j,
  (i < nx - 1)%nat -> (j < nz - 1)%nat ->
  let f' := start_fields nx nz t valu valv xg zvx zg b f in
  let c := (i + j * (nx - 1))%nat in
  (bg_first b = true -> p_in f' c = bg_p b) /\
  (bg_first b = false -> tp t c = 30%Z \/ tp t c = 31%Z -> p_in f' c = 0) /\
  (bg_first b = false -> tp t c <> 30%Z -> tp t c <> 31%Z -> p_in f' c = p_in f c).
Proof.
  intros nx nz t valu valv xg zvx zg b f i j I J f' c. unfold f', start_fields, apply_bc. cbn [p_in]. unfold c.
  rewrite each_node_at by lia. fold c. unfold start_p.
  destruct (Z.eqb_spec (tp t c) 30) as [E|E]; [rewrite E; cbn [Z.eqb Pos.eqb negb orb]|destruct (Z.eqb_spec (tp t c) 31) as [E'|E']; cbn [negb orb]].
  all: destruct (bg_first b); repeat split; intros; try discriminate; try lra; try lia; try contradiction; reflexivity.
Qed.
Print Assumptions C106_pressure_at_the_start.

(** So the air does not start at zero pressure, as lines 398 and 399 intend. *)
Theorem C106_air_pressure_refuted : exists nx nz t valu valv xg zvx zg b f c,
  (c < (nx - 1) * (nz - 1))%nat /\ tp t c = 30%Z /\ p_in (start_fields nx nz t valu valv xg zvx zg b f) c <> 0.
Proof.
  exists 3%nat, 3%nat, (Types (fun _ => 30%Z) (fun _ => 30%Z) (fun _ => 30%Z)), (fun _ => 0), (fun _ => 0), INR, INR, INR,
    (Background 1 0 5 false true), (Fields (fun _ => 0) (fun _ => 0) (fun _ => 0)), 0%nat.
  split; [cbn; lia|]. split; [reflexivity|].
  destruct (C106_pressure_at_the_start 3 3 (Types (fun _ => 30%Z) (fun _ => 30%Z) (fun _ => 30%Z)) (fun _ => 0) (fun _ => 0) INR INR INR
    (Background 1 0 5 false true) (Fields (fun _ => 0) (fun _ => 0) (fun _ => 0)) 0 0 ltac:(lia) ltac:(lia)) as (A & _).
  cbn [Nat.add Nat.mul] in A. rewrite A by reflexivity. cbn. lra.
Qed.
Print Assumptions C106_air_pressure_refuted.

(** ** C107 *)
Theorem C107_first_step_resolves_relaxation : forall n tag eta mu dt dt0,
  let r := define_dt true false n tag eta mu dt dt0 in
  fst r <= dt /\
  (forall k, (k < n)%nat -> tag k <> 30%Z -> 0 < mu k -> fst r <= eta k / mu k) /\
  (fst r = dt /\ snd r = dt0 \/
   snd r = fst r /\ (fst r = 10 ^ 100 \/ exists k, (k < n)%nat /\ tag k <> 30%Z /\ fst r = eta k / mu k)) /\
  (0 < dt -> (forall k, (k < n)%nat -> tag k <> 30%Z -> 0 < eta k /\ 0 < mu k) -> 0 < fst r).
Proof.
  intros n tag eta mu dt dt0 r. unfold r, define_dt. cbn [andb negb].
  destruct (min_maxwell_spec n tag eta mu) as (A & B & C). set (m := min_maxwell n tag eta mu) in *. clearbody m.
  assert (Pm : (forall k, (k < n)%nat -> tag k <> 30%Z -> 0 < eta k /\ 0 < mu k) -> 0 < m).
  { intro H. destruct C as [->|(k & K & T & M & ->)]; [apply pow_lt; lra|]. destruct (H k K T). now apply Rdiv_lt_0_compat. }
  destruct (Rlt_dec m dt) as [L|L]; cbn [fst snd].
  - split; [lra|]. split; [intros k K T M; apply B; auto; lra|]. split; [|auto].
    right. split; [reflexivity|]. destruct C as [C|(k & K & T & M & C)]; [now left|right; exists k; auto].
  - split; [lra|]. split; [intros k K T M; specialize (B k K T ltac:(lra)); lra|]. split; [now left|auto].
Qed.
Print Assumptions C107_first_step_resolves_relaxation.

Theorem C107_other_runs_keep_the_given_step : forall elastic constant n tag eta mu dt dt0,
  elastic = false \/ constant = true -> define_dt elastic constant n tag eta mu dt dt0 = (dt, dt0).
Proof. intros elastic constant n tag eta mu dt dt0 [-> | ->]; unfold define_dt; [reflexivity|now rewrite andb_false_r]. Qed.
Print Assumptions C107_other_runs_keep_the_given_step.

(** The step used by the first solution (Main_DOODZ.c 450-453: [dt0 = dt], then the
    Courant criterion) exceeds no relaxation time by more than a quarter, if something
    moves and the user's lower limit does not rule. *)
Theorem C107_first_solution_step : forall c Nx Nz Vx Vz n tag eta mu dt dt0,
  dt_elastic c = true -> constant_dt c = false ->
  let dt1 := fst (define_dt true false n tag eta mu dt dt0) in
  dt1 <= 10 ^ 29 ->
  let dt2 := courant_dt c Nx Nz Vx Vz dt1 in
  (forall v, is_velocity Nx Nz Vx Vz v -> Rabs v < / 10 ^ 30) \/ dt2 = dt_min c \/
  forall k, (k < n)%nat -> tag k <> 30%Z -> 0 < mu k -> dt2 <= 1.25 * (eta k / mu k).
Proof.
  intros c Nx Nz Vx Vz n tag eta mu dt dt0 E K dt1 S dt2.
  assert (G : growth c * dt1 <= 10 ^ 30).
  { unfold growth. rewrite E. replace (10 ^ 30) with (10 * 10 ^ 29) by (cbn; ring). assert (0 < 10 ^ 29) by (apply pow_lt; lra). lra. }
  destruct (C18_courant_and_growth_limits c Nx Nz Vx Vz dt1 K G) as [A|[A|(A & _)]]; [now left|right; now left|].
  right. right. intros k Kn T M. rewrite E in A. fold dt2 in A.
  destruct (C107_first_step_resolves_relaxation n tag eta mu dt dt0) as (_ & B & _). specialize (B k Kn T M). fold dt1 in B. lra.
Qed.
Print Assumptions C107_first_solution_step.

Example C107_ex : fst (define_dt true false 3 (fun k => if Nat.eqb k 2 then 30%Z else (-1)%Z) (fun k => INR (2 + k)) (fun _ => 4) 10 10) = 1 / 2.
Proof.
  unfold define_dt, min_maxwell, loop. cbn [andb negb seq fold_left Nat.eqb Nat.add Z.eqb Pos.eqb INR].
  assert (P : 1 <= 10 ^ 99) by (apply pow_R1_Rle; lra). replace (10 ^ 100) with (10 * 10 ^ 99) by (cbn [pow]; reflexivity).
  destruct (Req_EM_T 4 0); [lra|]. destruct (Rlt_dec ((1 + 1) / 4) (10 * 10 ^ 99)); [|exfalso; lra].
  destruct (Rlt_dec ((1 + 1 + 1) / 4) ((1 + 1) / 4)); [lra|].
  destruct (Rlt_dec ((1 + 1) / 4) 10); cbn [fst]; lra.
Qed.

(** A model driven by gravity alone starts at rest; then the first solution uses the
    given step, however short the relaxation times found before. *)
Theorem C107_start_at_rest_refuted : exists c Nx Nz n tag eta mu dt,
  dt_elastic c = true /\ constant_dt c = false /\ dt_start c = dt /\ dt_min c <= dt <= dt_max c /\
  (forall k, (k < n)%nat -> tag k <> 30%Z /\ eta k = 1 /\ mu k = 1) /\ (0 < n)%nat /\
  courant_dt c Nx Nz (fun _ => 0) (fun _ => 0) (fst (define_dt true false n tag eta mu dt dt)) = 1000.
Proof.
  exists (DtCfg (1/2) 1 1 false true false 0 false 0 1000 10000 0), 3%nat, 3%nat, 9%nat, (fun _ => (-1)%Z), (fun _ => 1), (fun _ => 1), 1000.
  cbn [dt_elastic constant_dt dt_start dt_min dt_max]. repeat split; try lra; try lia; try discriminate.
  rewrite C18_no_motion_uses_initial_step; cbn [constant_dt dt_start dt_min dt_max]; try reflexivity; try lra.
  intros v V. replace v with 0 by (destruct V as [(? & ? & ?)|(? & ? & ?)]; congruence).
  rewrite Rabs_R0. apply Rinv_0_lt_compat, pow_lt. lra.
Qed.
Print Assumptions C107_start_at_rest_refuted.

(** ** C108 *)

(** The rock of each column reaches up to row [h i - 1], air above. *)
Definition air_above (w rows : nat) (ty : nat -> Z) (h : nat -> nat) : Prop :=
  forall i j, (i < w)%nat -> (j < rows)%nat -> (ty (i + j * w)%nat = 30%Z <-> (h i <= j)%nat).

Lemma surface_row w back ty (vel : nat -> R) h rows j : air_above w rows ty h -> (forall i, (i < w)%nat -> (back <= h i)%nat) -> (1 <= back)%nat ->
  (j < rows)%nat -> forall n s, (n <= w)%nat ->
  exists s', loop 0 n (surface_step w back ty vel j) (Some s) = Some s' /\
  forall i, s' i = if ((i <? n) && (h i =? j))%nat then vel (i + (j - back) * w)%nat else s i.
Proof.
  intros A B B1 J n s. induction n as [|n IH]; intros N.
  - exists s. split; [reflexivity|]. intros i. reflexivity.
  - destruct (IH ltac:(lia)) as (s1 & E & P). change (Datatypes.S n) with (1 + n)%nat. rewrite loop_S. cbn [Nat.add]. rewrite E. clear E IH. unfold surface_step. cbv zeta.
    pose proof (A n j ltac:(lia) J) as An. pose proof (B n ltac:(lia)) as Bn.
    assert (Q : forall s2 : nat -> R, (forall i, s2 i = if Nat.eqb i n && Nat.eqb (h n) j then vel (n + (j - back) * w)%nat else s1 i) ->
       forall i, s2 i = if ((i <? Datatypes.S n) && (h i =? j))%nat then vel (i + (j - back) * w)%nat else s i).
    { intros s2 H i. rewrite H, P. destruct (Nat.eqb_spec i n) as [->|Ne]; cbn [andb].
      - destruct (Nat.ltb_spec n n), (Nat.ltb_spec n (Datatypes.S n)); try lia. cbn [andb]. reflexivity.
      - destruct (Nat.ltb_spec i n), (Nat.ltb_spec i (Datatypes.S n)); try lia; reflexivity. }
    destruct (Z.eqb_spec (ty (n + j * w)%nat) 30) as [T|T].
    + apply An in T. destruct (Nat.ltb_spec (n + j * w) w) as [L|L]; [exfalso; assert (1 <= j)%nat by lia; nia|].
      replace (n + j * w - w)%nat with (n + (j - 1) * w)%nat by nia.
      pose proof (A n (j - 1)%nat ltac:(lia) ltac:(lia)) as Am.
      destruct (Z.eqb_spec (ty (n + (j - 1) * w)%nat) 30) as [T1|T1]; cbn [negb].
      * apply Am in T1. exists s1. split; [reflexivity|]. apply Q. intros i.
        destruct (Nat.eqb_spec (h n) j); [lia|]. now rewrite andb_false_r.
      * assert (h n = j) by lia. destruct (Nat.ltb_spec (n + j * w) (back * w)) as [M|M]; [exfalso; nia|].
        eexists. split; [reflexivity|]. apply Q. intros i. unfold upd. replace (n + j * w - back * w)%nat with (n + (j - back) * w)%nat by nia.
        destruct (Nat.eqb_spec i n), (Nat.eqb_spec (h n) j); try lia; reflexivity.
    + exists s1. split; [reflexivity|]. apply Q. intros i. destruct (Nat.eqb_spec (h n) j) as [Hj|]; [|now rewrite andb_false_r].
      exfalso. apply T, An. lia.
Qed.

Lemma surface_nodes_spec w back ty (vel : nat -> R) h : (1 <= back)%nat -> forall rows s, air_above w rows ty h -> (forall i, (i < w)%nat -> (back <= h i)%nat) ->
  exists s', surface_nodes w rows back ty vel s = Some s' /\
  forall i, s' i = if ((i <? w) && (h i <? rows))%nat then vel (i + (h i - back) * w)%nat else s i.
Proof.
  intros B1 rows s. unfold surface_nodes.
  enough (Q : forall r, (r <= rows)%nat -> air_above w rows ty h -> (forall i, (i < w)%nat -> (back <= h i)%nat) ->
    exists s', loop 0 r (fun s j => loop 0 w (surface_step w back ty vel j) s) (Some s) = Some s' /\ forall i, s' i = if ((i <? w) && (h i <? r))%nat then vel (i + (h i - back) * w)%nat else s i)
    by (intros A B; exact (Q rows (le_n _) A B)).
  induction r as [|r IH]; intros R0 A B.
  - exists s. split; [reflexivity|]. intros i. now rewrite andb_false_r.
  - destruct (IH ltac:(lia) A B) as (s1 & E & P). change (Datatypes.S r) with (1 + r)%nat. rewrite loop_S. cbn [Nat.add]. rewrite E.
    destruct (surface_row w back ty vel h rows r A B B1 ltac:(lia) w s1 (le_n _)) as (s2 & E2 & P2). exists s2. split; [exact E2|].
    intros i. rewrite P2, P. destruct (Nat.ltb_spec i w) as [I|I]; cbn [andb]; [|reflexivity].
    destruct (Nat.eqb_spec (h i) r), (Nat.ltb_spec (h i) r), (Nat.ltb_spec (h i) (Datatypes.S r)); try lia; subst; reflexivity.
Qed.

(** Horizontal: every surface vertex gets the velocity of the highest rock node of its
    column; a column without air keeps its previous value. *)
Theorem C108_vx_of_the_surface : forall nx nz ty u s h,
  air_above nx (nz + 1) ty h -> (forall i, (i < nx)%nat -> (1 <= h i)%nat) ->
  exists s', surface_vx nx nz ty u s = Some s' /\
  forall i, (i < nx)%nat ->
    ((h i <= nz)%nat -> s' i = u (i + (h i - 1) * nx)%nat) /\ ((nz < h i)%nat -> s' i = s i).
Proof.
  intros nx nz ty u s h A B. destruct (surface_nodes_spec nx 1 ty u h (le_n _) (nz + 1) s A B) as (s' & E & P).
  exists s'. split; [exact E|]. intros i I. rewrite P. destruct (Nat.ltb_spec i nx), (Nat.ltb_spec (h i) (nz + 1)); try lia; cbn [andb]; split; intros; try lia; reflexivity.
Qed.
Print Assumptions C108_vx_of_the_surface.

(** Vertical: the value used lies one row below the highest rock node. *)
Theorem C108_vz_below_the_surface : forall nx nz ty v s h,
  air_above (nx + 1) nz ty h -> (forall i, (i < nx + 1)%nat -> (2 <= h i)%nat) ->
  exists s', surface_vz nx nz ty v s = Some s' /\
  forall i, (i < nx + 1)%nat ->
    ((h i < nz)%nat -> s' i = v (i + (h i - 2) * (nx + 1))%nat) /\ ((nz <= h i)%nat -> s' i = s i).
Proof.
  intros nx nz ty v s h A B. destruct (surface_nodes_spec (nx + 1) 2 ty v h ltac:(lia) nz s A B) as (s' & E & P).
  exists s'. split; [exact E|]. intros i I. rewrite P. destruct (Nat.ltb_spec i (nx + 1)), (Nat.ltb_spec (h i) nz); try lia; cbn [andb]; split; intros; try lia; reflexivity.
Qed.
Print Assumptions C108_vz_below_the_surface.

(** So for a flow [v = a z] the reported vertical velocity misses that of the highest
    rock node by [a dz]. *)
Theorem C108_vz_is_that_of_the_surface_refuted : forall nx nz ty s h zmin dz a i,
  air_above (nx + 1) nz ty h -> (forall i, (i < nx + 1)%nat -> (2 <= h i)%nat) ->
  (i < nx + 1)%nat -> (h i < nz)%nat -> 0 < dz -> a <> 0 ->
  let v c := a * (zmin + INR (c / (nx + 1)) * dz) in
  exists s', surface_vz nx nz ty v s = Some s' /\
    s' i = v (i + (h i - 1) * (nx + 1))%nat - a * dz /\ s' i <> v (i + (h i - 1) * (nx + 1))%nat.
Proof.
  intros nx nz ty s h zmin dz a i A B I H D Na v. destruct (C108_vz_below_the_surface nx nz ty v s h A B) as (s' & E & P).
  exists s'. split; [exact E|]. destruct (P i I) as [Q _]. rewrite (Q H). unfold v.
  rewrite !Nat.div_add, !Nat.div_small by lia. specialize (B i I). cbn [Nat.add].
  replace (h i - 2)%nat with (h i - 1 - 1)%nat by lia. rewrite (minus_INR (h i - 1) 1) by lia. cbn [INR].
  split; [ring|]. intro Q1. assert (a * dz = 0) by lra. apply Rmult_integral in H0. destruct H0; lra.
Qed.
Print Assumptions C108_vz_is_that_of_the_surface_refuted.

Example C108_ex : air_above 3 4 (fun c => nth c [0;0;0; 0;0;0; 30;-1;30; 30;30;30]%Z 0%Z) (fun i => nth i [2;3;2]%nat 0%nat).
Proof. intros i j I J. destruct i as [|[|[|]]], j as [|[|[|[|]]]]; try lia; cbn; split; intro H; try lia; try discriminate; reflexivity. Qed.

Lemma surface_none w rows back ty v s i j : (i < w)%nat -> (j < rows)%nat ->
  (forall o, surface_step w back ty v j o i = None) -> surface_nodes w rows back ty v s = None.
Proof.
  intros I J Z. unfold surface_nodes.
  assert (G : forall j m a, loop a m (surface_step w back ty v j) None = None).
  { intros j'. induction m as [|m IHm]; intros a; [reflexivity|]. change (Datatypes.S m) with (1 + m)%nat. rewrite loop_S, IHm. reflexivity. }
  assert (N : forall n a, loop a n (fun s j => loop 0 w (surface_step w back ty v j) s) None = None).
  { induction n as [|n IH]; intros a; [reflexivity|]. change (Datatypes.S n) with (1 + n)%nat. rewrite loop_S, IH. apply G. }
  assert (R1 : forall s1, loop 0 w (surface_step w back ty v j) s1 = None).
  { intros s1. unfold loop. replace (seq 0 w) with (seq 0 i ++ seq i (Datatypes.S (w - i - 1))) by (rewrite <- seq_app; f_equal; lia).
    rewrite fold_left_app. cbn [seq fold_left]. rewrite Z. apply (G j (w - i - 1)%nat (Datatypes.S i)). }
  unfold loop at 1. replace (seq 0 rows) with (seq 0 j ++ seq j (Datatypes.S (rows - j - 1))) by (rewrite <- seq_app; f_equal; lia).
  rewrite fold_left_app. cbn [seq fold_left]. rewrite R1. apply (N (rows - j - 1)%nat (Datatypes.S j)).
Qed.

(** Where the rock is a single row thick the vertical velocity is read before the start
    of its array; where a column is all air the types are. *)
Theorem C108_reads_outside_refuted :
  (forall nx nz ty v s i, (i < nx + 1)%nat -> (2 <= nz)%nat ->
     ty i <> 30%Z -> ty (i + (nx + 1))%nat = 30%Z -> surface_vz nx nz ty v s = None) /\
  (forall nx nz ty v s i, (i < nx + 1)%nat -> (1 <= nz)%nat -> ty i = 30%Z -> surface_vz nx nz ty v s = None) /\
  (forall nx nz ty u s i, (i < nx)%nat -> ty i = 30%Z -> surface_vx nx nz ty u s = None).
Proof.
  assert (B : forall w rows back ty v s i, (i < w)%nat -> (1 <= rows)%nat -> ty i = 30%Z -> surface_nodes w rows back ty v s = None).
  { intros w rows back ty v s i I R0 T. apply (surface_none w rows back ty v s i 0 I ltac:(lia)).
    intros [o|]; [|reflexivity]. unfold surface_step. cbv zeta. rewrite Nat.mul_0_l, Nat.add_0_r, T. cbn [Z.eqb Pos.eqb].
    destruct (Nat.ltb_spec i w); [reflexivity|lia]. }
  split; [|split].
  - intros nx nz ty v s i I Hz T0 T1. unfold surface_vz. set (w := (nx + 1)%nat) in *.
    apply (surface_none w nz 2 ty v s i 1 I ltac:(lia)). intros [o|]; [|reflexivity]. unfold surface_step. cbv zeta.
    replace (i + 1 * w)%nat with (i + w)%nat by lia. rewrite T1. cbn [Z.eqb Pos.eqb].
    destruct (Nat.ltb_spec (i + w) w); [reflexivity|]. replace (i + w - w)%nat with i by lia.
    destruct (Z.eqb_spec (ty i) 30); [contradiction|]. cbn [negb]. destruct (Nat.ltb_spec (i + w) (2 * w)); [reflexivity|lia].
  - intros. unfold surface_vz. eapply B; eauto.
  - intros. unfold surface_vx. apply (B nx (nz + 1)%nat 1%nat ty u s i); auto; lia.
Qed.
Print Assumptions C108_reads_outside_refuted.

(** From the vertices to the chain: nodes [xs] evenly spaced. A marker between two
    nodes gets a value between theirs, and a velocity linear in [x] is exact. *)
Theorem C108_chain_velocity : forall n dx xs s x,
  (2 <= n)%nat -> 0 < dx -> (forall i, xs i = xs 0%nat + INR i * dx) ->
  (forall a b, (forall i, (i < n)%nat -> s i = a + b * xs i) -> at_chain n dx xs s x = a + b * x) /\
  (xs 0%nat <= x <= xs (n - 1)%nat -> exists i, (i + 1 < n)%nat /\ xs i <= x <= xs (i + 1)%nat /\
     Rmin (s i) (s (i + 1)%nat) <= at_chain n dx xs s x <= Rmax (s i) (s (i + 1)%nat)).
Proof.
  intros n dx xs s x N D X. unfold at_chain.
  pose proof (cell_range x (xs 0%nat) dx (Z.of_nat n) ltac:(lia)) as C.
  set (c := cell_of x (xs 0%nat) dx (Z.of_nat n)) in *. set (i := Z.to_nat c).
  assert (Ci : c = Z.of_nat i) by (unfold i; lia). assert (I : (i + 1 < n)%nat) by lia.
  split.
  - intros a b L. rewrite !L by lia. rewrite !(X (i + 1)%nat), plus_INR, !(X i). cbn [INR]. field. lra.
  - intros Hx. exists i. split; [exact I|].
    rewrite (X (n - 1)%nat) in Hx.
    pose proof (cell_brackets x (xs 0%nat) dx (Z.of_nat n) ltac:(lia) D) as Bk. cbv zeta in Bk. fold c in Bk.
    assert (Q : xs 0%nat + IZR c * dx <= x <= xs 0%nat + IZR (c + 1) * dx).
    { apply Bk. rewrite INR_IZR_INZ, Nat2Z.inj_sub in Hx by lia. exact Hx. }
    rewrite plus_IZR, Ci, <- INR_IZR_INZ in Q.
    assert (Q1 : xs i <= x <= xs (i + 1)%nat) by (rewrite (X i), (X (i + 1)%nat), plus_INR; cbn [INR]; lra).
    split; [exact Q1|].
    set (w := (x - xs i) / dx). assert (W : 0 <= w <= 1).
    { unfold w. rewrite (X (i + 1)%nat), plus_INR in Q1. rewrite (X i) in Q1 |- *. cbn [INR] in Q1.
      split; [apply Rmult_le_pos; [lra|left; now apply Rinv_0_lt_compat]|].
      apply Rmult_le_reg_r with dx; [exact D|]. unfold Rdiv. rewrite Rmult_assoc, Rinv_l by lra. lra. }
    clearbody w. unfold Rmin, Rmax. destruct (Rle_dec (s i) (s (i + 1)%nat)); nra.
Qed.
Print Assumptions C108_chain_velocity.
