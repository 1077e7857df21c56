(** * Anisotropy factor and strength on the grid; grain size and composition of markers

    Transcription of
    - MDLIB/AnisotropyRoutines.c 351-476 ([UpdateAnisoFactor]; printing left out),
    - MDLIB/RheologyDensity.c 1106-1199 ([Softening]) and 1206-1293
      ([CohesionFrictionDilationGrid]; the plastic strain that [P2Mastah] puts on the
      nodes is an input),
    - MDLIB/RheologyParticles.c 44-51 ([InitialiseGrainSizeParticles]),
      848-920 ([UpdateParticleX]).

    Doubles are reals, arrays are functions of the flat index. [isinf(1/x)] holds over
    the reals exactly for [x = 0]; [exit] is the outcome [None]. *)
From Coq Require Import List ZArith Reals Bool Arith.
Import ListNotations.
From Verif Require Import GridModel RheoModel MatGridModel AnisoModel P2GModel ItpModel SubgridModel.
Local Open Scope R_scope.

(** ** Anisotropy factor *)

(** Per phase: [aniso_factor], [ani_fstrain], [ani_fac_max] (mdoodz.h 155-157). *)
Record aniso_mat := AnisoMat { am_factor : nat -> R; am_fstrain : nat -> Z; am_max : nat -> R }.

(** AnisotropyRoutines.c 378-394 (426-444 for vertices): one phase. *)
Definition aniso_term (avg : nat) (m : aniso_mat) (fr : nat -> R) (ar : R) (a : R) (p : nat) : R :=
  let a := if (am_fstrain m p =? 0)%Z then a + contrib avg (fr p) (am_factor m p) else a in
  if (am_fstrain m p =? 1)%Z then a + contrib avg (fr p) (aniso_factor_evolv ar (am_max m p)) else a.

(** 369-408 (419-458): one node; [air] is its tag test, [fr] its phase fractions,
    [ar] its finite strain aspect ratio. *)
Definition aniso_node (avg nph : nat) (m : aniso_mat) (air : bool) (fr : nat -> R) (ar : R) : option R :=
  if air then Some 0 else
  let a := loop 0 nph (aniso_term avg m fr ar) 0 in
  if Req_EM_T a 0 then None else Some (finish avg a).

(** The double loops 363-410, 414-460 over [n1 * n2] nodes. *)
Definition fill_nodes (n1 n2 : nat) (val : nat -> option R) (a : nat -> R) : option (nat -> R) :=
  loop 0 n2 (fun o l => loop 0 n1 (fun o k =>
    match o with
    | None => None
    | Some a => let c := (k + l * n1)%nat in
                match val c with None => None | Some v => Some (upd a c v) end
    end) o) (Some a).

(** 466-475. *)
Definition periodic_ends (nx nz : nat) (a : nat -> R) : nat -> R :=
  loop 0 nz (fun a l =>
    let c1 := (l * nx + nx - 1)%nat in
    let av := 1 / 2 * (a c1 + a (l * nx)%nat) in
    upd (upd a c1 av) (l * nx)%nat av) a.

Record phase_fields := PhaseFields {
  pf_n : nat -> nat -> R;      (* phase_perc_n[p][c0] *)
  pf_s : nat -> nat -> R;      (* phase_perc_s[p][c1] *)
  pf_bcp : nat -> Z;           (* BCp.type *)
  pf_bcg : nat -> Z }.         (* BCg.type *)

(** 373, 1235 in RheologyDensity.c / 423, 1272. *)
Definition air_cell (t : Z) : bool := (t =? 30)%Z || (t =? 31)%Z.
Definition air_vertex (t : Z) : bool := (t =? 30)%Z.

(** 351-476; [old] are the arrays before the call (cells, vertices). *)
Definition update_aniso_factor (avg nph nx nz : nat) (per : bool) (m : aniso_mat) (g : phase_fields)
  (ar_n ar_s : nat -> R) (old : (nat -> R) * (nat -> R)) : option ((nat -> R) * (nat -> R)) :=
  match fill_nodes (nx - 1) (nz - 1) (fun c => aniso_node avg nph m (air_cell (pf_bcp g c)) (fun p => pf_n g p c) (ar_n c)) (fst old) with
  | None => None
  | Some cells =>
    match fill_nodes nx nz (fun c => aniso_node avg nph m (air_vertex (pf_bcg g c)) (fun p => pf_s g p c) (ar_s c)) (snd old) with
    | None => None
    | Some verts => Some (cells, if per then periodic_ends nx nz verts else verts)
    end
  end.

(** ** Strength *)

(** One parameter: value at rest, final value, softening switched on ([phi], [phi_end],
    [phi_soft] and likewise psi, C). *)
Record soft_par := SoftPar { sp_a : nat -> R; sp_b : nat -> R; sp_on : nat -> bool }.
Record strength_mat := StrengthMat {
  sm_phi : soft_par; sm_psi : soft_par; sm_coh : soft_par;
  sm_start : nat -> R; sm_end : nat -> R }.      (* pls_start, pls_end *)

(** RheologyDensity.c 1114-1170: the parameter of one phase at a given strain. *)
Definition softened (erfc : R -> R) (smooth : bool) (m : strength_mat) (q : soft_par) (strain : R) (p : nat) : R :=
  if smooth then soft_smooth erfc (sp_on q p) (sp_a q p) (sp_b q p) (sm_start m p) (sm_end m p) strain
  else soft_linear (sp_on q p) (sp_a q p) (sp_b q p) (sm_start m p) (sm_end m p) strain.

Record strength := Strength { st_fric : nat -> R; st_dil : nat -> R; st_coh : nat -> R }.

(** 1112-1198 with [average = 0], the only value in use (1209): adds to the three arrays. *)
Definition softening (erfc : R -> R) (smooth : bool) (m : strength_mat) (nph c : nat) (fr : nat -> R) (strain : R) (s : strength) : strength :=
  loop 0 nph (fun s p => Strength
    (upd (st_fric s) c (st_fric s c + fr p * softened erfc smooth m (sm_phi m) strain p))
    (upd (st_dil s) c (st_dil s c + fr p * softened erfc smooth m (sm_psi m) strain p))
    (upd (st_coh s) c (st_coh s c + fr p * softened erfc smooth m (sm_coh m) strain p))) s.

(** 1227-1252 (1264-1288): one grid. *)
Definition strength_grid (erfc : R -> R) (smooth noisy : bool) (m : strength_mat) (nph n : nat)
  (air : nat -> bool) (fr : nat -> nat -> R) (strain noise : nat -> R) (s : strength) : strength :=
  loop 0 n (fun s c =>
    let s := Strength (upd (st_fric s) c 0) (upd (st_dil s) c 0) (upd (st_coh s) c 0) in
    if air c then s else
    let s := softening erfc smooth m nph c (fun p => fr p c) (strain c) s in
    if noisy then Strength (st_fric s) (st_dil s) (upd (st_coh s) c (st_coh s c + noise c * st_coh s c)) else s) s.

(** 1206-1293: both grids. *)
Definition strength_grids (erfc : R -> R) (smooth noisy : bool) (m : strength_mat) (nph nx nz : nat) (g : phase_fields)
  (strain_n strain_s noise_n noise_s : nat -> R) (s : strength * strength) : strength * strength :=
  (strength_grid erfc smooth noisy m nph ((nx - 1) * (nz - 1)) (fun c => air_cell (pf_bcp g c)) (pf_n g) strain_n noise_n (fst s),
   strength_grid erfc smooth noisy m nph (nx * nz) (fun c => air_vertex (pf_bcg g c)) (pf_s g) strain_s noise_s (snd s)).

(** ** Markers *)

(** RheologyParticles.c 47-50; [nmat] entries in [gs_ref] (20, mdoodz.h), a phase
    outside them is [None]. *)
Definition start_grain_size (nmat : Z) (gs_ref : Z -> R) (np : nat) (phase : nat -> Z) (d : nat -> R) : option (nat -> R) :=
  loop 0 np (fun o k =>
    match o with
    | None => None
    | Some d =>
        if (phase k =? -1)%Z then Some d
        else if (0 <=? phase k)%Z && (phase k <? nmat)%Z then Some (upd d k (gs_ref (phase k))) else None
    end) (Some d).

(** 909-914: bounds. *)
Definition bound01 (x : R) : R :=
  let x := if Rleb x 0 then 0 else x in if Rleb 1 x then 1 else x.
(** 892-907: increments on cells, to markers, added. *)
Definition update_x (per : bool) (m : mesh) (bcp : Z -> Z) (x0 x : Z -> R) (ms : list pt) : option (list R) :=
  match plain Cells per m bcp (fun c => negb (rockb (bcp c))) x0 x ms with
  | None => None
  | Some l => Some (map bound01 l)
  end.
