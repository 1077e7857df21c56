(** * Elastic moduli and viscosity of all cells and vertices

    Transcription of MDLIB/RheologyDensity.c 1299-1420 ([ShearModCompExpGrid]) and
    813-1100 ([NonNewtonianViscosityGrid]); printing left out.

    Arrays are functions of the flat index. The loops 839-847, 1000-1004 read the index
    of cell and vertex number k1 from the tables of [GridIndices] (GridModel.v); the
    tables give k + l*Ncx = k1 (k + l*Nx = k1), so the loops here run over the flat
    index. Iterations of the parallel loops write disjoint entries (one node each), so
    the loops are sequential here.
    Doubles that are divided by are IEEE values without rounding and without the sign of
    infinity and zero; fractions and materials are not negative where this matters. *)
From Coq Require Import List ZArith Reals Bool Arith.
Import ListNotations.
From Verif Require Import GridModel RheoModel MatGridModel P2GModel ItpModel PhaseGridModel.
Local Open Scope R_scope.

(** ** Numbers *)
Inductive num := Fin (r : R) | Inf | NaN.
Definition ediv (a b : num) : num :=
  match a, b with
  | NaN, _ => NaN
  | _, NaN => NaN
  | Inf, Inf => NaN
  | Inf, Fin _ => Inf
  | Fin _, Inf => Fin 0
  | Fin x, Fin y => if Req_EM_T y 0 then if Req_EM_T x 0 then NaN else Inf else Fin (x / y)
  end.
Definition eadd (a b : num) : num :=
  match a, b with
  | NaN, _ => NaN
  | _, NaN => NaN
  | Inf, _ => Inf
  | _, Inf => Inf
  | Fin x, Fin y => Fin (x + y)
  end.
(** 0.5*(a + b), lines 1413, 1415. *)
Definition ehalf (a b : num) : num := match eadd a b with Fin x => Fin (1 / 2 * x) | v => v end.

(** ** Moduli *)

(** Lines 1334-1335, 1348, 1350 (1384-1385, 1400, 1402), average = 1 (line 1302), all
    other cases are dead: the mean of one material parameter over the phases. *)
Definition inv_sum (nph : nat) (fr mat : nat -> R) : num :=
  loop 0 nph (fun a p => eadd a (ediv (Fin (fr p * 1)) (Fin (mat p)))) (Fin 0).
Definition modulus (nph : nat) (fr mat : nat -> R) : num := ediv (Fin 1) (inv_sum nph fr mat).
(** Line 1344. *)
Definition expansivity (nph : nat) (fr mat : nat -> R) : R := loop 0 nph (fun a p => a + fr p * mat p) 0.

(** [materials->G], [bet], [alp]. *)
Record elastic_mat := ElasticMat { em_G : nat -> R; em_bet : nat -> R; em_alp : nat -> R }.
(** The arrays mu_n, bet_n, alp, mu_s, bet_s. *)
Record moduli := Moduli { md_mu_n : nat -> num; md_bet_n : nat -> num; md_alp : nat -> R; md_mu_s : nat -> num; md_bet_s : nat -> num }.

Definition is_inf (v : num) : bool := match v with Inf => true | _ => false end.

(** 1311-1356: one cell; [None] is exit(32). *)
Definition modulus_cell (nph : nat) (m : elastic_mat) (g : phase_fields) (o : option moduli) (c : nat) : option moduli :=
  match o with
  | None => None
  | Some d =>
    let air := air_cell (pf_bcp g c) in
    let mu := if air then Fin 0 else modulus nph (fun p => pf_n g p c) (em_G m) in
    let bet := if air then Fin 0 else modulus nph (fun p => pf_n g p c) (em_bet m) in
    let alp := if air then 0 else expansivity nph (fun p => pf_n g p c) (em_alp m) in
    if is_inf mu then None
    else Some (Moduli (upd (md_mu_n d) c mu) (upd (md_bet_n d) c bet) (upd (md_alp d) c alp) (md_mu_s d) (md_bet_s d))
  end.
(** 1362-1405: one vertex. The message of lines 1395-1397 reads phase_perc_s[1], which is
    undefined ([None]) if there is only one phase (MemoryAllocFree.c 405-408 allocate
    Nb_phases pointers). *)
Definition modulus_vertex (nph : nat) (m : elastic_mat) (g : phase_fields) (o : option moduli) (c : nat) : option moduli :=
  match o with
  | None => None
  | Some d =>
    let air := air_vertex (pf_bcg g c) in
    let mu := if air then Fin 0 else modulus nph (fun p => pf_s g p c) (em_G m) in
    let bet := if air then Fin 0 else modulus nph (fun p => pf_s g p c) (em_bet m) in
    if negb air && is_inf (ediv (Fin 1) (inv_sum nph (fun p => pf_s g p c) (em_G m))) && (nph <=? 1)%nat then None
    else Some (Moduli (md_mu_n d) (md_bet_n d) (md_alp d) (upd (md_mu_s d) c mu) (upd (md_bet_s d) c bet))
  end.
(** 1408-1418: the ends of the rows in periodic models. *)
Definition modulus_ends (nx : nat) (d : moduli) (l : nat) : moduli :=
  let c1 := (l * nx + nx - 1)%nat in
  let av := ehalf (md_mu_s d c1) (md_mu_s d (l * nx)%nat) in
  let mu := upd (upd (md_mu_s d) c1 av) (l * nx)%nat av in
  let av := ehalf (md_bet_s d c1) (md_bet_s d (l * nx)%nat) in
  let bet := upd (upd (md_bet_s d) c1 av) (l * nx)%nat av in
  Moduli (md_mu_n d) (md_bet_n d) (md_alp d) mu bet.
(** The function returns, calls exit(32), or has no defined behaviour. *)
Inductive outcome := Done (d : moduli) | Stopped | Undefined.

(** 1299-1420. *)
Definition moduli_grid (nph nx nz : nat) (per : bool) (m : elastic_mat) (g : phase_fields) (d : moduli) : outcome :=
  match loop 0 (nz - 1) (fun o l => loop 0 (nx - 1) (fun o k => modulus_cell nph m g o (k + l * (nx - 1))%nat) o) (Some d) with
  | None => Stopped
  | Some d =>
    match loop 0 nz (fun o l => loop 0 nx (fun o k => modulus_vertex nph m g o (k + l * nx)%nat) o) (Some d) with
    | None => Undefined
    | Some d => Done (if per then loop 0 nz (modulus_ends nx) d else d)
    end
  end.

(** ** Viscosity *)

(** What [ViscosityConcise] returns for one phase (RheoModel.v): the viscosity, the
    effective visco-elastic one, the grain size, and the numbers that are averaged
    arithmetically (922-948, 1052: VE, the seven strain rates, the three works, p_corr,
    the three divergences, X, OverS, rho), here a function of their position. *)
Record vout := Vout { vo_eta : R; vo_VE : R; vo_d : R; vo_other : nat -> R }.
(** State of a node: shear modulus, strain rates xx, zz, xz, old stresses xx, zz, xz. *)
Record vin := Vin { vi_mu : R; vi_e : R * R * R; vi_s0 : R * R * R }.
(** What is stored for a node: eta, eta_phys, grain size, the other means, stresses,
    and phase_eta for every phase. *)
Record vres := Vres { vr_eta : R; vr_phys : R; vr_d : R; vr_other : nat -> R; vr_s : R * R * R; vr_phase : nat -> R }.

(** 824-825, 880-886 (1015-1021): effective strain rates. *)
Definition eff_rates (elastic : bool) (dt : R) (v : vin) : R * R * R :=
  let el := if elastic then 1 else 0 in
  let eta_e := if elastic then dt * vi_mu v else 1 in
  let '(exx, ezz, exz) := vi_e v in
  let '(sxx, szz, sxz) := vi_s0 v in
  (exx + el * sxx / eta_e / 2, ezz + el * szz / eta_e / 2, exz + el * sxz / eta_e / 2).

(** 889-951 (1026-1054): the sums over the phases present. *)
Definition add_phase (avg : nat) (fr : nat -> R) (visc : nat -> vout) (r : vres) (p : nat) : vres :=
  if active (fr p) then
    let o := visc p in
    Vres (vr_eta r + contrib avg (fr p) (vo_VE o)) (vr_phys r + contrib avg (fr p) (vo_eta o))
      (vr_d r + fr p * 1 / vo_d o) (fun j => vr_other r j + fr p * vo_other o j) (vr_s r)
      (upd (vr_phase r) p (vo_VE o))
  else r.

(** 849-1004 for a cell, 1006-1085 for a vertex ([cell] = false; there is no grain size
    and no test of it). [old_phase]: phase_eta before. [None]: exit(345) or exit(1), for
    a division by zero. *)
Definition visc_node (cell : bool) (avg nph : nat) (elastic : bool) (dt : R) (air : bool) (v : vin) (fr : nat -> R)
  (visc : R * R * R -> nat -> vout) (old_phase : nat -> R) : option vres :=
  let zero := Vres 0 0 0 (fun _ => 0) (0, 0, 0) old_phase in
  if air then Some zero else
  let E := eff_rates elastic dt v in
  let r := loop 0 nph (add_phase avg fr (visc E)) zero in
  if cell && (if Req_EM_T (vr_d r) 0 then true else false) then None else
  let d := if cell then 1 / vr_d r else 0 in
  if (avg =? 1)%nat && (if Req_EM_T (vr_phys r) 0 then true else false) then None else
  let eta := finish avg (vr_eta r) in
  let '(exx, ezz, exz) := E in
  Some (Vres eta (finish avg (vr_phys r)) d (vr_other r) (2 * eta * exx, 2 * eta * ezz, 2 * eta * exz) (vr_phase r)).

(** One of the two loops: every node is replaced, until the program stops. *)
Definition visc_loop (n : nat) (node : nat -> vres -> option vres) (a : nat -> vres) : option (nat -> vres) :=
  loop 0 n (fun o c => match o with
    | None => None
    | Some a => match node c (a c) with None => None | Some r => Some (upd a c r) end
    end) (Some a).

(** 813-1100; [vn], [vs] the inputs of cells and vertices, [a] what the arrays hold before. *)
Definition visc_grid (avg nph nx nz : nat) (elastic : bool) (dt : R) (g : phase_fields) (vn vs : nat -> vin)
  (visc_n visc_s : nat -> R * R * R -> nat -> vout) (a : (nat -> vres) * (nat -> vres)) : option ((nat -> vres) * (nat -> vres)) :=
  match visc_loop ((nx - 1) * (nz - 1)) (fun c old => visc_node true avg nph elastic dt (air_cell (pf_bcp g c)) (vn c) (fun p => pf_n g p c) (visc_n c) (vr_phase old)) (fst a) with
  | None => None
  | Some cells =>
    match visc_loop (nx * nz) (fun c old => visc_node false avg nph elastic dt (air_vertex (pf_bcg g c)) (vs c) (fun p => pf_s g p c) (visc_s c) (vr_phase old)) (snd a) with
    | None => None
    | Some verts => Some (cells, verts)
    end
  end.
