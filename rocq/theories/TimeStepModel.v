(** * Choice of the time step, advection sub-steps, memory of one time step

    Transcription of
    - MDLIB/AdvectionRoutines.c 563-683 ([EvaluateCourantCriterion]),
    - MDLIB/Main_DOODZ.c 1019-1039, 1177 (sub-steps of the advection),
    - MDLIB/Main_DOODZ.c 627-645, 737-837, 1180-1199 with
      MDLIB/MemoryAllocFree.c 102-118, 159-176, 1003-1020 and
      MDLIB/StokesRoutines.c 1129-1132 (allocation and release in a time step).

    [double] is [R]; the double infinity that arises from a division by zero is
    handled explicitly where it can matter (see comments). *)
From Coq Require Import List ZArith Reals Bool.
Import ListNotations.
Open Scope R_scope.

(** mdoodz-private.h 8-9. *)
Definition MINV (a b : R) : R := if Rle_dec a b then a else b.
Definition MAXV (a b : R) : R := if Rle_dec b a then a else b.

(** ** EvaluateCourantCriterion *)

(** Indices visited by [for (k<n1) for (l<n2) c = k + l*stride]. *)
Definition visit (n1 n2 stride : nat) : list nat :=
  flat_map (fun k => map (fun l => k + l * stride)%nat (seq 0 n2)) (seq 0 n1).

(** AdvectionRoutines.c 574-588: running maximum and minimum, both starting
    from 0. *)
Definition run_max (V : nat -> R) (idx : list nat) : R :=
  fold_left (fun m c => MAXV m (V c)) idx 0.
Definition run_min (V : nat -> R) (idx : list nat) : R :=
  fold_left (fun m c => MINV m (V c)) idx 0.

(** AdvectionRoutines.c 605-608. *)
Definition vmax_of (Nx Nz : nat) (Vx Vz : nat -> R) : R :=
  let ix := visit Nx (Nz + 1) Nx in
  let iz := visit (Nx + 1) Nz (Nx + 1) in
  let vmax := MAXV (Rabs (run_max Vx ix)) (Rabs (run_max Vz iz)) in
  let vmin := MAXV (Rabs (run_min Vx ix)) (Rabs (run_min Vz iz)) in
  MAXV (Rabs vmax) (Rabs vmin).

Record dt_cfg := DtCfg {
  Courant : R; dx : R; dz : R;
  constant_dt : bool;             (* [constant_dt != 0] *)
  dt_elastic : bool;              (* [elastic == 1] *)
  surf_proc : bool;               (* [surface_processes > 0] *)
  surf_Vinc : R;
  chem : bool;                    (* [chemical_diffusion == 1] *)
  dt_reac : R;                    (* [user1/scaling.t/dt_reduction_factor] *)
  dt_start : R; dt_max : R; dt_min : R }.

(** AdvectionRoutines.c 616-621. *)
Definition growth (c : dt_cfg) : R := if dt_elastic c then 1.25 else 2.

Definition dmin (c : dt_cfg) : R := MINV (dx c) (dz c).

Definition gtb (a b : R) : bool := if Rlt_dec b a then true else false.

(** AdvectionRoutines.c 623-656, the value of [model->dt] just before the test
    for negligible motion. A zero [surf_Vinc] gives an infinite [dt_surf] in C,
    which never limits. For [vmax = 0] the C value of [dtc] is infinite (and
    then cut to [fact*dt0]); the value used here for that case is irrelevant
    because the next statement replaces it (see [dt_reset]). *)
Definition dt_pre (c : dt_cfg) (dt0 vmax : R) : R :=
  let dtc := Courant c * dmin c / Rabs vmax in
  let dtc := if gtb dtc (growth c * dt0) then growth c * dt0 else dtc in
  let dt := dtc in
  let dt := if surf_proc c then
              if Req_EM_T (surf_Vinc c) 0 then dt else
              let ds := Courant c * dmin c / Rabs (surf_Vinc c) in
              if gtb dt ds then ds else dt
            else dt in
  if chem c then if gtb dt (dt_reac c) then dt_reac c else dt else dt.

(** AdvectionRoutines.c 658-663. *)
Definition dt_reset (c : dt_cfg) (dt0 vmax : R) : R :=
  let dt := dt_pre c dt0 vmax in
  if orb (gtb dt (10 ^ 30)) (gtb (/ 10 ^ 30) vmax) then dt_start c else dt.

(** AdvectionRoutines.c 665-673. *)
Definition dt_clamp (c : dt_cfg) (dt : R) : R :=
  let dt := if gtb dt (dt_max c) then dt_max c else dt in
  if gtb (dt_min c) dt then dt_min c else dt.

(** AdvectionRoutines.c 610-682: new value of [model->dt]. The thermal limit
    [dt_therm] is computed (590-599) but its use is commented out (675-678). *)
Definition courant_dt (c : dt_cfg) (Nx Nz : nat) (Vx Vz : nat -> R) (dt0 : R) : R :=
  if constant_dt c then dt_start c
  else dt_clamp c (dt_reset c dt0 (vmax_of Nx Nz Vx Vz)).

(** Indices of [mesh->T] and [mesh->T0_n] read with [thermal == 1]
    (AdvectionRoutines.c 590-597, [Ncx = Nx - 1]); both arrays have
    [(Nx-1)*(Nz-1)] entries (MemoryAllocFree.c 562-563). *)
Definition thermal_reads (Nx Nz : nat) : list nat := visit (Nx + 1) Nz (Nx - 1).
Definition temperature_length (Nx Nz : nat) : nat := ((Nx - 1) * (Nz - 1))%nat.

(** ** Sub-steps of the advection *)

(** C's [ceil]. *)
Definition Rceil (x : R) : Z := (- Int_part (- x))%Z.

(** Main_DOODZ.c 1020-1039: number and length of sub-steps for the solve step
    [dt_solve] when [EvaluateCourantCriterion] returned [dta]. *)
Definition substeps (dt_solve dta : R) : Z * R :=
  if gtb (0.95 * dt_solve) dta then
    let nsub := Rceil (dt_solve / dta) in (nsub, dt_solve / IZR nsub)
  else (1%Z, dt_solve).

(** Main_DOODZ.c 1044-1177: the list of lengths of the sub-steps actually
    executed, and [model->dt] afterwards. *)
Definition advection (dt_solve dta : R) : list R * R :=
  let (n, d) := substeps dt_solve dta in (repeat d (Z.to_nat n), dt_solve).

(** ** Memory of a time step *)

(** The blocks. [Eqn s]: the three equation-number arrays of [Stokes]/[Jacob];
    [Vec s b]: the four vectors of [SAlloc]; [Mat s b]: the four arrays of
    [AllocMat]. [s = true] is the Jacobian; block [b]: 0 the global system,
    1..4 the blocks A..D. *)
Inductive ptr := Eqn (s : bool) | Vec (s : bool) (b : nat) | Mat (s : bool) (b : nat).

Inductive mem_op := Alloc (p : ptr) | Free (p : ptr).

(** A pointer variable: never set, pointing to a live block, or freed. *)
Inductive pstate := Wild | Live | Freed.

Definition ptr_eq_dec (a b : ptr) : {a = b} + {a <> b}.
Proof. decide equality; (apply Bool.bool_dec || apply Nat.eq_dec). Defined.

Definition mem := ptr -> pstate.
Definition set_mem (m : mem) (p : ptr) (s : pstate) : mem :=
  fun q => if ptr_eq_dec q p then s else m q.

(** [free] of anything but a live block is undefined behaviour ([None]);
    overwriting a pointer to a live block is a leak ([None] too). *)
Definition mem_step (m : mem) (o : mem_op) : option mem :=
  match o with
  | Alloc p => match m p with Live => None | _ => Some (set_mem m p Live) end
  | Free p => match m p with Live => Some (set_mem m p Freed) | _ => None end
  end.

Fixpoint mem_run (m : mem) (l : list mem_op) : option mem :=
  match l with
  | [] => Some m
  | o :: r => match mem_step m o with None => None | Some m' => mem_run m' r end
  end.

Definition blocks : list nat := [1; 2; 3; 4]%nat.
Definition mats (s : bool) : list ptr := map (Mat s) blocks.
Definition vecs (s : bool) : list ptr := map (Vec s) (0%nat :: blocks).

(** Main_DOODZ.c 631-645 (EvalNumberOfEquations, SAlloc). *)
Definition start_allocs (need : bool) : list mem_op :=
  map Alloc ([Eqn false] ++ (if need then [Eqn true] else [])
    ++ vecs false ++ (if need then vecs true else [])).

(** One pass of the nonlinear loop: BuildStokesOperatorDecoupled 1351-1354,
    BuildJacobianOperatorDecoupled 1864-1867 when [IsJacobianUsed], and
    FreeSparseSystems at Main_DOODZ.c 794, 806 or 835 (exactly one of them). *)
Definition pass_ops (jac : bool) : list mem_op :=
  map Alloc (mats false ++ (if jac then mats true else []))
  ++ map Free (mats false ++ (if jac then mats true else [])).

(** Main_DOODZ.c 1180-1199, executed whatever [mechanical] is. *)
Definition end_frees (need : bool) : list mem_op :=
  map Free (vecs false ++ (if need then vecs true else [])
    ++ [Eqn false] ++ (if need then [Eqn true] else [])).

(** One time step; [passes] says for each pass whether the Jacobian is used. *)
Definition step_mem (mechanical need : bool) (passes : list bool) : list mem_op :=
  (if mechanical then start_allocs need ++ flat_map pass_ops passes else [])
  ++ end_frees need.

Definition wild : mem := fun _ => Wild.
