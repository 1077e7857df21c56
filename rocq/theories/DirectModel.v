(** * The direct Powell-Hestenes solver (lin_solver = -1), the coupled Krylov solver (lin_solver = 1) and the choice of the solver

    Covers MDLIB/Solvers.c 681-1040 [DirectStokesDecoupledComp] and 1441-1900 [KSPStokesDecoupled], from the point where the
    blocks are built, and MDLIB/StokesRoutines.c 799-826 [SolveStokesDefectDecoupled].  Vectors, matrices and the doubles with
    infinities and NaN of the stopping test are those of SolverModel; the diagonals D and D1 are those filled by [fill_comp]
    there.  The factorisation of cholmod is a function [solve]; theorems say what they need of it.  Printing, timing, memory
    management and the reuse of the symbolic factorisation (pardi->Analyze) are not modelled. *)
From Coq Require Import Reals List Arith ZArith Lra Lia Bool.
From Verif Require Import DiffModel ReseedModel SolverModel.
Import ListNotations.
Local Open Scope R_scope.

(** What DirectStokesDecoupledComp works with: [dn] velocity and [dm] pressure unknowns, the momentum block A, the divergence
    C, the diagonals D (Dcm0) and D1 (D1cm0).  The assembled gradient block matB is compressed (Solvers.c 763-773) but not used. *)
Record dblocks := DBlocks { dn : nat; dm : nat; dA : nat -> nat -> R; dC : nat -> nat -> R; ddD : vec; ddD1 : vec }.
(** Solvers.c 801-807: B1 = -C'. *)
Definition gradB (d : dblocks) : nat -> nat -> R := fun i l => - dC d l i.
(** Solvers.c 797-815: L = D*C, L1 = B1*L, L = A - L1. *)
Definition dschur (d : dblocks) : nat -> nat -> R :=
  fun i j => dA d i j - sumn (dm d) (fun l => gradB d i l * (ddD d l * dC d l j)).
(** Solvers.c 833 (cholmod_copy(Lcm, -1, ...)): only the lower part of L is kept and read as a symmetric matrix. *)
Definition lower_part (K : nat -> nat -> R) : nat -> nat -> R := fun i j => if (j <=? i)%nat then K i j else K j i.
(** Solvers.c 854: the matrix that is factorised. *)
Definition factorised (d : dblocks) : nat -> nat -> R := lower_part (dschur d).
(** Solvers.c 892-897: the residuals fu and fp. *)
Definition dres_u (d : dblocks) (bu : vec) (s : vec * vec) : vec :=
  axpy (axpy bu (-1) (matv (dn d) (dA d) (fst s))) (-1) (matv (dm d) (gradB d) (snd s)).
Definition dres_p (d : dblocks) (bp : vec) (s : vec * vec) : vec :=
  axpy (axpy bp (-1) (matv (dn d) (dC d) (fst s))) (-1) (diagv (ddD1 d) (snd s)).
(** Solvers.c 907-923: one update; [solve] is cholmod_solve2 with the factor of L. *)
Definition direct_iter (d : dblocks) (solve : vec -> vec) (bu bp : vec) (s : vec * vec) : vec * vec :=
  let fu := dres_u d bu s in
  let fp := dres_p d bp s in
  let udum := axpy fu (-1) (matv (dm d) (gradB d) (diagv (ddD d) fp)) in
  let du := solve udum in
  let dp := diagv (ddD d) (axpy fp (-1) (matv (dn d) (dC d) du)) in
  (axpy (fst s) 1 du, axpy (snd s) 1 dp).
(** Solvers.c 869-870, 889-935: the state after [k] updates; it starts from [s0], the current velocity and pressure
    (BuildInitialSolutions, Solvers.c 740-743), although the unknown is a correction of them. *)
Fixpoint direct_run (d : dblocks) (solve : vec -> vec) (bu bp : vec) (s0 : vec * vec) (k : nat) : vec * vec :=
  match k with O => s0 | S j => direct_iter d solve bu bp (direct_run d solve bu bp s0 j) end.

Section DStop.
  Variable t : tols.
  Variable m : nat.                       (* pressure unknowns *)
  Variable fp : nat -> nat -> fl.         (* continuity residual of the state after k updates, entry i *)
  (** Solvers.c 904: the condition of the break. *)
  Definition dstops (k : nat) : bool :=
    (1 <? k)%nat
    && (fltb (fabsf (maxdiv m fp k)) (Fin (abs_div t)) || fltb (fdiv (maxdiv m fp k) (maxdiv m fp 0)) (Fin (rel_div t))).
  (** Solvers.c 936: the condition of the exit, on the residual that was tested last. *)
  Definition dfails (k : nat) : bool :=
    fltb (Fin (abs_div t)) (fabsf (maxdiv m fp k)) && fltb (Fin (rel_div t)) (fdiv (maxdiv m fp k) (maxdiv m fp 0)).
  (** Solvers.c 889-935: the loop with [left] passes left and counter [k]; the result is the number of the state tested last
      and of the state held at the end (one more when the loop runs out). *)
  Fixpoint dloop (left k : nat) : nat * nat :=
    match left with
    | O => (pred k, k)
    | S l => if dstops k then (k, k) else dloop l (S k)
    end.
  (** Solvers.c 688 (nitmax = 20), 889-939: [Done k] returns the state after [k] updates. *)
  Definition direct_outcome : result nat :=
    let (tested, held) := dloop 20 0 in if dfails tested then Exits 1 else Done held.
End DStop.

(** ** KSPStokesDecoupled *)
(** Solvers.c 1707-1713: M = [AJ BJ; CJ D1], from the blocks of the Jacobian. *)
Definition coupled (d : dblocks) (AJ BJ CJ : nat -> nat -> R) : nat -> nat -> R := fun i j =>
  let n := dn d in
  if (i <? n)%nat then (if (j <? n)%nat then AJ i j else BJ i (j - n)%nat)
  else (if (j <? n)%nat then CJ (i - n)%nat j else if (i =? j)%nat then ddD1 d (i - n)%nat else 0).
(** Solvers.c 1698-1705, 1716-1723: a vector [u; p]. *)
Definition stack (n : nat) (u p : vec) : vec := fun i => if (i <? n)%nat then u i else p (i - n)%nat.
(** Solvers.c 1745-1776: the preconditioner, s = Q f. *)
Definition ksp_pc (d : dblocks) (solve : vec -> vec) (f : vec) : vec :=
  let n := dn d in
  let fp : vec := fun l => f (n + l)%nat in
  let fu : vec := axpy f (-1) (matv (dm d) (gradB d) (diagv (ddD d) fp)) in
  let u := solve fu in
  let p := axpy (diagv (ddD d) fp) (-1) (diagv (ddD d) (matv n (dC d) u)) in
  stack n u p.
(** Solvers.c 1682-1830: the iterations; restart 20, at most 1000 iterations, relative tolerance eps (rel_tol_KSP), started
    from the current velocity and pressure [x0]. *)
Definition ksp_stokes (d : dblocks) (solve : vec -> vec) (AJ BJ CJ : nat -> nat -> R) (b x0 : vec) (eps : R) : gcr_out :=
  let N := (dn d + dm d)%nat in
  let M := coupled d AJ BJ CJ in
  let st := gcr_start N M b x0 in
  gcr_loop N M (ksp_pc d solve) eps (nrm2 N (gf st)) 20 1000 1000 st.

(** ** SolveStokesDefectDecoupled *)
(** The outcome of a solver: the correction it wrote into dx, or the end of the run. *)
Inductive solved := Corr (dx : vec) | Stop (code : Z).
(** StokesRoutines.c 803, 807-810: dx comes from calloc, then at most one solver is called; [direct0], [ksp], [killer] and
    [directc] stand for the outcomes of the four solvers. *)
Definition dispatch (lin_solver : Z) (direct0 ksp killer directc : solved) : solved :=
  if (lin_solver =? 0)%Z then direct0
  else if (lin_solver =? 1)%Z then ksp
  else if (lin_solver =? 2)%Z then killer
  else if (lin_solver =? -1)%Z then directc
  else Corr (fun _ => 0).
(** StokesRoutines.c 1339-1354 (ScaleVelocitiesRHSBack): x *= sc for every unknown; [sc] is the weight d of the row.
    StokesRoutines.c 802, 814-821: scaled back if diag_scaling is 1, step length -1 unless there is a line search (result
    [ls]), and the update x += alpha*dx of ExtractSolutions2 for a free unknown. *)
Definition defect_update (diag_scaling line_search : Z) (sc : vec) (ls : vec -> R) (dx x : vec) : vec :=
  let dx := if (diag_scaling =? 1)%Z then (fun i => dx i * sc i) else dx in
  let alpha := if (line_search =? 1)%Z then ls dx else -1 in
  fun i => x i + alpha * dx i.
(** Main_DOODZ.c 766-772: the system is scaled if diag_scaling is not 0: row i of the matrix times sc i, column j times sc j,
    right-hand side i times sc i (StokesRoutines.c 1267-1333 [ScaleMatrix]; the residual is scaled in 858, 872 and 887).  The
    weights are those of ExtractDiagonalScale (1223-1261), or 1 (SAlloc). *)
Definition scaled_system (diag_scaling : Z) (sc : vec) (M : nat -> nat -> R) (F : vec) : (nat -> nat -> R) * vec :=
  if (diag_scaling =? 0)%Z then (M, F) else (fun i j => sc i * M i j * sc j, fun i => F i * sc i).
