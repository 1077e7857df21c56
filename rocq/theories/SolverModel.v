(** * Linear solvers of the Stokes problem: the Krylov solver, the Powell-Hestenes iterations, the pressure blocks

    Vectors are functions of the row number and matrices functions of row and column; only the first [N] entries exist
    in the program.  Doubles are real numbers; a division by a vanishing norm, which is NaN in the program, is a separate
    outcome.  The stopping test of the Powell-Hestenes iterations is modelled on doubles with infinities and NaN, because
    its behaviour on them matters. *)
From Coq Require Import Reals List Arith ZArith Lra Lia Bool.
From Verif Require Import DiffModel ReseedModel.
Import ListNotations.
Local Open Scope R_scope.

Definition vec := nat -> R.
(** cholmod_sdmult(M, 0, one, zero, x, y): y = M x, for a matrix with [n] columns. *)
Definition matv (n : nat) (M : nat -> nat -> R) (x : vec) : vec := fun i => sumn n (fun j => M i j * x j).
(** SparseTools.c 46-62 (DotProduct); the order of summation of the reduction is not modelled, the sums are exact. *)
Definition dot (n : nat) (a b : vec) : R := sumn n (fun i => a i * b i).
(** MiscFunctions.c (ArrayPlusScalarArray): a += c*b. *)
Definition axpy (a : vec) (c : R) (b : vec) : vec := fun i => a i + c * b i.
(** MiscFunctions.c (ArrayTimesScalar): a *= c. *)
Definition scalv (c : R) (a : vec) : vec := fun i => a i * c.
(** cholmod_norm_dense(f, 2): the Euclidean norm. *)
Definition nrm2 (n : nat) (a : vec) : R := sqrt (dot n a a).

(** ** kspgcr *)
(** The variables of kspgcr that outlive an iteration: the solution x, the residual f, the coefficients val, the stored
    directions VV and SS, the counter its, and the residual norms that lines 200 and 211 print (latest first). *)
Record gcr := Gcr { gx : vec; gf : vec; gval : nat -> R; gVV : nat -> vec; gSS : nat -> vec; gits : nat; glog : list R }.
(** Breakdown: the norm [nrm] of line 182 is zero; the program divides by it and every entry of x becomes NaN. *)
Inductive inner := Breakdown | Converged (s : gcr) | Next (s : gcr).
(** What kspgcr leaves behind; [ok] is its local flag success (the caller is not told). *)
Inductive gcr_out := Nan | Out (ok : bool) (s : gcr).

Section Gcr.
  Variable N : nat.                       (* number of unknowns *)
  Variable M : nat -> nat -> R.           (* the matrix *)
  Variable Q : vec -> vec.                (* application of the factorised preconditioner, cholmod_solve2 *)
  Variables eps rnorm0 : R.

  (** Solvers.c 175-179: subtract val[i2] times the stored vector for i2 = 0 .. i1 (i1 included). *)
  Definition orth (i1 : nat) (val : nat -> R) (W : nat -> vec) (v : vec) : vec :=
    fold_left (fun v i2 => axpy v (- val i2) (W i2)) (seq 0 (S i1)) v.
  (** Solvers.c 171-174: val[i2] is set for i2 < i1 only; the other entries keep their old value. *)
  Definition new_val (i1 : nat) (v : vec) (st : gcr) : nat -> R :=
    fun i2 => if (i2 <? i1)%nat then dot N v (gVV st i2) else gval st i2.

  (** Solvers.c 158-207: one iteration of the inner loop. *)
  Definition step (i1 : nat) (st : gcr) : inner :=
    let s0 := Q (gf st) in
    let v0 := matv N M s0 in
    let val := new_val i1 v0 st in
    let v1 := orth i1 val (gVV st) v0 in
    let s1 := orth i1 val (gSS st) s0 in
    let nrm := sqrt (dot N v1 v1) in
    if Req_EM_T nrm 0 then Breakdown else
    let rv := dot N (gf st) v1 / nrm in
    let v2 := scalv (1 / nrm) v1 in
    let s2 := scalv (1 / nrm) s1 in
    let x' := axpy (gx st) rv s2 in
    let f' := axpy (gf st) (- rv) v2 in
    let norm_r := nrm2 N f' in
    if Rlt_dec norm_r (eps * rnorm0) then Converged (Gcr x' f' val (gVV st) (gSS st) (gits st) (norm_r :: glog st))
    else Next (Gcr x' f' val (nupd (gVV st) i1 v2) (nupd (gSS st) i1 s2) (S (gits st)) (norm_r :: glog st)).

  (** Solvers.c 158: the inner loop, [k] iterations left, starting at i1. *)
  Fixpoint cycle (k i1 : nat) (st : gcr) : inner :=
    match k with
    | O => Next st
    | S k' => match step i1 st with Next st' => cycle k' (S i1) st' | r => r end
    end.
  (** Solvers.c 208: its++ after the inner loop. *)
  Definition bump (st : gcr) : gcr := Gcr (gx st) (gf st) (gval st) (gVV st) (gSS st) (S (gits st)) (glog st).

  (** Solvers.c 156-210: while ( success == 0 && its<max_it ).  [fuel] bounds the number of cycles; max_it of them are
      enough because every cycle increases its (lemma [fuel_enough]).  A negative max_it acts like 0. *)
  Fixpoint gcr_loop (restart max_it fuel : nat) (st : gcr) : gcr_out :=
    if (gits st <? max_it)%nat then
      match fuel with
      | O => Out false st
      | S fuel' => match cycle restart 0 st with
                   | Breakdown => Nan
                   | Converged s => Out true (bump s)
                   | Next s => gcr_loop restart max_it fuel' (bump s)
                   end
      end
    else Out false st.
End Gcr.

(** Solvers.c 124-153: the initial state; the stored arrays come from calloc. *)
Definition gcr_start (N : nat) (M : nat -> nat -> R) (b x0 : vec) : gcr :=
  Gcr x0 (axpy b (-1) (matv N M x0)) (fun _ => 0) (fun _ _ => 0) (fun _ _ => 0) 0 [].
(** Solvers.c 122-231 (kspgcr, restart = 6).  KSPStokesDecoupled (1694-1857) repeats the loop with restart = 20. *)
Definition kspgcr (N : nat) (M : nat -> nat -> R) (Q : vec -> vec) (b x0 : vec) (eps : R) (max_it : nat) : gcr_out :=
  let st := gcr_start N M b x0 in gcr_loop N M Q eps (nrm2 N (gf st)) 6 max_it max_it st.

(** ** Powell-Hestenes iterations of KillerSolver *)
(** The matrices of KillerSolver: [n] velocity and [m] pressure unknowns.  AJ, BJ, CJ are the Jacobian blocks, Cc the
    divergence of the Stokes (Picard) matrix; D, D1 and W are the diagonals of Dcm, D1cm0 and whos_incompressible. *)
Record blocks := Blocks { kn : nat; km : nat; kAJ : nat -> nat -> R; kBJ : nat -> nat -> R; kCJ : nat -> nat -> R;
                          kCc : nat -> nat -> R; kD : vec; kD1 : vec; kW : vec }.
Definition diagv (d x : vec) : vec := fun i => d i * x i.
(** Solvers.c 1166-1182: L = D*C, L2 = BJ*L, Js = AJ - L2. *)
Definition schur (k : blocks) : nat -> nat -> R :=
  fun i j => kAJ k i j - sumn (km k) (fun l => kBJ k i l * (kD k l * kCc k l j)).
(** Solvers.c 1281-1286: the right-hand side given to the Krylov solver. *)
Definition ph_rhs (k : blocks) (bu bp dp : vec) : vec :=
  let udum := axpy bu (-1) (matv (km k) (kBJ k) (diagv (kD k) bp)) in
  axpy udum (-1) (matv (km k) (kBJ k) (diagv (kW k) dp)).
(** Solvers.c 1288-1296: velocity from the Krylov solver, then the pressure. *)
Definition ph_iter (k : blocks) (ksp : (nat -> nat -> R) -> vec -> vec -> vec) (bu bp : vec) (s : vec * vec) : vec * vec :=
  let (du, dp) := s in
  let du' := ksp (schur k) (ph_rhs k bu bp dp) du in
  let pdum := axpy (axpy bp (-1) (matv (kn k) (kCJ k) du')) (-1) (diagv (kD1 k) dp) in
  (du', axpy dp 1 (diagv (kD k) pdum)).
(** Solvers.c 1298-1305: the residuals. *)
Definition res_u (k : blocks) (bu : vec) (s : vec * vec) : vec :=
  axpy (axpy bu (-1) (matv (kn k) (kAJ k) (fst s))) (-1) (matv (km k) (kBJ k) (snd s)).
Definition res_p (k : blocks) (bp : vec) (s : vec * vec) : vec :=
  axpy (axpy bp (-1) (matv (kn k) (kCJ k) (fst s))) (-1) (diagv (kD1 k) (snd s)).
(** Solvers.c 1255-1263, 1279: the loop; du and dp start at zero. *)
Fixpoint ph_run (k : blocks) (ksp : (nat -> nat -> R) -> vec -> vec -> vec) (bu bp : vec) (its : nat) : vec * vec :=
  match its with
  | O => (fun _ => 0, fun _ => 0)
  | S i => ph_iter k ksp bu bp (ph_run k ksp bu bp i)
  end.

(** ** Stopping test of the Powell-Hestenes iterations *)
(** A double: a finite number, an infinity or NaN (signed zeros are not distinguished). *)
Inductive fl := Fin (r : R) | PInf | NInf | NaN.
Definition fltb (a b : fl) : bool :=
  match a, b with
  | NaN, _ | _, NaN => false
  | Fin x, Fin y => if Rlt_dec x y then true else false
  | NInf, NInf => false | NInf, _ => true
  | PInf, _ => false
  | Fin _, PInf => true | Fin _, NInf => false
  end.
Definition fabsf (a : fl) : fl := match a with Fin x => Fin (Rabs x) | NaN => NaN | _ => PInf end.
Definition fdiv (a b : fl) : fl :=
  match a, b with
  | NaN, _ | _, NaN => NaN
  | Fin x, Fin y => if Req_EM_T y 0 then (if Rlt_dec 0 x then PInf else if Rlt_dec x 0 then NInf else NaN) else Fin (x / y)
  | Fin _, _ => Fin 0
  | PInf, Fin y => if Rlt_dec y 0 then NInf else PInf
  | NInf, Fin y => if Rlt_dec y 0 then PInf else NInf
  | _, _ => NaN
  end.
(** MiscFunctions.c 340-376 (MinMaxArrayVal), the maximum: it starts at array[0] and replaces it by larger entries. *)
Definition max_val (n : nat) (a : nat -> fl) : fl :=
  fold_left (fun m k => if fltb m (a k) then a k else m) (seq 0 n) (a 0%nat).

(** The tolerances lin_abs_div, lin_rel_div, lin_abs_mom, lin_rel_mom. *)
Record tols := Tols { abs_div : R; rel_div : R; abs_mom : R; rel_mom : R }.
Section Stop.
  Variable t : tols.
  Variables n m : nat.                          (* velocity and pressure unknowns *)
  Variables fu fp : nat -> nat -> fl.           (* residuals after iteration k, entry i *)
  Definition maxdiv (k : nat) : fl := max_val m (fp k).
  Definition maxru (k : nat) : fl := max_val n (fu k).
  (** Solvers.c 1313: the condition of the break. *)
  Definition stops (k : nat) : bool :=
    (1 <? k)%nat
    && (fltb (fabsf (maxdiv k)) (Fin (abs_div t)) || fltb (fdiv (maxdiv k) (maxdiv 0)) (Fin (rel_div t)))
    && (fltb (fabsf (maxru k)) (Fin (abs_mom t)) || fltb (fdiv (maxru k) (maxru 0)) (Fin (rel_mom t))).
  (** Solvers.c 1279-1314: the last iteration performed; [left] iterations remain after iteration [k]. *)
  Fixpoint last_it (left k : nat) : nat :=
    if stops k then k else match left with O => k | S l => last_it l (S k) end.
  (** Solvers.c 1317: the condition of the exit. *)
  Definition fails (k : nat) : bool :=
    fltb (Fin (abs_div t)) (fabsf (maxdiv k)) && fltb (Fin (rel_div t)) (fdiv (maxdiv k) (maxdiv 0)).
  (** Solvers.c 1279-1320: [Done k] means that the solver returns the solution of iteration [k]; with no iteration at all
      (max_its_PH <= 0) maxdiv is read uninitialised. *)
  Definition ph_outcome (nitmax : nat) : result nat :=
    match nitmax with
    | O => UB
    | S l => let k := last_it l 0 in if fails k then Exits 1 else Done k
    end.
End Stop.

(** ** Pressure blocks *)
(** What the loop that fills the diagonals reads: the cell type, the number of its pressure unknown, the flag comp_cells
    and the value of the physical pressure coefficient (bet/dt*celvol*d*d, or drhodp/(rho*dt)*celvol*d*d). *)
Record cells := Cells { ncell : nat; npress : nat; ptype : nat -> Z; peqn : nat -> nat; pcomp : nat -> Z; pcoef : nat -> R }.
Definition active (c : cells) (k : nat) : bool := negb (Z.eqb (ptype c k) 30) && negb (Z.eqb (ptype c k) 31).
(** The three diagonals, initially the identity (cholmod_speye). *)
Record diags := Diags { dD1 : nat -> R; dD : nat -> R; dW : nat -> R }.
Definition diags0 : diags := Diags (fun _ => 1) (fun _ => 1) (fun _ => 1).
(** Solvers.c 1085-1103 (KillerSolver): the body of the loop for cell [k].  An access outside the diagonals is undefined. *)
Definition fill_killer (c : cells) (penalty : R) (k : nat) (s : diags) : result diags :=
  if active c k then
    let i := peqn c k in
    if (i <? npress c)%nat then
      let D1 := if Z.eqb (pcomp c k) 0 then nupd (dD1 s) i (dD1 s i * 0) else dD1 s in
      let D1 := if Z.eqb (pcomp c k) 1 then nupd D1 i (pcoef c k) else D1 in
      let D := if Z.eqb (pcomp c k) 0 then nupd (dD s) i (dD s i * penalty) else dD s in
      let D := if Z.eqb (pcomp c k) 1 then nupd D i (1 / D1 i) else D in
      let W := if Z.eqb (pcomp c k) 1 then nupd (dW s) i (dW s i * 0) else dW s in
      Done (Diags D1 D W)
    else UB
  else Done s.
(** Solvers.c 724-735 (DirectStokesDecoupledComp) and 1482-1500 (KSPStokesDecoupled): the same loop, but the inverse is
    taken of entry [k], the cell number, instead of entry [i], the unknown's number. *)
Definition fill_comp (c : cells) (penalty : R) (k : nat) (s : diags) : result diags :=
  if active c k then
    let i := peqn c k in
    if (i <? npress c)%nat then
      let D1 := if Z.eqb (pcomp c k) 0 then nupd (dD1 s) i (dD1 s i * 0) else dD1 s in
      let D1 := if Z.eqb (pcomp c k) 1 then nupd D1 i (pcoef c k) else D1 in
      let D := if Z.eqb (pcomp c k) 0 then nupd (dD s) i (dD s i * penalty) else dD s in
      if Z.eqb (pcomp c k) 1 then
        if (k <? npress c)%nat then Done (Diags D1 (nupd D i (1 / D1 k)) (dW s)) else UB
      else Done (Diags D1 D (dW s))
    else UB
  else Done s.
(** The loop over the cells in the order [l]; the OpenMP threads may run the cells in any order. *)
Fixpoint fill (body : nat -> diags -> result diags) (l : list nat) (s : diags) : result diags :=
  match l with
  | [] => Done s
  | k :: l' => match body k s with Done s' => fill body l' s' | r => r end
  end.

(** ** Compressible cells *)
(** StokesRoutines.c 514-528 (DetectCompressibleCells): [bet] is bet_n in the program's units; 1e-13. *)
Definition detect (ncell : nat) (ptype : nat -> Z) (bet : nat -> R) (comp : nat -> Z) : nat -> Z :=
  fold_left (fun comp cc => if negb (Z.eqb (ptype cc) 30) then (if Rlt_dec (/ 10 ^ 13) (bet cc) then nupd comp cc 1%Z else comp) else comp)
            (seq 0 ncell) comp.
