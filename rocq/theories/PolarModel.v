(** * Diffusion of heat and composition in polar mode (model.polar = 1), and the two ways the system is handed to cholmod

    Covers the parts of MDLIB/ThermalRoutines.c 72-483 [EnergyDirectSolve] and MDLIB/ChemicalRoutines.c 75-416
    [ChemicalDirectSolve] that depend on model.polar (ThermalRoutines.c 319-338 and 363-371, ChemicalRoutines.c 289-311 and
    335-343) and MDLIB/ThermalSolver.c 188-331 [TransposeA], [FactorEnergyCHOLMOD], [SolveEnergyCHOLMOD].  Everything else of
    the assembly is that of DiffModel.  cholmod is represented by the system it is given.  Doubles are reals; M_PI is PI; an
    infinite quotient zn/xn (xn = 0) is not represented. *)
From Coq Require Import Reals ZArith List Bool Arith.
From Verif Require Import GridModel RheoModel DiffModel.
Import ListNotations.
Local Open Scope R_scope.

(** What polar mode reads besides the input of the solve: mesh->xg_coord, mesh->zc_coord. *)
Record pcoord := Pcoord { p_xg : nat -> R; p_zc : nat -> R }.

Section Polar.
  Variable g : dgrid.
  Variable p : pcoord.

  (** ThermalRoutines.c 323-324, 333-334. *)
  Definition tet (xn zn : R) : R := let t := atan (zn / xn) in if Rltb t 0 then t * -1 else t.
  (** 325-326, 335-336: the arc tangent of the angle, not its tangent. *)
  Definition weight (xn zn : R) : R := atan (PI / 2 - tet xn zn) * g_dx g / g_dz g.
  (** 321-322, 331-332. *)
  Definition aW (l : nat) : R := weight (p_xg p 0 - g_dx g / 2) (p_zc p l).
  Definition aE (l : nat) : R := weight (p_xg p (g_ncx g) + g_dx g / 2) (p_zc p l).
  (** 320, 327: the west side, unless the cell above is air. *)
  Definition diag_W (k l : nat) : R := if Nat.eqb k 0 && negb (is30 (tN g k l)) then (1 - aW l) * AW g k l * idx2 g else 0.
  (** 330, 337: the east side, whatever the cell above is. *)
  Definition diag_E (k l : nat) : R := if east g k then (1 - aE l) * AE g k l * idx2 g else 0.
  (** 363-371: what is added to the coefficient of the cell above. *)
  Definition north_W (k l : nat) : R := if Nat.eqb k 0 then (aW l - 1) * AW g k l * idx2 g else 0.
  Definition north_E (k l : nat) : R := if east g k then (aE l - 1) * AE g k l * idx2 g else 0.
  (** 194-217, 340, 342-374: the entries of one row in polar mode. *)
  Definition prow (k l : nat) : list (Z * R) :=
    opt (negb (Nat.eqb l 0) && negb (is30 (tS g k l))) (eqn_t g (cell g k l - g_ncx g)) (- (1) * AS g k l * idz2 g)
    ++ opt ((tE g k l =? -2)%Z && east g k) (eqn_t g (cell g k l - (g_ncx g - 1))) (- (1) * AE g k l * idx2 g)
    ++ opt (negb (Nat.eqb k 0) && negb (is30 (tW g k l))) (eqn_t g (cell g k l - 1)) (- (1) * AW g k l * idx2 g)
    ++ [(eqn_t g (cell g k l), diag g k l + diag_W k l + diag_E k l)]
    ++ opt (negb (east g k) && negb (is30 (tE g k l))) (eqn_t g (cell g k l + 1)) (- (1) * AE g k l * idx2 g)
    ++ opt ((tW g k l =? -2)%Z && Nat.eqb k 0) (eqn_t g (cell g k l + (g_ncx g - 1))) (- (1) * AW g k l * idx2 g)
    ++ opt (negb (north g l) && negb (is30 (tN g k l))) (eqn_t g (cell g k l + g_ncx g))
           (- (1) * AN g k l * idz2 g + north_W k l + north_E k l).
  (** 183-380: the compressed rows. *)
  Definition passemble : list (Z * R) * (nat -> nat) :=
    let s := fold_left (fun s c => let '(k, l) := c in
      if fluid g k l then (fst s ++ prow k l, upd (snd s) (Z.to_nat (eqn_t g (cell g k l))) (length (fst s))) else s)
      (cells g) ([], fun _ => 0%nat) in
    (fst s, upd (snd s) (neq g) (length (fst s))).
  Definition pcsr_row (i : nat) : list (Z * R) :=
    let '(J, Ic) := passemble in firstn (Ic (S i) - Ic i) (skipn (Ic i) J).
  (** ThermalSolver.c 195-206, 226-237: the matrix rebuilt from the compressed rows. *)
  Definition pmat (i j : nat) : R := coef (pcsr_row i) (Z.of_nat j).
End Polar.

(** ThermalSolver.c 243-258, 289-315: [n] unknowns, matrix [A]; the answer [x] for the right-hand side [b].
    - polar_mode == 1 (244-247): the product A*At is formed and its lower part is kept (256); the answer of cholmod is
      multiplied by At (310-313; [y] starts from 0, 293);
    - otherwise (249-252): the lower part of A is kept. *)
Definition half (K : nat -> nat -> R) (i j : nat) : R := if Nat.leb j i then K i j else K j i.
Definition times_transpose (n : nat) (A : nat -> nat -> R) (i j : nat) : R := sumn n (fun m => A i m * A j m).
Definition cholmod_answers (n : nat) (K : nat -> nat -> R) (b x : nat -> R) : Prop :=
  forall i, (i < n)%nat -> sumn n (fun j => half K i j * x j) = b i.
Definition energy_solve (polar : bool) (n : nat) (A : nat -> nat -> R) (b x : nat -> R) : Prop :=
  if polar then exists y, cholmod_answers n (times_transpose n A) b y /\ forall i, (i < n)%nat -> x i = sumn n (fun j => A j i * y j)
  else cholmod_answers n A b x.

(** One solve in polar mode; the right-hand side and the extraction are those of DiffModel. *)
Definition pstep (g : dgrid) (p : pcoord) (src : nat -> R) (out : R) (T : nat -> R) (T' : option (nat -> R)) : Prop :=
  exists x, energy_solve true (neq g) (pmat g p) (rhs_vec g src T) x /\ T' = extract g x out T.
