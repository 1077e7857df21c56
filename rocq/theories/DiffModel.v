(** * Implicit diffusion of heat and composition on the cells

    Transcription of MDLIB/ThermalRoutines.c 39-545 (EvalNumEqTemp, EnergyDirectSolve, ThermalSteps) and of
    MDLIB/ChemicalRoutines.c 38-416 (EvalNumEqChem, ChemicalDirectSolve), whose assembly is the same text with
    the capacity [rho Cp] replaced by 1. Doubles are reals. Not represented: polar mode ([model.polar = 1]),
    printing, the debug file and the work counters. CHOLMOD is represented by the system it is given (see
    [solved]). The flag arrays [BCt] and [BCT_exp] agree on which cells are air (Setup.c 634). *)
From Coq Require Import Reals ZArith List Bool Arith.
From Verif Require Import GridModel RheoModel.
Import ListNotations.
Local Open Scope R_scope.

(** Input of the solve. [g_typ], [g_val]: BCT_exp (cells with a frame of ghosts, rows of [ncx+2]);
    [g_kx], [g_kz]: conductivity on the Vx and Vz nodes; [g_rc]: [rho_n*Cp] (1 for composition); [g_mink]:
    the lower limit of the surface conductivity. *)
Record dgrid : Type := Dgrid {
  g_ncx : nat; g_ncz : nat; g_dx : R; g_dz : R; g_dt : R;
  g_typ : nat -> Z; g_val : nat -> R; g_kx : nat -> R; g_kz : nat -> R; g_rc : nat -> R; g_mink : R }.

Section Diffusion.
  Variable g : dgrid.
  Let ncx := g_ncx g.
  Let ncz := g_ncz g.

  (** ThermalRoutines.c 176, 145-146: flat indices. *)
  Definition ext (k l : nat) : nat := (k + 1) + (l + 1) * (ncx + 2).
  Definition cell (k l : nat) : nat := k + l * ncx.
  (** The order of the loops 172-173 (also 44-45). *)
  Definition cells : list (nat * nat) := flat_map (fun l => map (fun k => (k, l)) (seq 0 ncx)) (seq 0 ncz).
  Definition fluid (k l : nat) : bool := negb (g_typ g (ext k l) =? 30)%Z.

  (** ThermalRoutines.c 39-55: numbering, -1 for air. *)
  Definition number_cells : (nat -> Z) * nat :=
    fold_left (fun s c => let '(k, l) := c in
      let e := upd (fst s) (cell k l) (-1)%Z in
      if fluid k l then (upd e (cell k l) (Z.of_nat (snd s)), S (snd s)) else (e, snd s))
      cells (fun _ => 0%Z, 0%nat).
  Definition eqn_t : nat -> Z := fst number_cells.
  Definition neq : nat := snd number_cells.

  (** ThermalRoutines.c 92-93. *)
  Definition idx2 : R := 1 / g_dx g / g_dx g.
  Definition idz2 : R := 1 / g_dz g / g_dz g.
  (** ThermalRoutines.c 188-191. *)
  Definition AW (k l : nat) : R := g_kx g (k + (l + 1) * (ncx + 1)).
  Definition AE (k l : nat) : R := g_kx g (k + (l + 1) * (ncx + 1) + 1).
  Definition AS (k l : nat) : R := g_kz g (k + l * (ncx + 2) + 1).
  Definition AN (k l : nat) : R := g_kz g (k + l * (ncx + 2) + 1 + (ncx + 2)).

  (** Flags and values of the cell and its neighbours (c0, c0-1, c0+1, c0-(ncx+2), c0+(ncx+2)). *)
  Definition tC (k l : nat) : Z := g_typ g (ext k l).
  Definition tW (k l : nat) : Z := g_typ g (ext k l - 1).
  Definition tE (k l : nat) : Z := g_typ g (ext k l + 1).
  Definition tS (k l : nat) : Z := g_typ g (ext k l - (ncx + 2)).
  Definition tN (k l : nat) : Z := g_typ g (ext k l + (ncx + 2)).
  Definition vC (k l : nat) : R := g_val g (ext k l).
  Definition vW (k l : nat) : R := g_val g (ext k l - 1).
  Definition vE (k l : nat) : R := g_val g (ext k l + 1).
  Definition vS (k l : nat) : R := g_val g (ext k l - (ncx + 2)).
  Definition vN (k l : nat) : R := g_val g (ext k l + (ncx + 2)).
  Definition is30 (t : Z) : bool := (t =? 30)%Z.
  Definition east (k : nat) : bool := Nat.eqb k (ncx - 1).
  Definition north (l : nat) : bool := Nat.eqb l (ncz - 1).

  (** ThermalRoutines.c 222-226. *)
  Definition ks (k l : nat) : R :=
    let a := 1 / 4 * (AE k l + AW k l + AN k l + AS k l) in if Rltb a (g_mink g) then g_mink g else a.

  (** One flux block 229-283: [on] the outer test, [t] the neighbour's flag, [a] its conductivity, [i] the
      inverse square spacing. Contribution to [val] and to [bbc]. *)
  Definition flux_val (on : bool) (t : Z) (a i : R) (k l : nat) : R :=
    if on then (if negb (is30 t) then a * i else if (tC k l =? 1)%Z then 2 * ks k l * i else 0) else 0.
  Definition flux_bbc (on : bool) (t : Z) (i : R) (k l : nat) : R :=
    if on then (if negb (is30 t) then 0 else if (tC k l =? 1)%Z then 2 * ks k l * i * vC k l else 0) else 0.
  (** One Dirichlet block 287-310. *)
  Definition wall_val (on : bool) (t : Z) (a i : R) : R := if on && (t =? 1)%Z then 2 * a * i else 0.
  Definition wall_bbc (on : bool) (t : Z) (a i v : R) : R := if on && (t =? 1)%Z then 2 * a * i * v else 0.

  Definition onW (k l : nat) : bool := negb (Nat.eqb k 0) || (Nat.eqb k 0 && (tW k l =? -2)%Z).
  Definition onE (k l : nat) : bool := negb (east k) || (east k && (tE k l =? -2)%Z).
  (** ThermalRoutines.c 219-310: the diagonal coefficient. *)
  Definition diag (k l : nat) : R :=
    1 * g_rc g (cell k l) / g_dt g
    + flux_val (negb (Nat.eqb l 0)) (tS k l) (AS k l) idz2 k l
    + flux_val (onW k l) (tW k l) (AW k l) idx2 k l
    + flux_val (onE k l) (tE k l) (AE k l) idx2 k l
    + flux_val (negb (north l)) (tN k l) (AN k l) idz2 k l
    + wall_val (Nat.eqb l 0) (tS k l) (AS k l) idz2
    + wall_val (Nat.eqb k 0) (tW k l) (AW k l) idx2
    + wall_val (east k) (tE k l) (AE k l) idx2
    + wall_val (north l) (tN k l) (AN k l) idz2.
  (** ThermalRoutines.c 229-310: the boundary part of the right-hand side; the bottom flux 292-295 is
      divided by [dx]. *)
  Definition bbc (k l : nat) : R :=
    flux_bbc (negb (Nat.eqb l 0)) (tS k l) idz2 k l
    + flux_bbc (onW k l) (tW k l) idx2 k l
    + flux_bbc (onE k l) (tE k l) idx2 k l
    + flux_bbc (negb (north l)) (tN k l) idz2 k l
    + wall_bbc (Nat.eqb l 0) (tS k l) (AS k l) idz2 (vS k l)
    + (if Nat.eqb l 0 && (tS k l =? 0)%Z then -1 / g_dx g * vS k l else 0)
    + wall_bbc (Nat.eqb k 0) (tW k l) (AW k l) idx2 (vW k l)
    + wall_bbc (east k) (tE k l) (AE k l) idx2 (vE k l)
    + wall_bbc (north l) (tN k l) (AN k l) idz2 (vN k l).

  (** ThermalRoutines.c 194-217, 342-374: the entries of one row in the order of the calls of
      AddCoeffThermal (column number, coefficient). *)
  Definition opt (b : bool) (j : Z) (a : R) : list (Z * R) := if b then [(j, a)] else [].
  Definition row (k l : nat) : list (Z * R) :=
    opt (negb (Nat.eqb l 0) && negb (is30 (tS k l))) (eqn_t (cell k l - ncx)) (- (1) * AS k l * idz2)
    ++ opt ((tE k l =? -2)%Z && east k) (eqn_t (cell k l - (ncx - 1))) (- (1) * AE k l * idx2)
    ++ opt (negb (Nat.eqb k 0) && negb (is30 (tW k l))) (eqn_t (cell k l - 1)) (- (1) * AW k l * idx2)
    ++ [(eqn_t (cell k l), diag k l)]
    ++ opt (negb (east k) && negb (is30 (tE k l))) (eqn_t (cell k l + 1)) (- (1) * AE k l * idx2)
    ++ opt ((tW k l =? -2)%Z && Nat.eqb k 0) (eqn_t (cell k l + (ncx - 1))) (- (1) * AW k l * idx2)
    ++ opt (negb (north l) && negb (is30 (tN k l))) (eqn_t (cell k l + ncx)) (- (1) * AN k l * idz2).

  (** ThermalRoutines.c 172-381: the compressed rows; [Ic] at the row's equation number is the number of
      entries before it, at [neq] the total. *)
  Definition assemble : list (Z * R) * (nat -> nat) :=
    let s := fold_left (fun s c => let '(k, l) := c in
      if fluid k l then (fst s ++ row k l, upd (snd s) (Z.to_nat (eqn_t (cell k l))) (length (fst s))) else s)
      cells ([], fun _ => 0%nat) in
    (fst s, upd (snd s) neq (length (fst s))).
  (** Row [i] of the compressed matrix. *)
  Definition csr_row (i : nat) : list (Z * R) :=
    let '(J, Ic) := assemble in firstn (Ic (S i) - Ic i) (skipn (Ic i) J).

  (** The matrix those rows stand for (equal columns add up). *)
  Definition coef (r : list (Z * R)) (j : Z) : R :=
    fold_right (fun ja a => (if (fst ja =? j)%Z then snd ja else 0) + a) 0 r.
  Definition dot (r : list (Z * R)) (x : Z -> R) : R := fold_right (fun ja a => snd ja * x (fst ja) + a) 0 r.

  (** ThermalRoutines.c 140-169: right-hand side before the boundary part; [src] is the sum of the
      radiogenic, dissipation and adiabatic sources (0 for composition). *)
  Definition rhs0 (src T : nat -> R) (k l : nat) : R :=
    1 * g_rc g (cell k l) * T (cell k l) / g_dt g + src (cell k l).

  (** ThermalSolver.c 197-258 with [polar_mode == 0]: only the lower triangle of the matrix enters the
      factorisation (cholmod_copy with [stype = -1]); the system solved has that triangle on both sides.
      [b] is the right-hand side by equation number. *)
  Definition low (i j : nat) : R := if Nat.leb j i then coef (csr_row i) (Z.of_nat j) else coef (csr_row j) (Z.of_nat i).
  Definition sumn (n : nat) (f : nat -> R) : R := fold_right (fun i a => f i + a) 0 (seq 0 n).
  Definition solved (x b : nat -> R) : Prop :=
    forall i, (i < neq)%nat -> sumn neq (fun j => low i j * x j) = b i.
  (** ThermalRoutines.c 140-169, 390: the right-hand side by equation number. *)
  Definition rhs_vec (src T : nat -> R) : nat -> R :=
    fold_left (fun b c => let '(k, l) := c in
      if fluid k l then upd b (Z.to_nat (eqn_t (cell k l))) (rhs0 src T k l + bbc k l) else b) cells (fun _ => 0).

  (** ThermalRoutines.c 399-431: the new field; [out] is the value in air. [None]: exit(1) on a negative
      value. *)
  Definition extract (x : nat -> R) (out : R) (T : nat -> R) : option (nat -> R) :=
    fold_left (fun o c => let '(k, l) := c in
      match o with
      | None => None
      | Some T => if fluid k l then
            let v := x (Z.to_nat (eqn_t (cell k l))) in
            if Rltb v 0 then None else Some (upd T (cell k l) v)
          else Some (upd T (cell k l) out)
      end) cells (Some T).

  (** One solve as a relation: some solution of the system is extracted. *)
  Definition step (src : nat -> R) (out : R) (T : nat -> R) (T' : option (nat -> R)) : Prop :=
    exists x, solved x (rhs_vec src T) /\ T' = extract x out T.
  (** ThermalRoutines.c 117-473: [nit] solves with the same matrix; [src] may depend on the field. *)
  Inductive steps (src : (nat -> R) -> nat -> R) (out : R) : nat -> (nat -> R) -> option (nat -> R) -> Prop :=
    | steps_0 : forall T, steps src out 0 T (Some T)
    | steps_S : forall n T T1 T2, step (src T) out T (Some T1) -> steps src out n T1 T2 -> steps src out (S n) T T2
    | steps_exit : forall n T, step (src T) out T None -> steps src out (S n) T None.
End Diffusion.
