(** * Velocity boundary conditions on the grids

    Transcription of MDLIB/StokesRoutines.c 413-508 ([ApplyBC]) and of its use at
    the end of [ExtractSolutions2] (534-574). *)
From Coq Require Import List ZArith Reals Bool Arith.
Import ListNotations.
From Verif Require Import GridModel NumModel.

(** [if (c) a[i] = v]. *)
Definition upd_if {A} (c : bool) (a : nat -> A) (i : nat) (v : A) : nat -> A := if c then upd a i v else a.

Section ApplyBC.
(** Grid size, types and prescribed values ([nzvx = nz+1], [nxvz = nx+1]). *)
Context (nx nz : nat) (t : types) (valu valv : nat -> R).

(** 419-428: south row 0 and north row [nzvx-1], Neumann. *)
Definition vx_neumann (u : nat -> R) : nat -> R :=
  loop 0 nx (fun u i =>
    let u := upd_if (Z.eqb (tu t i) 13) u i (u (i + nx)) in
    let iN := i + nz * nx in
    upd_if (Z.eqb (tu t iN) 13) u iN (u (i + (nz - 1) * nx))) u.

(** 446-457: Dirichlet. *)
Definition vx_dirichlet (u : nat -> R) : nat -> R :=
  loop 0 nx (fun u i =>
    let u := upd_if (Z.eqb (tu t i) 11) u i (valu i - u (i + nx)%nat)%R in
    let iN := i + nz * nx in
    upd_if (Z.eqb (tu t iN) 11) u iN (valu iN - u (iN - nx)%nat)%R) u.

(** 460-469: west column 0 and east column [nxvz-1], Neumann. *)
Definition vz_neumann (v : nat -> R) : nat -> R :=
  loop 0 nz (fun v j =>
    let iW := j * (nx + 1) in
    let v := upd_if (Z.eqb (tv t iW) 13) v iW (v (iW + 1)) in
    let iE := j * (nx + 1) + nx in
    upd_if (Z.eqb (tv t iE) 13) v iE (v (iE - 1))) v.

(** 472-481. *)
Definition vz_dirichlet (v : nat -> R) : nat -> R :=
  loop 0 nz (fun v j =>
    let iW := j * (nx + 1) in
    let v := upd_if (Z.eqb (tv t iW) 11) v iW (valv iW - v (iW + 1)%nat)%R in
    let iE := j * (nx + 1) + nx in
    upd_if (Z.eqb (tv t iE) 11) v iE (valv iE - v (iE - 1)%nat)%R) v.

(** 484-493. *)
Definition vz_periodic (v : nat -> R) : nat -> R :=
  loop 0 nz (fun v j =>
    let iW := j * (nx + 1) in let iE := j * (nx + 1) + nx in
    let v := upd_if (Z.eqb (tv t iW) (-12)) v iW (v (iE - 1)) in
    upd_if (Z.eqb (tv t iE) (-12)) v iE (v (iW + 1))) v.

(** 496-500. *)
Definition vx_periodic (u : nat -> R) : nat -> R :=
  loop 0 (nz + 1) (fun u j =>
    let iE := j * nx + (nx - 1) in upd_if (Z.eqb (tu t iE) (-12)) u iE (u (j * nx))) u.

(** The whole function (the u and v loops do not interact). *)
Definition bc_u (u : nat -> R) : nat -> R := vx_periodic (vx_dirichlet (vx_neumann u)).
Definition bc_v (v : nat -> R) : nat -> R := vz_periodic (vz_dirichlet (vz_neumann v)).
Definition apply_bc (f : fields) : fields := Fields (bc_u (u_in f)) (bc_v (v_in f)) (p_in f).
End ApplyBC.

(** 534-574 complete. *)
Definition extract_solutions2 (nx nz : nat) (t : types) (valu valv : nat -> R) (s : numbering)
    (dx : Z -> R) (alpha : R) (f : fields) : fields :=
  apply_bc nx nz t valu valv (extract nx nz t s dx alpha f).
