(** * Right-hand side vectors of the assembled system

    Transcription of MDLIB/StokesAssemblyDecoupled.c 1357-1388 (BuildStokesOperatorDecoupled)
    and 1870-1901 (BuildJacobianOperatorDecoupled, the same). Node types and selections as in
    [NumModel]. *)
From Coq Require Import List ZArith Reals Bool Arith.
Import ListNotations.
From Verif Require Import GridModel NumModel VecModel.

(** 1358-1376: the counter [inc] and StokesA->b; the tests 1362, 1371 are those of [upd_uv]. *)
Definition rhs_mom (Nx Nz : nat) (t : types) (roger_x roger_z : nat -> R) (b : nat -> R) : nat * (nat -> R) :=
  let s := loop 0 (Nz + 1) (fun s l => loop 0 Nx (fun s k => guess_step upd_uv (tu t) roger_x s (k + l * Nx)) s) (0, b) in
  loop 0 Nz (fun s l => loop 0 (Nx + 1) (fun s k => guess_step upd_uv (tv t) roger_z s (k + l * (Nx + 1))) s) s.
(** 1379-1388: StokesC->b; the test 1383 is that of [upd_p]. *)
Definition rhs_cont (Nx Nz : nat) (t : types) (rhs_p : nat -> R) (b : nat -> R) : nat * (nat -> R) :=
  loop 0 (Nz - 1) (fun s l => loop 0 (Nx - 1) (fun s k => guess_step upd_p (tp t) rhs_p s (k + l * (Nx - 1))) s) (0, b).

(** ** Node numbers
    MDLIB/GridRoutines.c 540-586 [GridIndices]: one of the four double loops (w nodes in a row,
    h rows), filling the two arrays of column and row numbers. *)
Definition fill_indices (w h : nat) (col row : nat -> nat) : (nat -> nat) * (nat -> nat) :=
  loop 0 h (fun s l => loop 0 w (fun s k => (upd (fst s) (k + l * w) k, upd (snd s) (k + l * w) l)) s) (col, row).
(** The four loops: vertices (kn, ln), Vx nodes (kvx, lvx), Vz nodes (kvz, lvz), cells (kp, lp). *)
Record node_numbers := NodeNumbers { nn_vert : (nat -> nat) * (nat -> nat); nn_vx : (nat -> nat) * (nat -> nat); nn_vz : (nat -> nat) * (nat -> nat); nn_cell : (nat -> nat) * (nat -> nat) }.
Definition grid_indices (Nx Nz : nat) (z : nat -> nat) : node_numbers :=
  NodeNumbers (fill_indices Nx Nz z z) (fill_indices Nx (Nz + 1) z z) (fill_indices (Nx + 1) Nz z z) (fill_indices (Nx - 1) (Nz - 1) z z).
