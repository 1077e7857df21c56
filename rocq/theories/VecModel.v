(** * Vectors and matrices handed to and taken back from the linear solver

    Transcription of MDLIB/SparseTools.c
    - 150-191 [BuildInitialSolutions],
    - 193-239 [BackToSolutionVector],
    - 316-334 [DecompressCSRtoTriplets]. *)
From Coq Require Import List ZArith Reals Bool Arith.
Import ListNotations.
From Verif Require Import GridModel NumModel.

(** ** BuildInitialSolutions *)
(** 157, 168: velocity nodes; the same test as that of ExtractSolutions2 ([upd_uv]).  180: cells ([upd_p]). *)
(** 158-159: one node; the counter [inc] and the vector. *)
Definition guess_step (sel : Z -> bool) (ty : nat -> Z) (a : nat -> R) (s : nat * (nat -> R)) (kk : nat) : nat * (nat -> R) :=
  if sel (ty kk) then (fst s + 1, upd (snd s) (fst s) (a kk)) else s.
(** 152-173: the vertical velocity is read from the array of the horizontal velocity (169). *)
Definition guess_mom (Nx Nz : nat) (t : types) (f : fields) (u0 : nat -> R) : nat -> R :=
  let s := loop 0 (Nz + 1) (fun s l => loop 0 Nx (fun s k => guess_step upd_uv (tu t) (u_in f) s (k + l * Nx)) s) (0, u0) in
  snd (loop 0 Nz (fun s l => loop 0 (Nx + 1) (fun s k => guess_step upd_uv (tv t) (u_in f) s (k + l * (Nx + 1))) s) s).
(** 175-189. *)
Definition guess_cont (Nx Nz : nat) (t : types) (f : fields) (p0 : nat -> R) : nat -> R :=
  snd (loop 0 (Nz - 1) (fun s l => loop 0 (Nx - 1) (fun s k => guess_step upd_p (tp t) (p_in f) s (k + l * (Nx - 1))) s) (0, p0)).
(** the nodes at which the array of the horizontal velocity is read (158, 169); it has [Nx * (Nz + 1)] entries *)
Definition guess_reads (Nx Nz : nat) (t : types) : list nat :=
  filter (fun c => upd_uv (tu t c)) (seq 0 ((Nz + 1) * Nx)) ++ filter (fun c => upd_uv (tv t c)) (seq 0 (Nz * (Nx + 1))).

(** ** BackToSolutionVector *)
(** 203-205: one node; the counters [inc], [inc_tot] and the vector. *)
Definition back_step (sel : Z -> bool) (ty : nat -> Z) (src : nat -> R) (s : nat * nat * (nat -> R)) (kk : nat) : nat * nat * (nat -> R) :=
  if sel (ty kk) then (fst (fst s) + 1, snd (fst s) + 1, upd (snd s) (snd (fst s)) (src (fst (fst s)))) else s.
(** 195-238: [u] and [p] are the solutions for velocity and pressure; cells are unknowns if their type is -1 (230). *)
Definition back (Nx Nz : nat) (t : types) (u p : nat -> R) (x : nat -> R) : nat -> R :=
  let s := loop 0 (Nz + 1) (fun s l => loop 0 Nx (fun s k => back_step upd_uv (tu t) u s (k + l * Nx)) s) (0, 0, x) in
  let s := loop 0 Nz (fun s l => loop 0 (Nx + 1) (fun s k => back_step upd_uv (tv t) u s (k + l * (Nx + 1))) s) s in
  let s := (0, snd (fst s), snd s) in
  snd (loop 0 (Nz - 1) (fun s l => loop 0 (Nx - 1) (fun s k => back_step num_p (tp t) p s (k + l * (Nx - 1))) s) s).

(** ** DecompressCSRtoTriplets *)
(** 320-333: the counters [m], [p] and the row numbers. *)
Definition triplet_rows (size : nat) (Icsr : nat -> nat) (rows : nat -> nat) : nat -> nat :=
  let s := loop 1 size (fun s k =>
    let '(m, p, r) := s in
    let off := Icsr k - Icsr (k - 1) in
    (m + off, p + 1, loop 0 off (fun r l => upd r (m + l) p) r)) (0, 0, upd rows 0 0) in
  snd s.
