(** * Grid: node numbering, averaging between vertices and centres, coordinates

    Transcription of MDLIB/GridRoutines.c
    - 106-207 [InterpCentroidsToVerticesDouble],
    - 213-236 [InterpVerticesToCentroidsDouble],
    - 244-324 [SetGridCoordinates],
    - 541-584 [GridIndices].
    [double] is [R]. Arrays are functions of the flat index; a loop of
    assignments is a fold of [upd]. [periodic_x] is a boolean (the code leaves
    the index [c1] unset for values other than 0 and 1). *)
From Coq Require Import List ZArith Reals Bool Arith.
Import ListNotations.

(** [a[i] = v]. *)
Definition upd {A} (a : nat -> A) (i : nat) (v : A) : nat -> A :=
  fun j => if Nat.eqb j i then v else a j.

(** [for (i = from; i < from + count; i++)]. *)
Definition loop {S} (from count : nat) (body : S -> nat -> S) (s : S) : S :=
  fold_left body (seq from count) s.

(** ** GridIndices *)

(** 547-554 (and 556-582 with other sizes): the tables [k..], [l..] of a grid
    with [n1] nodes per row and [n2] rows. *)
Definition fill_indices (n1 n2 : nat) (t : (nat -> Z) * (nat -> Z)) : (nat -> Z) * (nat -> Z) :=
  loop 0 n2 (fun t l =>
    loop 0 n1 (fun t k =>
      let kk := (k + l * n1)%nat in
      (upd (fst t) kk (Z.of_nat k), upd (snd t) kk (Z.of_nat l))) t) t.

(** The four grids: vertices, Vx, Vz, centres (row length, number of rows);
    loop bounds of 548-582. *)
Inductive which := Vertices | VxNodes | VzNodes | Centres.
Definition row_length (Nx : nat) (g : which) : nat :=
  match g with Vertices => Nx | VxNodes => Nx | VzNodes => Nx + 1 | Centres => Nx - 1 end.
Definition row_count (Nz : nat) (g : which) : nat :=
  match g with Vertices => Nz | VxNodes => Nz + 1 | VzNodes => Nz | Centres => Nz - 1 end.

Definition grid_indices (Nx Nz : nat) (t0 : which -> (nat -> Z) * (nat -> Z)) :=
  fun g => fill_indices (row_length Nx g) (row_count Nz g) (t0 g).

(** ** InterpCentroidsToVerticesDouble *)

(** Lines 123-131: fill the interior of the enlarged array (rows of [Ncx+2]);
    used for values and, identically, for flags. *)
Definition fill_interior {A} (Ncx Ncz : nat) (C : nat -> A) (temp : nat -> A) : nat -> A :=
  loop 0 Ncx (fun t k =>
    loop 0 Ncz (fun t l => upd t (k + (l + 1) * (Ncx + 2) + 1) (C (k + l * Ncx)%nat)) t) temp.

(** Assignment [temp[c0] = temp[c1]]. *)
Definition copy {A} (t : nat -> A) (c0 c1 : nat) : nat -> A := upd t c0 (t c1).

(** Lines 133-160: sides. *)
Definition fill_sides {A} (per : bool) (Ncx Ncz : nat) (t : nat -> A) : nat -> A :=
  let w := (Ncx + 2)%nat in
  let t := loop 1 Ncx (fun t k => copy t (k + 0 * w) (k + 1 * w)) t in
  let t := loop 1 Ncx (fun t k => copy t (k + (Ncz + 1) * w) (k + Ncz * w)) t in
  let t := loop 1 Ncz (fun t l => copy t (0 + l * w) ((if per then Ncx + 2 - 1 - 1 else 1) + l * w)) t in
  loop 1 Ncz (fun t l => copy t ((Ncx + 1) + l * w) ((if per then 1 else Ncx) + l * w)) t.

(** Lines 162-182: corners. *)
Definition fill_corners {A} (per : bool) (Ncx Ncz : nat) (t : nat -> A) : nat -> A :=
  let w := (Ncx + 2)%nat in
  let t := copy t (0 + 0 * w) ((if per then 0 else 1) + 1 * w) in
  let t := copy t ((Ncx + 1) + 0 * w) ((if per then Ncx + 1 else Ncx) + 1 * w) in
  let t := copy t (0 + (Ncz + 1) * w) ((if per then 0 else 1) + Ncz * w) in
  copy t ((Ncx + 1) + (Ncz + 1) * w) ((if per then Ncx + 1 else Ncx) + Ncz * w).

Definition swell {A} (per : bool) (Ncx Ncz : nat) (zero : A) (C : nat -> A) : nat -> A :=
  fill_corners per Ncx Ncz (fill_sides per Ncx Ncz (fill_interior Ncx Ncz C (fun _ => zero))).

(** Boundary-type code of air cells (30 air, 31 just above the surface). *)
Definition is_air (t : Z) : bool := (Z.eqb t 30 || Z.eqb t 31)%bool.

Definition in_flag (t : Z) : R := if is_air t then 0%R else 1%R.

(** Lines 192-199: value stored at vertex [(k,l)]. The vertex array is written
    by a parallel loop, each entry by exactly one iteration and read by none. *)
Definition vertex_value (per : bool) (Nx Nz : nat) (C : nat -> R) (ptype gtype : nat -> Z)
    (k l : nat) : R :=
  let Ncx := (Nx - 1)%nat in let Ncz := (Nz - 1)%nat in
  let temp := swell per Ncx Ncz 0%R C in
  let flag := swell per Ncx Ncz 0%Z ptype in
  let c1 := (k + l * Nx)%nat in
  let c0 := (k + (l + 1) * (Ncx + 2) + 1)%nat in
  let w := (Ncx + 2)%nat in
  if Z.eqb (gtype c1) 30 then 0%R else
  (0.25 * (in_flag (flag (c0 - 1 - w)%nat) * temp (c0 - 1 - w)%nat
         + in_flag (flag (c0 - 0 - w)%nat) * temp (c0 - 0 - w)%nat
         + in_flag (flag (c0 - 1)%nat) * temp (c0 - 1)%nat
         + in_flag (flag (c0 - 0)%nat) * temp c0))%R.

(** Lines 185-202: whole vertex array. *)
Definition centres_to_vertices (per : bool) (Nx Nz : nat) (C : nat -> R) (ptype gtype : nat -> Z)
    (V : nat -> R) : nat -> R :=
  loop 0 Nx (fun V k => loop 0 Nz (fun V l =>
    upd V (k + l * Nx) (vertex_value per Nx Nz C ptype gtype k l)) V) V.

(** ** InterpVerticesToCentroidsDouble *)

(** Lines 223-234: whole centre array. *)
Definition vertices_to_centres (Nx Nz : nat) (V : nat -> R) (ptype : nat -> Z)
    (C : nat -> R) : nat -> R :=
  let Ncx := (Nx - 1)%nat in let Ncz := (Nz - 1)%nat in
  loop 0 Ncx (fun C k => loop 0 Ncz (fun C l =>
    let c0 := (k + l * Ncx)%nat in let c1 := (k + l * Nx)%nat in
    if negb (Z.eqb (ptype c0) 30) && negb (Z.eqb (ptype c0) 31) then
      upd C c0 (0.25 * (V c1 + V (c1 + 1)%nat + V (c1 + Nx)%nat + V (c1 + 1 + Nx)%nat))%R
    else C) C) C.

(** ** SetGridCoordinates *)

(** The pattern [x[0] = x0; for (i=1; i<n; i++) x[i] = x[i-1] + d]. *)
Definition ladder (x0 d : R) (n : nat) (x : nat -> R) : nat -> R :=
  loop 1 (n - 1) (fun x i => upd x i (x (i - 1)%nat + d)%R) (upd x 0 x0).

(** One direction of 252-322, [n] = nx or nz, [lo], [hi] = xmin, xmax;
    [lo0], [hi0] = bounds of the initial domain. *)
Record coords := Coords {
  sp : R;                 (* mesh->dx *)
  cg : nat -> R;          (* xg_coord      n   entries *)
  cg0 : nat -> R;         (* xg_coord0     n   *)
  cc : nat -> R;          (* xc_coord      n-1 *)
  cv : nat -> R;          (* xvz_coord     n+1 *)
  cext : nat -> R }.      (* xg_coord_ext  n+2 *)

Definition spacing (lo hi : R) (n : nat) : R := ((hi - lo) / (INR n - 1))%R.

Definition set_coordinates (lo hi lo0 hi0 : R) (n : nat) (old : coords) : coords :=
  let d := spacing lo hi n in
  let d0 := spacing lo0 hi0 n in
  Coords d
    (ladder lo d n (cg old))
    (ladder lo0 d0 n (cg0 old))
    (ladder (lo + d / 2) d (n - 1) (cc old))
    (ladder (lo - d / 2) d (n + 1) (cv old))
    (ladder (lo - d) d (n + 2) (cext old)).
