(** * Flagging of the grid below, at and above the free surface

    Transcription of MDLIB/FreeSurface.c 394-411 (MarkerChainPolyFit), 482-486
    (TopoFun), 492-798 (CellFlagging), 841-871 (SurfaceDensityCorrection, cell
    centres) and of MDLIB/Setup.c 567-604 (position passed to SetBCPType).

    Doubles are reals. A grid array is a function of (column, line) instead of the
    flat index [i + j*n]; a loop that writes its own entry from arrays it does not
    write is the corresponding pointwise definition. The three passes over the
    vertices read what they write and are kept as loops in the order of the code. *)
From Coq Require Import ZArith Reals List Bool Arith.
Import ListNotations.
From Verif Require Import GridModel AdvModel.
Local Open Scope Z_scope.

Definition tags := nat -> nat -> Z.
Definition upd2 {A} (t : nat -> nat -> A) (i j : nat) (v : A) : nat -> nat -> A :=
  fun a b => if Nat.eqb a i && Nat.eqb b j then v else t a b.

(** ** The surface *)
(** 401-410: in cell column [ic] the surface is [a x + b]. *)
Definition fit_a (dx : R) (height : nat -> R) (ic : nat) : R := ((height (ic + 1)%nat - height ic) / dx)%R.
Definition fit_b (dx : R) (xg height : nat -> R) (ic : nat) : R := (height ic - xg ic * fit_a dx height ic)%R.

(** 484, 523-534: height in extended column [i] (0 and [ncx+1] are outside). *)
Definition fit_column (ncx i : nat) : nat :=
  if Nat.eqb i 0 then 0%nat else if Nat.eqb i (ncx + 1) then (ncx - 1)%nat else (i - 1)%nat.
Definition topo_fun (a b : nat -> R) (ic : nat) (x : R) : R := (b ic + a ic * x)%R.

(** ** Extended cells: [ncx+2] columns, [ncz+2] lines *)
(** 538-547 *)
Definition raw_tags (ncx : nat) (a b xvz zvx : nat -> R) : tags := fun i j =>
  if Rltb (topo_fun a b (fit_column ncx i) (xvz i)) (zvx j) then 30 else -1.

(** 551-563 *)
Definition first_above (ncz : nat) (t : tags) : tags := fun i j =>
  if (0 <? j)%nat && (j <? ncz + 1)%nat && negb (t i j =? t i (j - 1)%nat) then 60 else t i j.

(** 565-591 *)
Definition slopes (ncx : nat) (t : tags) : tags := fun i j =>
  if (1 <=? i)%nat && (i <? ncx + 1)%nat then
    let c := t i j in let w := t (i - 1)%nat j in let e := t (i + 1)%nat j in
    let r := if (c =? -1) && ((w =? 60) && (e =? 60)) then 60 else c in
    let r := if (c =? 30) && (e =? -1) && ((w =? 30) || (w =? 60)) then 60 else r in
    let r := if (c =? 30) && (w =? -1) && ((e =? 30) || (e =? 60)) then 60 else r in
    if (c =? 30) && (w =? -1) && (e =? -1) then 60 else r
  else t i j.

(** 593-600: only the eastern column is copied. *)
Definition side_cells (ncx : nat) (t : tags) : tags := fun i j =>
  if Nat.eqb i (ncx + 1) then t ncx j else t i j.

Definition cell_tags (ncx ncz : nat) (raw : tags) : tags :=
  side_cells ncx (slopes ncx (first_above ncz raw)).

(** ** Pressure and temperature cells (602-632) *)
Definition bcp (c : tags) : tags := fun i j =>
  let t := c (i + 1)%nat (j + 1)%nat in if t =? 60 then 31 else t.
Definition bct (c : tags) : tags := fun i j =>
  let t := c (i + 1)%nat (j + 1)%nat in if (t =? 30) || (t =? 60) then 30 else t.
Definition flag_T {A} (c : tags) (T0 : A) (T : nat -> nat -> A) : nat -> nat -> A := fun i j =>
  let t := c (i + 1)%nat (j + 1)%nat in if (t =? 30) || (t =? 60) then T0 else T i j.

(** ** Velocity nodes *)
(** 635-659: Vx node (i,j) is set by the extended cells (i,j) and (i+1,j). *)
Definition vx_inner (c : tags) : tags := fun i j => if (c i j =? -1) || (c (i + 1)%nat j =? -1) then -1 else 30.
(** 670-695: Vz node (i,j) by the extended cells (i,j) and (i,j+1). *)
Definition vz_inner (c : tags) : tags := fun i j => if (c i j =? -1) || (c i (j + 1)%nat =? -1) then -1 else 30.
(** 661-667, 697-704: first and last entry of each row of length [n]. *)
Definition copy_sides (n : nat) (t : tags) : tags := fun i j =>
  let row := fun k => t k j in
  let row := upd row 0%nat (row 1%nat) in
  let row := upd row (n - 1)%nat (row (n - 2)%nat) in row i.

Definition bcu (nx : nat) (c : tags) : tags := copy_sides nx (vx_inner c).
Definition bcv (nx : nat) (c : tags) : tags := copy_sides (nx + 1) (vz_inner c).

(** ** Vertices *)
(** 708-719 *)
Definition vertex_raw (zg height : nat -> R) : tags := fun i j => if Rltb (height i) (zg j) then 30 else -1.

(** 722-732, 735-745, 748-758: in place, columns outside, lines inside. *)
Definition columns_then_lines (nx nz : nat) (body : tags -> nat -> nat -> tags) (t : tags) : tags :=
  loop 0 nx (fun t i => loop 0 nz (fun t j => body t i j) t) t.
Definition pass_down (nx nz : nat) : tags -> tags := columns_then_lines nx nz (fun t i j =>
  if (j <? nz - 1)%nat && ((t i j =? -1) && (t i (j + 1)%nat =? 30)) then upd2 t i j 30 else t).
Definition pass_east (nx nz : nat) : tags -> tags := columns_then_lines nx nz (fun t i j =>
  if (0 <? i)%nat && ((t i j =? -1) && (t (i - 1)%nat j =? 30)) then upd2 t i j 30 else t).
Definition pass_west (nx nz : nat) : tags -> tags := columns_then_lines nx nz (fun t i j =>
  if (i <? nx - 1)%nat && ((t i j =? -1) && (t (i + 1)%nat j =? 30)) then upd2 t i j 30 else t).

(** 762-794: [p] are the pressure tags. *)
Definition reactivate (nx nz : nat) (p t : tags) : tags := fun i j =>
  let inside := (0 <? j)%nat && (j <? nz - 1)%nat in
  let fl a b := p a b =? -1 in
  if inside && (t i j =? 30) then
    if (0 <? i)%nat && (i <? nx - 1)%nat then
      if fl (i - 1)%nat j && fl (i - 1)%nat (j - 1)%nat && fl i j && fl i (j - 1)%nat then -1 else t i j
    else if Nat.eqb i 0 && (i <? nx - 1)%nat then
      if fl i j && fl i (j - 1)%nat then -1 else t i j
    else if Nat.eqb i (nx - 1) then
      if fl (i - 1)%nat j && fl (i - 1)%nat (j - 1)%nat then -1 else t i j
    else t i j
  else t i j.

Definition bcg (nx nz : nat) (p raw : tags) : tags :=
  reactivate nx nz p (pass_west nx nz (pass_east nx nz (pass_down nx nz raw))).

(** ** Density of the cells cut by the surface (851-870) *)
(** [None]: the tag of the cell above is read outside the array. *)
Definition surface_weight (ncx ncz : nat) (p : tags) (a b xc zc : nat -> R) (dz : R) (i j : nat) : option R :=
  if p i j =? -1 then
    if (j + 1 <? ncz)%nat then
      Some (if p i (j + 1)%nat =? 31 then (Rabs (b i + a i * xc i - zc j) / dz)%R else 1%R)
    else None
  else Some (if (p i j =? 30) || (p i j =? 31) then 0%R else 1%R).

(** ** Position given to SetBCPType away from the sides (Setup.c 590-594) *)
Definition told_free_surface (p : tags) (i j : nat) : bool :=
  ((p i j =? -1) || (p i j =? 1) || (p i j =? 0)) && (p i (j + 1)%nat =? 30).
