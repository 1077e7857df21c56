(** * Interpolation of grid fields to markers

    Transcription of MDLIB/ParticleRoutines.c
    - 1382-1485 (Interp_Grid2P), 1491-1741 (Interp_Grid2P_centroids2),
    - 259-453 (Centers2Particle), 461-543 (Vertices2Particle),
    - 1747-1876 (Interp_Grid2P_strain),
    for one marker (the loops over markers write distinct entries and read no
    marker value). Doubles are reals; [ceil] followed by the conversion to [int] is
    exact. The coordinate arrays are the affine ladders established for
    SetGridCoordinates (C23). [isinf] (1730) has no counterpart over the reals. *)
From Coq Require Import ZArith Reals Bool.
From Verif Require Import P2GModel AdvModel.
Local Open Scope R_scope.

(** mesh->Nx, Nz (numbers of vertices), xmin, zmin, dx, dz. *)
Record mesh : Type := Mesh { NX : Z; NZ : Z; X0 : R; Z0 : R; DX : R; DZ : R }.
Definition xg (m : mesh) (j : Z) : R := X0 m + IZR j * DX m.               (* xg_coord *)
Definition zg (m : mesh) (i : Z) : R := Z0 m + IZR i * DZ m.               (* zg_coord *)
Definition xc (m : mesh) (j : Z) : R := X0 m + DX m / 2 + IZR j * DX m.    (* xc_coord *)
Definition zc (m : mesh) (i : Z) : R := Z0 m + DZ m / 2 + IZR i * DZ m.    (* zc_coord *)
Definition xvz (m : mesh) (j : Z) : R := X0 m - DX m / 2 + IZR j * DX m.   (* xvz_coord *)
Definition zvx (m : mesh) (i : Z) : R := Z0 m - DZ m / 2 + IZR i * DZ m.   (* zvx_coord *)

(** tag != 30 && tag != 31 *)
Definition rockb (t : Z) : bool := negb (t =? 30)%Z && negb (t =? 31)%Z.

Inductive outcome : Type := Val (v : R) | Exit (code : Z) | Undefined.

Record corners : Type := Corners { iSW : Z; iSE : Z; iNW : Z; iNE : Z }.

(** [ceil((distance/dx)) - 1] *)
Definition below (dist d : R) : Z := (Zceil (dist / d) - 1)%Z.

(** 1450-1482, 1678-1705: the four weighted values, an air node being replaced by the
    other node of its column; [a] = dxm/dx, [b] = dzm/dz. *)
Definition pick (f : Z -> R) (tag : Z -> Z) (k other : Z) : R := if rockb (tag k) then f k else f other.
Definition replaced (f : Z -> R) (tag : Z -> Z) (c : corners) (a b : R) : R :=
  (1 - a) * (1 - b) * pick f tag (iSW c) (iNW c) + a * (1 - b) * pick f tag (iSE c) (iNE c) +
  (1 - a) * b * pick f tag (iNW c) (iSW c) + a * b * pick f tag (iNE c) (iSE c).
(** The sum of the weights is accumulated in both branches. *)
Definition all_weights (a b : R) : R := (1 - a) * (1 - b) + a * (1 - b) + (1 - a) * b + a * b.
(** [if (sumW>1e-13) val /= sumW] *)
Definition eps13 : R := / 10 ^ 13.
Definition normalise (v s : R) : R := if Rltb eps13 s then v / s else v.

(** 430-448, 503-519: air nodes are left out of value and weight. *)
Definition when0 (b : bool) (r : R) : R := if b then r else 0.
Definition dropped (f : Z -> R) (tag : Z -> Z) (c : corners) (a b : R) : R :=
  let w k r := when0 (rockb (tag k)) r in
  normalise
    (w (iSW c) ((1 - a) * (1 - b) * f (iSW c)) + w (iSE c) (a * (1 - b) * f (iSE c)) +
     w (iNW c) ((1 - a) * b * f (iNW c)) + w (iNE c) (a * b * f (iNE c)))
    (w (iSW c) ((1 - a) * (1 - b)) + w (iSE c) (a * (1 - b)) + w (iNW c) ((1 - a) * b) + w (iNE c) (a * b)).

Definition square (N i j : Z) : corners :=
  Corners (j + i * N) (j + i * N + 1) (j + (i + 1) * N) (j + (i + 1) * N + 1).

(** ** Interp_Grid2P, for vertex fields: X_vect = xg_coord, Nx = mesh->Nx *)
Definition from_vertices (m : mesh) (f : Z -> R) (tag : Z -> Z) (ph : Z) (x z : R) : outcome :=
  if (ph =? -1)%Z then Val 0 else
  let Nx := NX m in let Nz := NZ m in
  let j := below (x - xg m 0) (DX m) in
  let j := if (j <? 0)%Z then 0%Z else j in
  if (Nx - 2 <? j)%Z then Exit 89 (* 1421-1430: Nx <> Nxg - 1 for vertex fields *) else
  let i := below (z - zg m 0) (DZ m) in
  let i := if (i <? 0)%Z then 0%Z else i in
  let i := if (Nz - 2 <? i)%Z then (Nz - 2)%Z else i in
  let dxm := Rabs (x - xg m j) in let dzm := Rabs (z - zg m i) in
  Val (replaced f tag (square Nx i j) (dxm / DX m) (dzm / DZ m)).

(** ** Interp_Grid2P_centroids2: X_vect = xvz_coord, Nx = mesh->Nx - 1 *)
(** 1523-1675: indices of the four cells, by position in the extended array. The
    cases exclude each other; in none of them the indices stay uninitialised. *)
Definition centre_corners (per : bool) (Nx Nz i j : Z) : option corners :=
  if (0 <? j)%Z && (j <? Nx)%Z && (0 <? i)%Z && (i <? Nz)%Z then
    Some (square Nx (i - 1) (j - 1))
  else if (j =? 0)%Z && (0 <? i)%Z && (i <? Nz)%Z then
    let ic := (i - 1)%Z in let jc := j in
    if per then Some (Corners ((Nx - 1) + ic * Nx) (jc + ic * Nx) ((Nx - 1) + (ic + 1) * Nx) (jc + (ic + 1) * Nx))
    else Some (Corners (jc + ic * Nx) (jc + ic * Nx) (jc + (ic + 1) * Nx) (jc + (ic + 1) * Nx))
  else if (j =? Nx)%Z && (0 <? i)%Z && (i <? Nz)%Z then
    let ic := (i - 1)%Z in let jc := (j - 1)%Z in
    if per then Some (Corners (jc + ic * Nx) (0 + ic * Nx) (jc + (ic + 1) * Nx) (0 + (ic + 1) * Nx))
    else Some (Corners (jc + ic * Nx) (jc + ic * Nx) (jc + (ic + 1) * Nx) (jc + (ic + 1) * Nx))
  else if (i =? 0)%Z && (0 <? j)%Z && (j <? Nx)%Z then
    let ic := i in let jc := (j - 1)%Z in
    Some (Corners (jc + ic * Nx) (jc + ic * Nx + 1) (jc + ic * Nx) (jc + ic * Nx + 1))
  else if (i =? Nz)%Z && (0 <? j)%Z && (j <? Nx)%Z then
    let ic := (i - 1)%Z in let jc := (j - 1)%Z in
    Some (Corners (jc + ic * Nx) (jc + ic * Nx + 1) (jc + ic * Nx) (jc + ic * Nx + 1))
  else if (i =? 0)%Z && (j =? 0)%Z then
    let ic := 0%Z in let jc := 0%Z in
    if per then Some (Corners ((Nx - 1) + ic * Nx) (jc + ic * Nx) ((Nx - 1) + ic * Nx) (jc + ic * Nx))
    else Some (Corners (jc + ic * Nx) (jc + ic * Nx) (jc + ic * Nx) (jc + ic * Nx))
  else if (i =? 0)%Z && (j =? Nx)%Z then
    let ic := i in let jc := (j - 1)%Z in
    if per then Some (Corners (jc + ic * Nx) (0 + ic * Nx) (jc + ic * Nx) (0 + ic * Nx))
    else Some (Corners (jc + ic * Nx) (jc + ic * Nx) (jc + ic * Nx) (jc + ic * Nx))
  else if (i =? Nz)%Z && (j =? 0)%Z then
    let ic := (i - 1)%Z in let jc := j in
    if per then Some (Corners ((Nx - 1) + ic * Nx) (jc + ic * Nx) ((Nx - 1) + ic * Nx) (jc + ic * Nx))
    else Some (Corners (jc + ic * Nx) (jc + ic * Nx) (jc + ic * Nx) (jc + ic * Nx))
  else if (i =? Nz)%Z && (j =? Nx)%Z then
    let ic := (i - 1)%Z in let jc := (j - 1)%Z in
    if per then Some (Corners (jc + ic * Nx) (0 + ic * Nx) (jc + ic * Nx) (0 + ic * Nx))
    else Some (Corners (jc + ic * Nx) (jc + ic * Nx) (jc + ic * Nx) (jc + ic * Nx))
  else None.

Definition from_centres (per : bool) (m : mesh) (f : Z -> R) (tag : Z -> Z) (ph : Z) (x z : R) : outcome :=
  if (ph =? -1)%Z then Val 0 else
  let j := below (x - xvz m 0) (DX m) in
  let i := below (z - zvx m 0) (DZ m) in
  match centre_corners per (NX m - 1) (NZ m - 1) i j with
  | None => Undefined
  | Some c =>
      let a := (x - xvz m j) / DX m in let b := (z - zvx m i) / DZ m in
      Val (normalise (replaced f tag c a b) (all_weights a b))
  end.

(** ** Centers2Particle (new markers), same index cases (278-427) *)
Definition new_from_centres (per : bool) (m : mesh) (f : Z -> R) (tag : Z -> Z) (ph : Z) (x z : R) : outcome :=
  if (ph =? -1)%Z then Val 0 else
  let j := below (x - xvz m 0) (DX m) in
  let i := below (z - zvx m 0) (DZ m) in
  match centre_corners per (NX m - 1) (NZ m - 1) i j with
  | None => Undefined
  | Some c => Val (dropped f tag c ((x - xvz m j) / DX m) ((z - zvx m i) / DZ m))
  end.

(** ** Vertices2Particle (new markers) *)
Definition new_from_vertices (m : mesh) (f : Z -> R) (tag : Z -> Z) (ph : Z) (x z : R) : outcome :=
  if (ph =? -1)%Z then Exit 1 else
  let Nx := NX m in let Nz := NZ m in
  let j := below (Rabs (x - xg m 0)) (DX m) in
  let j := if (j <? 0)%Z then 0%Z else j in
  if (Nx - 2 <? j)%Z then Exit 1 else
  let i := below (Rabs (z - zg m 0)) (DZ m) in
  let i := if (i <? 0)%Z then 0%Z else i in
  let i := if (Nz - 2 <? i)%Z then (Nz - 2)%Z else i in
  Val (dropped f tag (square Nx i j) ((x - xg m j) / DX m) ((z - zg m i) / DZ m)).

(** ** Interp_Grid2P_strain: X_vect = xc_coord, Nx = mesh->Nx - 1 *)
(** The running pair (PartField[k], sumW). *)
Definition put (b : bool) (w v : R) (s : R * R) : R * R := if b then (fst s + w * v, snd s + w) else s.
Definition divide (s : R * R) : R * R := (normalise (fst s) (snd s), snd s).
Definition guard (b : bool) (g : R * R -> R * R) (s : R * R) : R * R := if b then g s else s.
(** [PartField[k] = NodeField[..]]: the weight is not touched. *)
Definition set_value (v : R) (s : R * R) : R * R := (v, snd s).

Definition strain_marker (m : mesh) (f : Z -> R) (tag : Z -> Z) (ph : Z) (x z : R) : R :=
  if (ph =? -1)%Z then 0 else
  let Nx := (NX m - 1)%Z in let Nz := (NZ m - 1)%Z in
  let j := below (Rabs (x - xc m 0)) (DX m) in
  let j := if (j <? 0)%Z then 0%Z else j in
  let j := if (Nx - 2 <? j)%Z then (Nx - 2)%Z else j in
  let i := below (Rabs (z - zc m 0)) (DZ m) in
  let i := if (i <? 0)%Z then 0%Z else i in
  let i := if (Nz - 2 <? i)%Z then (Nz - 2)%Z else i in
  let a := (x - xc m j) / DX m in let b := (z - zc m i) / DZ m in
  let c := square Nx i j in
  let r k := rockb (tag k) in
  let x0 := (j =? 0)%Z in let x1 := (j =? Nx - 2)%Z in
  let z0 := (i =? 0)%Z in let z1 := (i =? Nz - 2)%Z in
  let xin := (0 <? j)%Z && (j <? Nx - 2)%Z in let zin := (0 <? i)%Z && (i <? Nz - 2)%Z in
  let s := (0, 0) in
  let s := guard (xin && zin) (fun s =>
      let s := put (r (iSW c)) ((1 - a) * (1 - b)) (f (iSW c)) s in
      let s := put (r (iSE c)) (a * (1 - b)) (f (iSE c)) s in
      let s := put (r (iNW c)) ((1 - a) * b) (f (iNW c)) s in
      put (r (iNE c)) (a * b) (f (iNE c)) s) s in
  let s := guard (x0 && z0) (set_value (f (iNE c))) s in
  let s := guard (x1 && z0) (set_value (f (iNW c))) s in
  let s := guard (x0 && z1) (set_value (f (iSE c))) s in
  let s := guard (x1 && z1) (set_value (f (iSW c))) s in
  let s := guard (x0 && zin) (fun s =>
      divide (put (r (iNE c)) b (f (iNE c)) (put (r (iSE c)) (1 - b) (f (iSE c)) s))) s in
  let s := guard (x1 && zin) (fun s =>
      divide (put (r (iNW c)) b (f (iNW c)) (put (r (iSW c)) (1 - b) (f (iSW c)) s))) s in
  let s := guard (z0 && xin) (fun s =>
      divide (put (r (iNE c)) a (f (iNE c)) (put (r (iNW c)) (1 - a) (f (iNW c)) s))) s in
  let s := guard (z1 && xin) (fun s =>
      divide (put (r (iSE c)) a (f (iSE c)) (put (r (iSW c)) (1 - a) (f (iSW c)) s))) s in
  fst (divide s).
