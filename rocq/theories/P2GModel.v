(** * Interpolation from markers to grid nodes

    Transcription of MDLIB/ParticleRoutines.c 1982-2328 (P2Mastah). Doubles are
    reals; grid indices are [Z]. Coordinates of the nodes are functions of the
    index ([X_vect], [Z_vect]); [dx], [dz] are the mesh spacings. *)
From Coq Require Import ZArith Reals List Bool.
Import ListNotations.
Local Open Scope R_scope.

(** C's [ceil] as an integer. *)
Definition Zceil (r : R) : Z := (1 - up (- r))%Z.

Record nodes : Type := Nodes {
  gNx : Z; gNz : Z;              (* number of nodes, 2000-2023 *)
  gX : Z -> R; gZ : Z -> R;      (* X_vect, Z_vect *)
  gdx : R; gdz : R }.

(** 2000-2023: the four families of nodes. [Nx], [Nz] count vertices. *)
Inductive family := Centroids | Vertices | VxNodes | VzNodes.
Definition family_nodes (f : family) (Nx Nz : Z) (xmin zmin dx dz : R) : nodes :=
  match f with
  | Centroids => {| gNx := Nx - 1; gNz := Nz - 1; gX := fun i => xmin + dx / 2 + IZR i * dx; gZ := fun j => zmin + dz / 2 + IZR j * dz; gdx := dx; gdz := dz |}
  | Vertices => {| gNx := Nx; gNz := Nz; gX := fun i => xmin + IZR i * dx; gZ := fun j => zmin + IZR j * dz; gdx := dx; gdz := dz |}
  | VxNodes => {| gNx := Nx; gNz := Nz + 1; gX := fun i => xmin + IZR i * dx; gZ := fun j => zmin - dz / 2 + IZR j * dz; gdx := dx; gdz := dz |}
  | VzNodes => {| gNx := Nx + 1; gNz := Nz; gX := fun i => xmin - dx / 2 + IZR i * dx; gZ := fun j => zmin + IZR j * dz; gdx := dx; gdz := dz |}
  end.

Record marker : Type := Marker { mx : R; mz : R; mph : Z; mval : R }.

(** 2082-2092: nearest column or line, clamped. *)
Definition nearest (x x0 d : R) (n : Z) : Z :=
  let ip := (Zceil ((x - x0) / d + / 2) - 1)%Z in
  let ip := if (ip <? 0)%Z then 0%Z else ip in
  if (n - 1 <? ip)%Z then (n - 1)%Z else ip.

(** 2028-2031. *)
Inductive stencil := OneCell | NineCell.
Definition half_width (s : stencil) (d : R) : R := match s with OneCell => d / 2 | NineCell => 3 * d / 2 end.

(** 2139-2250: the entries (node index [kp], weight) added by one marker. *)
Definition w2 (s : stencil) (g : nodes) (dxm dzm : R) : R :=
  (1 - dxm / half_width s (gdx g)) * (1 - dzm / half_width s (gdz g)).
Definition when {A} (b : bool) (a : A) : list A := if b then [a] else [].
Definition contributions (s : stencil) (periodic : bool) (g : nodes) (m : marker) : list (Z * R) :=
  let Nx := gNx g in let Nz := gNz g in
  let ip := nearest (mx m) (gX g 0) (gdx g) Nx in
  let jp := nearest (mz m) (gZ g 0) (gdz g) Nz in
  let xc := Rabs (gX g ip - mx m) in let zc := Rabs (gZ g jp - mz m) in
  let xe := Rabs (gX g ip + gdx g - mx m) in let xw := Rabs (gX g ip - gdx g - mx m) in
  let zn := Rabs (gZ g jp + gdz g - mz m) in let zs := Rabs (gZ g jp - gdz g - mz m) in
  let perE := (ip =? Nx - 1)%Z && periodic in   (* peri of E, NE, SE *)
  let perW := (ip =? 0)%Z && periodic in        (* peri of W, SW, NW *)
  let offE := (if perE then - (Nx - 1) else 1)%Z in
  let offW := (if perW then Nx - 1 else - (1))%Z in
  let hasE := (ip <? Nx - 1)%Z || perE in let hasW := (0 <? ip)%Z || perW in
  let hasN := (jp <? Nz - 1)%Z in let hasS := (0 <? jp)%Z in
  ((ip + jp * Nx)%Z, w2 s g xc zc) ::
  match s with
  | OneCell => []
  | NineCell =>
      when hasN ((ip + (jp + 1) * Nx)%Z, w2 s g xc zn) ++
      when hasS ((ip + (jp - 1) * Nx)%Z, w2 s g xc zs) ++
      when hasE ((ip + jp * Nx + offE)%Z, w2 s g xe zc) ++
      when hasW ((ip + jp * Nx + offW)%Z, w2 s g xw zc) ++
      when (hasS && hasW) ((ip + (jp - 1) * Nx + offW)%Z, w2 s g xw zs) ++
      when (hasN && hasW) ((ip + (jp + 1) * Nx + offW)%Z, w2 s g xw zn) ++
      when (hasN && hasE) ((ip + (jp + 1) * Nx + offE)%Z, w2 s g xe zn) ++
      when (hasS && hasE) ((ip + (jp - 1) * Nx + offE)%Z, w2 s g xe zs)
  end.

(** Weight one marker adds to node [k] (2077: inactive markers are skipped). *)
Definition at_node (k : Z) (l : list (Z * R)) : R :=
  fold_right (fun e s => if (fst e =? k)%Z then snd e + s else s) 0 l.
Definition marker_weight s per g k m : R :=
  if (mph m =? -1)%Z then 0 else at_node k (contributions s per g m).

(** 2131-2136 and 2288-2294. *)
Inductive averaging := Arithmetic | Harmonic | Geometric.
Definition fwd (a : averaging) (v : R) : R := match a with Arithmetic => v | Harmonic => 1 / v | Geometric => ln v end.
Definition bwd (a : averaging) (v : R) : R := match a with Arithmetic => v | Harmonic => 1 / v | Geometric => exp v end.

Definition sumR {A} (f : A -> R) (l : list A) : R := fold_right (fun x s => f x + s) 0 l.
Definition WM s per g ms k : R := sumR (marker_weight s per g k) ms.
Definition BMWM a s per g ms k : R := sumR (fun m => fwd a (mval m) * marker_weight s per g k m) ms.

(** 2256-2268: the per-thread sums and their reduction; [th] assigns markers to
    threads (schedule(static), any number of threads). *)
Definition WM_threads s per g (ms : list (nat * marker)) (nthreads : nat) k : R :=
  sumR (fun t => sumR (fun p => if Nat.eqb (fst p) t then marker_weight s per g k (snd p) else 0) ms) (seq 0 nthreads).

(** 2282-2295: value after the call, [old] the value before; [tag] is NodeType. *)
Definition tiny : R := / 10 ^ 30.
Definition node_value a s per g ms tag old k : R :=
  if Rlt_dec (Rabs (WM s per g ms k)) tiny then old
  else if (tag =? 30)%Z || (tag =? 31)%Z then old
  else bwd a (BMWM a s per g ms k / WM s per g ms k).

(** 2033-2042, 2263-2264, 2296-2301: phase proportions (prop = 1). *)
Definition phase_weight s per g ms p k : R :=
  sumR (fun m => if (mph m =? p)%Z then marker_weight s per g k m else 0) ms.
Definition phase_fraction s per g ms tag p k : R :=
  if Rlt_dec (Rabs (WM s per g ms k)) tiny then phase_weight s per g ms p k
  else if (tag =? 30)%Z || (tag =? 31)%Z then phase_weight s per g ms p k
  else phase_weight s per g ms p k / WM s per g ms k.

(** 2305-2313: equalisation of the lateral vertex columns in the periodic case
    (only for prop = 0). [field] maps column and row to the value. *)
Definition make_periodic (f : family) (per : bool) (Nx : Z) (field : Z -> Z -> R) : Z -> Z -> R :=
  match f with
  | Vertices => if per then fun i j => if (i =? 0)%Z || (i =? Nx - 1)%Z
        then / 2 * (field (Nx - 1)%Z j + field 0%Z j) else field i j else field
  | _ => field
  end.
