(** * Start of a run: surface chain, first velocity field, first time step; surface velocities

    Transcription of
    - MDLIB/FreeSurface.c 50-67 ([SetTopoChainHorizontalCoords]),
    - MDLIB/Setup.c 12-28 ([BuildInitialTopography]),
    - MDLIB/GridRoutines.c 331-407 ([InitialiseSolutionFields]; the final [ApplyBC] is
      [BCModel.apply_bc]),
    - MDLIB/AdvectionRoutines.c 513-557 ([DefineInitialTimestep]; printing left out),
    - MDLIB/FreeSurface.c 991-1062 ([SurfaceVelocity]; the sums that are never used
      are left out).

    Doubles are reals, arrays are functions of the flat index. Reads outside an array
    are the outcome [None]. *)
From Coq Require Import List ZArith Reals Bool Arith.
Import ListNotations.
From Verif Require Import GridModel NumModel BCModel P2GModel AdvModel FlagModel SurfModel.
Local Open Scope R_scope.

(** ** The surface chain *)

(** FreeSurface.c 52-63: 23 markers in each of the [ncx = Nx-1] columns. *)
Definition chain_start (ncx : nat) (xmin dx : R) : chain :=
  let dxm := dx / 23 in
  Chain (ncx * 23) (fun k => xmin + dxm / 2 + INR k * dxm) (fun _ => 0) (fun _ => 0) (fun _ => 0%Z).

(** Setup.c 12-28: [zf], [pf] are the optional functions [SetSurfaceZCoord],
    [SetSurfacePhase] of the user, [L] the length unit. *)
Definition build_topography (zf : option (R -> R)) (pf : option (R -> Z)) (L : R) (c : chain) : chain :=
  Chain (nb c) (chx c)
    (fun k => if (k <? nb c)%nat then match zf with Some f => f (chx c k) | None => 1000 / L end else chz c k)
    (chz0 c)
    (fun k => if (k <? nb c)%nat then match pf with Some f => f (chx c k) | None => 0%Z end else chp c k).

(** FreeSurface.c 420: number of entries of the arrays of the chain. *)
Definition chain_capacity (nx : nat) : nat := (50 * nx)%nat.

(** ** The velocity and pressure fields before the iterations *)

Record background := Background {
  bg_e : R;               (* bkg_strain_rate *)
  bg_d : R;               (* bkg_div_rate *)
  bg_p : R;               (* bkg_pressure *)
  bg_periodic : bool;     (* periodic_x == 1 *)
  bg_first : bool }.      (* step == 0 *)

(** GridRoutines.c 354-368. *)
Definition start_vx (b : background) (ty : Z) (val x z old : R) : R :=
  if (ty =? 30)%Z then 0 else
  let u := if bg_first b then
             let u := if Req_EM_T (bg_e b) 0 then 0 else - x * (bg_e b - bg_d b / 3) in
             if bg_periodic b then 2 * z * bg_e b + x * bg_d b / 3 else u
           else old in
  if (ty =? 0)%Z then val else u.

(** 379-389. *)
Definition start_vz (b : background) (ty : Z) (val z old : R) : R :=
  if (ty =? 30)%Z then 0 else
  let v := if bg_first b then
             let v := if Req_EM_T (bg_e b) 0 then 0 else z * (bg_e b + bg_d b / 3) in
             if bg_periodic b then 0 + z * bg_d b / 3 else v
           else old in
  if (ty =? 0)%Z then val else v.

(** 398-402. The two conditions are as in the source; the second one joins two
    inequalities by [||]. *)
Definition start_p (b : background) (ty : Z) (old : R) : R :=
  let p := if (ty =? 30)%Z || (ty =? 31)%Z then 0 else old in
  if negb (ty =? 30)%Z || negb (ty =? 31)%Z then if bg_first b then 0 + bg_p b else p else p.

(** [for (l<n2) for (k<n1) { c = k + l*n1; a[c] = f(k,l,c,a[c]) }]. *)
Definition each_node (n1 n2 : nat) (f : nat -> nat -> nat -> R -> R) (a : nat -> R) : nat -> R :=
  loop 0 n2 (fun a l => loop 0 n1 (fun a k => let c := (k + l * n1)%nat in upd a c (f k l c (a c))) a) a.

(** 346-407. [xg], [zvx], [zg]: coordinates of the velocity nodes. *)
Definition start_fields (nx nz : nat) (t : types) (valu valv : nat -> R) (xg zvx zg : nat -> R)
    (b : background) (f : fields) : fields :=
  apply_bc nx nz t valu valv (Fields
    (each_node nx (nz + 1) (fun k l c old => start_vx b (tu t c) (valu c) (xg k) (zvx l) old) (u_in f))
    (each_node (nx + 1) nz (fun k l c old => start_vz b (tv t c) (valv c) (zg l) old) (v_in f))
    (each_node (nx - 1) (nz - 1) (fun k l c old => start_p b (tp t c) old) (p_in f))).

(** ** The first time step *)

(** AdvectionRoutines.c 524-534: smallest ratio, from 1e100. A ratio with zero shear
    modulus is infinite or no number in C and never the smaller one. *)
Definition min_maxwell (n : nat) (tag : nat -> Z) (eta mu : nat -> R) : R :=
  loop 0 n (fun m k =>
    if negb (tag k =? 30)%Z then
      if Req_EM_T (mu k) 0 then m else if Rlt_dec (eta k / mu k) m then eta k / mu k else m
    else m) (10 ^ 100).

(** 519, 535-541: new [dt], [dt0]. [n = Nx*Nz] vertices. *)
Definition define_dt (elastic constant_dt : bool) (n : nat) (tag : nat -> Z) (eta mu : nat -> R) (dt dt0 : R) : R * R :=
  if elastic && negb constant_dt then
    let m := min_maxwell n tag eta mu in
    if Rlt_dec m dt then (m, m) else (dt, dt0)
  else (dt, dt0).

(** ** Velocities of the surface *)

(** FreeSurface.c 1007-1015 with [back = 1], [w = nx], [rows = nz+1] and 1020-1030 with
    [back = 2], [w = nx+1], [rows = nz]: at every air node the type of the node below
    is read; if that one is rock, the velocity [back] rows below goes to the surface. *)
Definition surface_step (w back : nat) (ty : nat -> Z) (vel : nat -> R) (j : nat) (s : option (nat -> R)) (i : nat) : option (nat -> R) :=
  match s with
  | None => None
  | Some s =>
    let c := (i + j * w)%nat in
    if (ty c =? 30)%Z then
      if (c <? w)%nat then None else
      if negb (ty (c - w)%nat =? 30)%Z then
        if (c <? back * w)%nat then None else Some (upd s i (vel (c - back * w)%nat))
      else Some s
    else Some s
  end.
Definition surface_nodes (w rows back : nat) (ty : nat -> Z) (vel : nat -> R) (s : nat -> R) : option (nat -> R) :=
  loop 0 rows (fun s j => loop 0 w (surface_step w back ty vel j) s) (Some s).
Definition surface_vx (nx nz : nat) := surface_nodes nx (nz + 1) 1.
Definition surface_vz (nx nz : nat) := surface_nodes (nx + 1) nz 2.

(** 1040-1046 with [n = nx] and 1052-1058 with [n = nx+1]: from the [n] surface nodes
    with coordinates [xs] to a chain marker at [x]. *)
Definition at_chain (n : nat) (dx : R) (xs : nat -> R) (s : nat -> R) (x : R) : R :=
  let i := Z.to_nat (cell_of x (xs 0%nat) dx (Z.of_nat n)) in
  let dxm := x - xs i in
  (1 - dxm / dx) * s i + dxm / dx * s (i + 1)%nat.
