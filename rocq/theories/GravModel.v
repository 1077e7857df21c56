(** * Weight: density on the grid, lithostatic pressure, body forces

    Transcription of
    - MDLIB/RheologyDensity.c 1498-1535 [UpdateDensity] (the vertices are GridModel),
    - MDLIB/FreeSurface.c 852-871 [SurfaceDensityCorrection] (cell centres),
    - MDLIB/GridRoutines.c 415-465 [ComputeLithostaticPressure] with mode 1, the only mode
      used (Main_DOODZ.c 274, 558); the side stresses of 469-515 are read nowhere and left out,
    - MDLIB/StokesRoutines.c 953-1091 [EvaluateRHS], the forces and the components of gravity;
      elastic forces are commented out there.
    [double] is [R]; arrays are functions of the flat index. *)
From Coq Require Import List ZArith Reals Bool Arith.
From Verif Require Import GridModel RheoModel.
Import ListNotations.
Local Open Scope R_scope.

(** The test [!= 30 && != 31] of GridRoutines.c 444, 461. *)
Definition rock (t : Z) : bool := negb (t =? 30)%Z && negb (t =? 31)%Z.

(** ** Density of one cell (RheologyDensity.c 1513-1525)

    [l] lists volume fraction and density of the phases; [t] is the cell's type. *)
Definition cell_density (t : Z) (l : list (R * R)) : R :=
  fold_left (fun a fr =>
    if Rltb (/ 10 ^ 13) (Rabs (fst fr)) then
      if negb (t =? 30)%Z then a + fst fr * snd fr else a
    else a) l 0.

Section Column.
Variables (ncx ncz : nat) (tp : nat -> Z).

(** ** Density near the free surface (FreeSurface.c 852-871)

    [h i] is the height of the surface above the centre of column [i] (858), [zc] the heights of
    the centres, [unit] the density that one code unit stands for. Types beyond the last row are
    whatever [tp] says there; the code reads past the end (C96_surface_bounds_refuted). *)
Definition surface_density (h zc : nat -> R) (dz unit : R) (rho : nat -> R) : nat -> R :=
  loop 0 ncz (fun rho j => loop 0 ncx (fun rho i =>
    let c1 := (i + j * ncx)%nat in
    let rho := if (tp c1 =? -1)%Z && (tp (c1 + ncx)%nat =? 31)%Z
               then upd rho c1 (rho c1 * (Rabs (h i - zc j) / dz)) else rho in
    if (tp c1 =? 30)%Z || (tp c1 =? 31)%Z then upd rho c1 (1 / unit) else rho) rho) rho.

(** The indices read by 857, in order. *)
Definition surface_reads : list nat :=
  flat_map (fun j => flat_map (fun i =>
    let c1 := (i + j * ncx)%nat in
    if (tp c1 =? -1)%Z then [c1; (c1 + ncx)%nat] else [c1]) (seq 0 ncx)) (seq 0 ncz).

(** ** Lithostatic pressure *)
Variables (gz dz bkg : R) (rho : nat -> R).

(** GridRoutines.c 432-449: from the row below the top one downwards. *)
Definition weigh_cell (l : nat) (p : nat -> R) (k : nat) : nat -> R :=
  let c := (k + l * ncx)%nat in
  let p := upd p c 0 in
  if rock (tp c) then upd p c (p (c + ncx)%nat - gz * dz * rho c) else p.
Definition weigh (p : nat -> R) : nat -> R :=
  loop 0 (ncz - 1) (fun p i => loop 0 ncx (weigh_cell (ncz - 2 - i)) p) p.

(** 451-465. *)
Definition confine_cell (p : nat -> R) (c : nat) : nat -> R :=
  if rock (tp c) then
    let p := upd p c (p c + bkg) in
    upd p c (p c + 1 / 2 * gz * dz * rho c)
  else p.
Definition confine (p : nat -> R) : nat -> R :=
  loop 0 ncz (fun p l => loop 0 ncx (fun p k => confine_cell p (k + l * ncx)) p) p.

(** 429-465; the array is zeroed first. *)
Definition lithostatic : nat -> R := confine (weigh (fun _ => 0)).
End Column.

(** ** Body forces (StokesRoutines.c 953-1091) *)

(** 963-971 and 1033-1041: the component of gravity used at a node at [(x, z)]; [g] is the
    component of the input file, [gz] the vertical one, [f] is [cos] for Vx nodes, [sin] for Vz
    nodes. For [x = 0] the code divides by zero. *)
Definition component (polar : bool) (f : R -> R) (g gz x z : R) : R :=
  if polar then
    let tet := atan (z / x) in
    let g := if Rltb 0 tet then gz * f tet else g in
    if Rltb tet 0 then - gz * f tet else g
  else g.
Definition gravity_x (polar : bool) (gx gz x z : R) : R := component polar cos gx gz x z.
Definition gravity_z (polar : bool) (gz x z : R) : R := component polar sin gz gz x z.

Section Force.
Variables (Nx Nz : Z) (polar : bool) (gx gz : R).
Variables (xg zg xvz zvx : Z -> R) (tu tv tp : Z -> Z) (rho_n rho_s : Z -> R).
(** [surface_processes], [free_surface_stab], [surf_Vinc], [surf_Winc], [dt], [dz] *)
Variables (sp : Z) (om Vinc Winc dt dz : R).
Local Open Scope Z_scope.

(** 955-1009 *)
Definition force_x (k l : Z) : R :=
  let c := k + l * Nx in
  let c2 := k + (l - 1) * (Nx - 1) in
  let g := gravity_x polar gx gz (xg k) (zvx l) in
  let r :=
    if (0 <? l) && (l <? Nz) && ((tu c =? -1) || (tu c =? 2) || (tu c =? -2)) then
      let iPrW := if tu c =? -2 then c2 + (Nx - 1) - 1 else c2 - 1 in
      let rhoVx := if polar then (1 / 2 * (rho_n iPrW + rho_n c2))%R
                   else (1 / 2 * (rho_s (c - Nx) + rho_s c))%R in
      (- g * rhoVx)%R
    else 0%R in
  (- r)%R.

(** 1024-1090 *)
Definition force_z (k l : Z) : R :=
  let c := k + l * (Nx + 1) in
  let iPrS := k - 1 + (l - 1) * (Nx - 1) in
  let iPrN := iPrS + (Nx - 1) in
  let g := gravity_z polar gz (xvz k) (zg l) in
  let r :=
    if (0 <? k) && (k <? Nx) && (tv c =? -1) then
      let rhoVz := (1 / 2 * (rho_n iPrS + rho_n iPrN))%R in
      let r := (- g * rhoVz)%R in
      if (1 <=? sp) && (negb (rock (tp iPrS)) || negb (rock (tp iPrN)))
         && negb (Rltb (1 / 2 * Winc) (Rabs (xvz k)))
      then let drhodz := ((rho_n iPrN - rho_n iPrS) / dz)%R in
           (r + -1 * om * - Vinc * dt * g * drhodz * 2)%R
      else r
    else 0%R in
  (- r)%R.
End Force.
