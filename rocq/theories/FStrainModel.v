(** * Strain memory of markers

    Transcription of MDLIB/RheologyParticles.c
    - 188-530 (AccumulatedStrainII, called at Main_DOODZ.c 1069 with the cell centres),
    - 536-615 (DeformationGradient),
    - 621-665 (FiniteStrainAspectRatio, without the interpolation to the grid, C50),
    - 752-765 (UpdateMaxPT),
    for one marker (the loops over markers write distinct entries). Doubles are reals. *)
From Coq Require Import ZArith Reals Bool.
From Verif Require Import P2GModel AdvModel ItpModel.
Local Open Scope R_scope.

(** ** Accumulated strain *)
(** eII of each mechanism in the cells. *)
Record rates : Type := Rates { r_pl : Z -> R; r_pwl : Z -> R; r_exp : Z -> R; r_lin : Z -> R; r_gbs : Z -> R; r_el : Z -> R; r_cst : Z -> R }.
(** 211 *)
Definition inc_total (dt : R) (r : rates) (c : Z) : R :=
  dt * (r_pl r c + r_pwl r c + r_exp r c + r_lin r c + r_gbs r c + r_el r c + r_cst r c).

(** 246-330, 498-507: the increment of one marker for the cell increments [f]; X_vect = xc_coord, Nx = mesh->Nx - 1. *)
Definition strain_inc (m : mesh) (f : Z -> R) (tag : Z -> Z) (ph : Z) (x z : R) : R :=
  if (ph =? -1)%Z then 0 else
  let Nx := (NX m - 1)%Z in let Nz := (NZ m - 1)%Z in
  let j := below (x - xc m 0) (DX m) in
  let j := if (j <? 0)%Z then 0%Z else j in
  let j := if (Nx - 2 <? j)%Z then (Nx - 2)%Z else j in
  let i := below (z - zc m 0) (DZ m) in
  let i := if (i <? 0)%Z then 0%Z else i in
  let i := if (Nz - 2 <? i)%Z then (Nz - 2)%Z else i in
  dropped f tag (square Nx i j) ((x - xc m j) / DX m) ((z - zc m i) / DZ m).

Record strains : Type := Strains { s_tot : R; s_el : R; s_pl : R; s_pwl : R; s_exp : R; s_lin : R; s_gbs : R }.
(** 219-224, 511-517; the check 213-217 is [None]. *)
Definition accumulate (m : mesh) (dt : R) (r : rates) (tag : Z -> Z) (ph : Z) (x z : R) (s : strains) : strains :=
  let inc f := strain_inc m f tag ph x z in
  Strains (s_tot s + inc (inc_total dt r)) (s_el s + inc (fun c => dt * r_el r c)) (s_pl s + inc (fun c => dt * r_pl r c))
    (s_pwl s + inc (fun c => dt * r_pwl r c)) (s_exp s + inc (fun c => dt * r_exp r c)) (s_lin s + inc (fun c => dt * r_lin r c))
    (s_gbs s + inc (fun c => dt * r_gbs r c)).
Definition stops (dt : R) (r : rates) (cells : Z) : Prop := exists c, (0 <= c < cells)%Z /\ inc_total dt r c < 0.

(** ** Deformation gradient *)
Record tens : Type := Tens { xx : R; xz : R; zx : R; zz : R }.
(** 591-603; [l] holds pdudx, pdudz, pdvdx, pdvdz. *)
Definition stretch (dt : R) (l f : tens) : tens :=
  let fxx := 1 + xx l * dt in let fxz := xz l * dt in let fzz := 1 + zz l * dt in let fzx := zx l * dt in
  Tens (fxx * xx f + fxz * zx f) (fxx * xz f + fxz * zz f) (fzx * xx f + fzz * zx f) (fzx * xz f + fzz * zz f).

(** 561-581: gradients on the grid; [k], [l] are recovered from the entry. *)
Section Grad.
  Variables (m : mesh) (u v : Z -> R).
  Definition g_dudx (c : Z) : R :=
    let k := (c mod (NX m - 1))%Z in let l := (c / (NX m - 1))%Z in
    let cu := (k + l * NX m + NX m)%Z in 1 / DX m * (u (cu + 1)%Z - u cu).
  Definition g_dvdz (c : Z) : R :=
    let k := (c mod (NX m - 1))%Z in let l := (c / (NX m - 1))%Z in
    let cv := (k + l * (NX m + 1) + 1)%Z in 1 / DZ m * (v (cv + (NX m + 1))%Z - v cv).
  Definition g_dudz (c : Z) : R :=
    1 / DZ m * (u (c + NX m)%Z - u c).
  Definition g_dvdx (c : Z) : R :=
    let k := (c mod NX m)%Z in let l := (c / NX m)%Z in
    let cv := (k + l * (NX m + 1))%Z in 1 / DX m * (v (cv + 1)%Z - v cv).
  (** 584-587 and the update; [None]: an interpolation stops the program or is undefined. *)
  Definition deform (per : bool) (tagp tagg : Z -> Z) (ph : Z) (x z dt : R) (f : tens) : option tens :=
    match from_centres per m g_dudx tagp ph x z, from_centres per m g_dvdz tagp ph x z,
          from_vertices m g_dvdx tagg ph x z, from_vertices m g_dudz tagg ph x z with
    | Val a, Val b, Val c, Val d => Some (stretch dt (Tens a d c b) f)
    | _, _, _, _ => None
    end.
End Grad.

(** ** Aspect ratio (632-655) *)
Definition cauchy_green (f : tens) : tens :=
  Tens (xx f * xx f + zx f * zx f) (xx f * xz f + zx f * zz f) (xx f * xz f + zx f * zz f) (xz f * xz f + zz f * zz f).
Definition tens_sqrt (c : tens) : tens :=
  let tr := xx c + zz c in let det := xx c * zz c - xz c * zx c in
  let s := sqrt det in let t := sqrt (tr + 2 * s) in
  Tens (1 / t * (xx c + s)) (1 / t * xz c) (1 / t * zx c) (1 / t * (zz c + s)).
Definition eigen1 (u : tens) : R := let tr := xx u + zz u in let det := xx u * zz u - xz u * zx u in tr / 2 + sqrt (tr * tr / 4 - det).
Definition eigen2 (u : tens) : R := let tr := xx u + zz u in let det := xx u * zz u - xz u * zx u in tr / 2 - sqrt (tr * tr / 4 - det).
(** [None]: division by zero. *)
Definition aspect_ratio (f : tens) : option R :=
  let u := tens_sqrt (cauchy_green f) in
  if Req_EM_T (eigen2 u) 0 then None else Some (eigen1 u / eigen2 u).

(** ** Maxima (760-761) *)
Definition max_update (now best : R) : R := if Rltb best now then now else best.
