(** * Anisotropic material: orientation averages, stiffness, stress, director update

    Transcription of MDLIB/StokesRoutines.c 73-250 (RheologicalOperators, Picard part),
    MDLIB/RheologyDensity.c 46-76 (EffectiveStrainRate), MDLIB/AnisotropyRoutines.c
    51, 55-63, 173-177, 255-257, 286-288, 296-298, 553-559, 574, 677-684, 829-845 and
    MDLIB/RheologyParticles.c 1438-1457, 1622-1648 and the orientation cases of
    MDLIB/ParticleRoutines.c 2111-2125 (P2Mastah). Doubles are reals. *)
From Coq Require Import ZArith Reals List Bool.
Import ListNotations.
From Verif Require Import P2GModel.
Local Open Scope R_scope.

(** ParticleRoutines.c 2111-2115, 2117-2121, 2123-2125: what a marker contributes
    to the grid averages [d1], [d2], [angle]. *)
Definition marker_d1 (nx nz : R) : R := 2 * nx ^ 2 * nz ^ 2.
Definition marker_d2 (nx nz : R) : R := nx * nz * (- nx ^ 2 + nz ^ 2).
Definition marker_angle (nx : R) : R := acos nx.

(** ParticleRoutines.c 2141-2143 and 2288: the grid value is the weighted average
    of the contributions (weights are those of the markers near the node). *)
Definition waverage (l : list (R * R)) : R :=
  fold_right (fun wv s => fst wv * snd wv + s) 0 l / fold_right (fun wv s => fst wv + s) 0 l.

(** AnisotropyRoutines.c 51. *)
Definition aniso_factor_evolv (fs_ar fac_max : R) : R := Rmin fs_ar fac_max.

(** StokesRoutines.c 99-120 and 181-205 ([aniS_vep], [D11_n] ... [D33_s]). The code
    stores rows 1, 2 at cell centres and row 3 at vertices; one material point is
    considered here. Columns are [exx], [ezz], [gxz = 2 exz]. *)
Record stiffness : Type := Stiffness {
  k11 : R; k12 : R; k13 : R; k21 : R; k22 : R; k23 : R; k31 : R; k32 : R; k33 : R }.
Definition aniS (anisotropy : bool) (fac : R) : R := if anisotropy then 1 - 1 / fac else 0.
Definition picard_operator (anisotropy : bool) (eta fac d1' d2' : R) : stiffness :=
  let a := aniS anisotropy fac in
  let d1 := if anisotropy then d1' else 0 in
  let d2 := if anisotropy then d2' else 0 in {|
  k11 := 2 * eta - 2 * a * d1 * eta; k12 := 2 * a * d1 * eta; k13 := - 2 * a * d2 * eta;
  k21 := 2 * a * d1 * eta; k22 := 2 * eta - 2 * a * d1 * eta; k23 := 2 * a * d2 * eta;
  k31 := - 2 * a * d2 * eta; k32 := 2 * a * d2 * eta; k33 := eta + 2 * a * (d1 - / 2) * eta |}.

(** A symmetric 2x2 tensor as three numbers (xx, zz, xz). *)
Record ten : Type := Ten { txx : R; tzz : R; txz : R }.

(** StokesRoutines.c 151-152 and 224: operator applied to a strain rate. *)
Definition apply_op (k : stiffness) (e : ten) : ten := {|
  txx := k11 k * txx e + k12 k * tzz e + k13 k * (2 * txz e);
  tzz := k21 k * txx e + k22 k * tzz e + k23 k * (2 * txz e);
  txz := k31 k * txx e + k32 k * tzz e + k33 k * (2 * txz e) |}.

(** AnisotropyRoutines.c 677-684 (and 802-809): the stress stored on the grid. *)
Definition grid_stress (eta fac d1 d2 : R) (e : ten) : ten :=
  let a := 1 - 1 / fac in {|
  txx := 2 * eta * (txx e * (1 - a * d1) + tzz e * a * d1 - 2 * txz e * a * d2);
  tzz := 2 * eta * (tzz e * (1 - a * d1) + txx e * a * d1 + 2 * txz e * a * d2);
  txz := 2 * eta * (- txx e * a * d2 + tzz e * a * d2 + 2 * txz e * (a * (d1 - / 2) + / 2)) |}.

(** RheologyDensity.c 46-76 (EffectiveStrainRate). [ani] is the factor [aniS_e]. *)
Definition effective_strain_rate (e t0 : ten) (d1 d2 ani eta_e : R) (elastic : bool) : ten :=
  if elastic then
    let Da11 := 2 - 2 * ani * d1 in let Da12 := 2 * ani * d1 in let Da13 := - 2 * ani * d2 in
    let Da22 := 2 - 2 * ani * d1 in let Da23 := 2 * ani * d2 in let Da33 := 1 + 2 * ani * (d1 - / 2) in
    let a11 := Da33 * Da22 - Da23 ^ 2 in let a12 := Da13 * Da23 - Da33 * Da12 in
    let a13 := Da12 * Da23 - Da13 * Da22 in let a22 := Da33 * Da11 - Da13 ^ 2 in
    let a23 := Da12 * Da13 - Da11 * Da23 in let a33 := Da11 * Da22 - Da12 ^ 2 in
    let det := Da11 * a11 + Da12 * a12 + Da13 * a13 in
    {| txx := txx e + (a11 / det * txx t0 + a12 / det * tzz t0 + a13 / det * txz t0) / eta_e;
       tzz := tzz e + (a12 / det * txx t0 + a22 / det * tzz t0 + a23 / det * txz t0) / eta_e;
       txz := txz e + (a13 / det * txx t0 + a23 / det * tzz t0 + a33 / det * txz t0) / eta_e / 2 |}
  else e.

(** AnisotropyRoutines.c 61-63 (I2) on the rotated strain rate of 173-177, and the
    local stress of 255-257, 286-288, 296-298. [lxlz], [lx2] come from the averaged angle
    (556-559). The viscosity [eta_ve] is computed in between from the invariant
    [Eii] only (182-248); it is an argument here. *)
Definition layer_lxlz (angle : R) : R := cos (angle - PI / 2) * sin (angle - PI / 2).
Definition layer_lx2 (angle : R) : R := cos (angle - PI / 2) * cos (angle - PI / 2).
Definition rotated_strain (lxlz lx2 : R) (e : ten) : ten := {|
  txx := lx2 * txx e + (1 - lx2) * tzz e + 2 * lxlz * txz e;
  tzz := (1 - lx2) * txx e + lx2 * tzz e - 2 * lxlz * txz e;
  txz := - lxlz * txx e + lxlz * tzz e + (lx2 - (1 - lx2)) * txz e |}.
Definition I2 (e : ten) : R :=
  let yy := - txx e - tzz e in / 2 * (txx e ^ 2 + tzz e ^ 2 + yy ^ 2) + txz e ^ 2.
Definition local_Eii (angle : R) (e : ten) : R := sqrt (I2 (rotated_strain (layer_lxlz angle) (layer_lx2 angle) e)).
Definition local_stress (angle fac eta_ve : R) (e : ten) : ten :=
  let lxlz := layer_lxlz angle in let lx2 := layer_lx2 angle in
  let r := rotated_strain lxlz lx2 e in
  let t := {| txx := 2 * eta_ve * txx r; tzz := 2 * eta_ve * tzz r; txz := 2 * eta_ve * txz r / fac |} in {|
  txx := lx2 * txx t + (1 - lx2) * tzz t - 2 * lxlz * txz t;
  tzz := (1 - lx2) * txx t + lx2 * tzz t + 2 * lxlz * txz t;
  txz := lxlz * txx t - lxlz * tzz t + (lx2 - (1 - lx2)) * txz t |}.

(** AnisotropyRoutines.c 832-844 (InitialiseDirectorVector) for one active marker.
    [polar]: the angle is measured from the local vertical. *)
Definition initial_director (angle : R) (polar : bool) (x z : R) : R * R :=
  let a := if polar then angle - atan (x / z) else angle in
  let nx := cos a in let nz := sin a in
  let norm := sqrt (nx * nx + nz * nz) in (nx / norm, nz / norm).

(** RheologyParticles.c 1445-1455: director update with the velocity gradient at the
    marker (dudx dudz dvdx dvdz). *)
Definition director_update (dt dudx dudz dvdx dvdz : R) (n : R * R) : R * R :=
  let nx := fst n in let nz := snd n in
  let nx' := nx + dt * (- (dudx - dvdz) * nx * nz - dvdx * nz * nz + dudz * nx * nx) * nz in
  let nz' := nz + dt * ((dudx - dvdz) * nx * nz + dvdx * nz * nz - dudz * nx * nx) * nx in
  let norm := sqrt (nx' ^ 2 + nz' ^ 2) in (nx' / norm, nz' / norm).

(** RheologyParticles.c 1634-1644: rotation of the marker stress with the marker's
    vorticity value [w]; [mode] is [stress_rotation]. *)
Inductive rotation_mode := NoRotation | Jaumann | Analytical.
Definition rotate_stress (mode : rotation_mode) (dt w : R) (t : ten) : ten :=
  match mode with
  | NoRotation => t
  | Jaumann => {| txx := txx t - dt * 2 * txz t * w; tzz := tzz t - - dt * 2 * txz t * w;
                  txz := txz t - dt * (tzz t - txx t) * w |}
  | Analytical => let a := dt * w in {|
      txx := (txx t * cos a + txz t * sin a) * cos a + (txz t * cos a + tzz t * sin a) * sin a;
      tzz := - (- txx t * sin a + txz t * cos a) * sin a + (- txz t * sin a + tzz t * cos a) * cos a;
      txz := - (txx t * cos a + txz t * sin a) * sin a + (txz t * cos a + tzz t * sin a) * cos a |}
  end.

(** RheologyParticles.c 1625-1648. The buffer [wxzm] is allocated zeroed (1625) and
    is the *input* of the marker-to-grid interpolation of line 1626 whose *output*
    is the vorticity of the grid; it is never written. [p2g values field] is that
    interpolation (new grid field from marker values and old field). *)
Definition stress_rotation_phase (mode : rotation_mode) (dt : R)
    (p2g : (nat -> R) -> (Z -> R) -> Z -> R)
    (wxz : Z -> R) (active : nat -> bool) (stress : nat -> ten) : (Z -> R) * (nat -> ten) :=
  let wxzm := fun _ : nat => 0 in
  let wxz' := p2g wxzm wxz in
  (wxz', fun k => if active k then rotate_stress mode dt (wxzm k) (stress k) else stress k).

(** The interpolation of line 1626: P2Mastah with flag 1 (values from the array),
    arithmetic averaging. [ms] are the markers, [tag] the vertex types. *)
Definition p2mastah_values (s : stencil) (per : bool) (g : nodes) (ms : list marker) (tag : Z -> Z)
    (values : nat -> R) (field : Z -> R) (k : Z) : R :=
  node_value Arithmetic s per g
    (map (fun p => Marker (mx (snd p)) (mz (snd p)) (mph (snd p)) (values (fst p))) (combine (seq 0 (length ms)) ms))
    (tag k) (field k) k.
