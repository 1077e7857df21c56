(** * Time series of the output file

    Transcription of MDLIB/RheologyDensity.c 1983-2001 (LogTimeSeries) and 2007-2070
    (ComputeMeanQuantitesForTimeSeries), of the energy sums in
    MDLIB/ThermalRoutines.c 82, 174-175, 407-432, and of the order of the updates in
    MDLIB/Main_DOODZ.c 79, 128-129, 392-393, 426, 435, 454, 1006-1007, 1047. Doubles are reals. *)
From Coq Require Import ZArith Reals List Bool.
Import ListNotations.
From Verif Require Import OptionsModel ItpModel.
Local Open Scope R_scope.

(** The ten averaged quantities. *)
Inductive avg := aT | aP | aSxx | aSzz | aSxz | aTii | aExx | aEzz | aExz | aEii.

(** Arrays of the mesh that are read: T, p_in, sxxd, szzd, exxd, ezzd on cells, sxz, exz on vertices. *)
Record fields : Type := Fields { fT : Z -> R; fP : Z -> R; fSxx : Z -> R; fSzz : Z -> R; fExx : Z -> R; fEzz : Z -> R; fSxz : Z -> R; fExz : Z -> R }.

Section Means.
Variables (m : mesh) (tag : Z -> Z) (f : fields).
Definition ncells : Z := ((NX m - 1) * (NZ m - 1))%Z.
(** GridRoutines.c 576-582: kp, lp *)
Definition kp (k1 : Z) : Z := (k1 mod (NX m - 1))%Z.
Definition lp (k1 : Z) : Z := (k1 / (NX m - 1))%Z.
(** 2024-2029 *)
Definition cell_of (k1 : Z) : Z := (kp k1 + lp k1 * (NX m - 1))%Z.
Definition four (g : Z -> R) (k1 : Z) : R :=
  let k := kp k1 in let l := lp k1 in let Nvx := NX m in
  25 / 100 * (g (k + l * Nvx)%Z + g (k + l * Nvx + 1)%Z + g (k + (l + 1) * Nvx)%Z + g (k + (l + 1) * Nvx + 1)%Z).
(** 2034-2049: what one cell adds to each sum *)
Definition adds (q : avg) (k1 : Z) : R :=
  let c := cell_of k1 in
  match q with
  | aT => fT f c | aP => fP f c
  | aSxx => fSxx f c | aSzz => fSzz f c | aSxz => four (fSxz f) k1
  | aTii => sqrt (1 / 2 * (fSxx f c ^ 2 + fSzz f c ^ 2) + four (fSxz f) k1 ^ 2)
  | aExx => fExx f c | aEzz => fEzz f c | aExz => four (fExz f) k1
  | aEii => sqrt (1 / 2 * (fExx f c ^ 2 + fEzz f c ^ 2) + four (fExz f) k1 ^ 2)
  end.
(** The private sum and counter of one thread over the indices it received (2021-2052). *)
Definition thread_sum (q : avg) (ks : list Z) : R * Z :=
  fold_left (fun a k1 => if rockb (tag (cell_of k1)) then (fst a + adds q k1, (snd a + 1)%Z) else a) ks (0, 0%Z).
(** The reduction adds the private results in some order; 2055-2064 divides. The
    division by a zero count gives a NaN, here [None]. *)
Definition mean (q : avg) (threads : list (list Z)) : option R :=
  let s := fold_left (fun a t => (fst a + fst (thread_sum q t), (snd a + snd (thread_sum q t))%Z)) threads (0, 0%Z) in
  if (snd s =? 0)%Z then None else Some (fst s / IZR (snd s)).
End Means.

(** ** One row of the series *)
Record row : Type := Row { r_Uth : R; r_Uel : R; r_Work : R; r_Time : R; r_Short : R; r_avg : avg -> R }.
(** 1985-1999. *)
Definition avg_unit (s : scale) (q : avg) : R :=
  match q with aT => s_T s | aP | aSxx | aSzz | aSxz | aTii => s_S s | aExx | aEzz | aExz | aEii => s_E s end.
Definition log_row (s : scale) (Uth Uel W time L0 xmin xmax : R) (mean : avg -> R) : row :=
  Row (Uth * s_S s * s_L s * s_L s) (Uel * s_S s * s_L s * s_L s) (W * s_S s * s_L s * s_L s)
      (time * s_t s) ((L0 - (xmax - xmin)) / L0 * 100) (fun q => mean q * avg_unit s q).

(** ** Energy sums (one call of EnergyDirectSolve) *)
(** ThermalRoutines.c 407-432: dUt over the cells whose flag is not 30, times dx dz. *)
Definition heat_gain (dx dz : R) (cells : list Z) (air : Z -> bool) (rho Cp T Tnew : Z -> R) : R :=
  fold_left (fun a c => if air c then a else a + rho c * Cp c * (Tnew c - T c)) cells 0 * dx * dz.
(** 82, 174-175: dUe and dW are set to zero and added; nothing else is done with them. *)
Definition elastic_gain : R := 0.
Definition work_gain : R := 0.

(** ** The run *)
(** What a step brings: its dt, heat gain, means at its end, and the bounds after the
    box has been moved (Main_DOODZ.c 1047, after the logging). *)
Record step_in : Type := StepIn { i_dt : R; i_heat : R; i_mean : avg -> R; i_xmin : R; i_xmax : R }.
Record run : Type := Run { u_step : nat; u_time : R; u_Uth : R; u_Uel : R; u_Work : R; u_xmin : R; u_xmax : R; u_rows : nat -> option row }.
Definition log (s : scale) (L0 : R) (mean : avg -> R) (u : run) : run :=
  Run (u_step u) (u_time u) (u_Uth u) (u_Uel u) (u_Work u) (u_xmin u) (u_xmax u)
    (fun k => if Nat.eqb k (u_step u) then Some (log_row s (u_Uth u) (u_Uel u) (u_Work u) (u_time u) L0 (u_xmin u) (u_xmax u) mean) else u_rows u k).
(** 128-129, 392-393 *)
Definition first (s : scale) (xmin xmax : R) (mean : avg -> R) : run :=
  log s (xmax - xmin) mean (Run 0 0 0 0 0 xmin xmax (fun _ => None)).
(** 426, 435-1047: time is advanced first, the box last *)
Definition one_step (s : scale) (L0 : R) (u : run) (i : step_in) : run :=
  let u1 := Run (S (u_step u)) (u_time u + i_dt i) (u_Uth u + i_heat i) (u_Uel u + elastic_gain) (u_Work u + work_gain) (u_xmin u) (u_xmax u) (u_rows u) in
  let u2 := log s L0 (i_mean i) u1 in
  Run (u_step u2) (u_time u2) (u_Uth u2) (u_Uel u2) (u_Work u2) (i_xmin i) (i_xmax i) (u_rows u2).
Definition whole (s : scale) (xmin xmax : R) (mean0 : avg -> R) (is : list step_in) : run :=
  fold_left (one_step s (xmax - xmin)) is (first s xmin xmax mean0).
