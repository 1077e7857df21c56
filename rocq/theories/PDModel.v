(** * Density tables: phase diagrams, the quartz-coesite table, evaluation of the density

    Transcription of
    - MDLIB/InputOutput.c 1398-1474 (one-dimensional table), 1476-1645 (ten phase
      diagrams), 1651-1663 (kinetic table), 1701-1714 ([ReadBin]),
    - MDLIB/RheologyDensity.c 1426-1491 ([EvaluateDensity]); the look-ups are those of
      MatGridModel.

    Doubles are reals. A file is the list of doubles it holds, [None] if it cannot be
    opened. Entries of an array that were never written are [None]. *)
From Coq Require Import List ZArith Reals Bool.
Import ListNotations.
From Verif Require Import GridModel RheoModel MatGridModel.
Local Open Scope R_scope.

(** ** The data base *)

(** [PDMnT], [PDMnP], [PDMTmin], [PDMTmax], [PDMPmin], [PDMPmax] (K and Pa). *)
Record diagram := Diagram { d_nT : Z; d_nP : Z; d_Tmin : R; d_Tmax : R; d_Pmin : R; d_Pmax : R }.

(** InputOutput.c 1504-1643, in the order of [pid]. *)
Definition diagrams : list diagram := [
  Diagram 1000 1000 473 2273 (100 * 10 ^ 6) (15 * 10 ^ 9);
  Diagram 1500 1500 273 2273 (10 ^ 5) (25 * 10 ^ 9);
  Diagram 1000 1000 573 1273 (100 * 10 ^ 6) (51 / 10 * 10 ^ 9);
  Diagram 1249 1249 373 1373 (1013 / 100 * 10 ^ 6) (55816 / 10000 * 10 ^ 9);
  Diagram 793 793 373 1373 (1013 / 100 * 10 ^ 6) (55816 / 10000 * 10 ^ 9);
  Diagram 1249 1249 373 1373 (1013 / 100 * 10 ^ 6) (55816 / 10000 * 10 ^ 9);
  Diagram 1249 1249 373 1373 (1013 / 100 * 10 ^ 6) (55816 / 10000 * 10 ^ 9);
  Diagram 1249 1249 373 1373 (1013 / 100 * 10 ^ 6) (55816 / 10000 * 10 ^ 9);
  Diagram 793 793 373 1373 (1013 / 100 * 10 ^ 6) (55816 / 10000 * 10 ^ 9);
  Diagram 675 2500 (398 + 1 / 1000) (800 + 273) (9 / 1000 / 10 * 10 ^ 9) (49989 / 1000 / 10 * 10 ^ 9)].
(** 1656-1661. *)
Definition kinetic_diagram : diagram :=
  Diagram 675 2500 (398 + 1 / 1000) (800 + 273) (9 / 1000 / 10 * 10 ^ 9) (49989 / 1000 / 10 * 10 ^ 9).

(** The divisions by [scaling.T] and [scaling.S] (1513-1516 etc.). *)
Definition in_units (sT sS : R) (d : diagram) : diagram :=
  Diagram (d_nT d) (d_nP d) (d_Tmin d / sT) (d_Tmax d / sT) (d_Pmin d / sS) (d_Pmax d / sS).

(** 1701-1714: [malloc], [fread] of at most [n] entries without looking at the number
    read, division by the unit. Exit 2 without the file. *)
Inductive loaded := Table (a : Z -> option R) | NoFile.
Definition read_bin (file : option (list R)) (n : Z) (scale : R) : loaded :=
  match file with
  | None => NoFile
  | Some f => Table (fun i =>
      if (0 <=? i)%Z && (i <? n)%Z then
        match nth_error f (Z.to_nat i) with Some v => Some (v * (1 / scale)) | None => None end
      else None)
  end.

(** RheologyDensity.c 1618-1656 on such an array. *)
Definition lookup2 (T P : R) (d : diagram) (a : Z -> option R) : option R :=
  let dT := (d_Tmax d - d_Tmin d) / (IZR (d_nT d) - 1) in
  let dP := (d_Pmax d - d_Pmin d) / (IZR (d_nP d) - 1) in
  let T := into T (d_Tmin d) (d_Tmax d) dT in
  let P := into P (d_Pmin d) (d_Pmax d) dP in
  let iT := west T (d_Tmin d) dT in
  let iP := west P (d_Pmin d) dP in
  let wT := weight T (d_Tmin d) dT in
  let wP := weight P (d_Pmin d) dP in
  obind (a (iT + (iP + 1) * d_nT d + 1))%Z (fun ne =>
  obind (a (iT + (iP + 1) * d_nT d))%Z (fun nw =>
  obind (a (iT + iP * d_nT d + 1))%Z (fun se =>
  obind (a (iT + iP * d_nT d))%Z (fun sw =>
    Some ((1 - wT) * (1 - wP) * ne + wT * (1 - wP) * nw + (1 - wT) * wP * se + wT * wP * sw))))).

(** ** The quartz-coesite table *)

(** 1418-1432: [calloc], [fread] without looking at the number read, division. *)
Definition read_1d (f : list R) (rho : R) : nat -> R :=
  fun i => match nth_error f i with Some v => v / rho | None => 0 end.

(** 1437-1438, 1443-1449: one explicit diffusion step. *)
Definition smooth_step (n : nat) (dP : R) (a : nat -> R) : nat -> R :=
  let K := 1 in
  let dt := dP * dP / K / (21 / 10) in
  let r0 := a in
  loop 1 (n - 2) (fun a ix =>
    let qW := - K * (r0 ix - r0 (ix - 1)%nat) / dP in
    let qE := - K * (r0 (ix + 1)%nat - r0 ix) / dP in
    upd a ix (r0 ix - dt * (qE - qW) / dP)) a.
(** 1442: [n_steps] steps. *)
Definition smooth_table (steps n : nat) (dP : R) (a : nat -> R) : nat -> R :=
  loop 0 steps (fun a _ => smooth_step n dP a) a.

(** 1413-1415, 1424, 1439. *)
Definition n_1d : nat := 10000.
Definition steps_1d : nat := 200.
Definition pmin_1d (sS : R) : R := 10 ^ 5 / sS.
Definition pmax_1d (sS : R) : R := 10 ^ 10 / sS.
Definition step_1d (sS : R) : R := (pmax_1d sS - pmin_1d sS) / (INR n_1d - 1).
(** 1408-1472; exit 1 without the file is [None]. *)
Definition table_1d (file : option (list R)) (rho sS : R) : option (nat -> R) :=
  match file with
  | None => None
  | Some f => Some (smooth_table steps_1d n_1d (step_1d sS) (read_1d f rho))
  end.

(** ** Evaluation of the density *)

Record density_mat := DensityMat {
  dm_model : Z; dm_rho : R; dm_drho : R; dm_T0 : R; dm_alp : R; dm_P0 : R; dm_bet : R;
  dm_rho2 : R;                (* rho[reac_phase[p]] *)
  dm_pd : Z }.                (* phase_diagram *)

(** InputOutput.c 1482-1494: exit 5 for a table model without a diagram. *)
Definition checked (l : list density_mat) : bool :=
  forallb (fun m => negb ((dm_model m =? 2)%Z && (dm_pd m =? -1)%Z)) l.

(** RheologyDensity.c 1426-1491. [tables pd] are the diagram and array of index [pd]
    ([None] outside the allocated ten), [d1] the look-up in the one-dimensional table.
    A density_model that matches no case returns an uninitialised variable. *)
Definition evaluate_density (variations : Z) (tables : Z -> option (diagram * (Z -> option R))) (d1 : R -> option R)
  (m : density_mat) (T P X phi : R) : option R :=
  if (dm_model m =? 0)%Z then Some (dm_rho m)
  else if (dm_model m =? 1)%Z then
    let rho := (1 - dm_alp m * (T - dm_T0 m)) * (1 + dm_bet m * (P - dm_P0 m)) in
    Some (((1 - X) * dm_rho m + X * (dm_rho m + dm_drho m)) * rho)
  else if (dm_model m =? 2)%Z then
    match tables (dm_pd m) with Some (d, a) => lookup2 T P d a | None => None end
  else if (dm_model m =? 3)%Z then
    if (variations =? 0)%Z then Some (dm_rho m * exp (dm_bet m * P - dm_alp m * T))
    else if (variations =? 1)%Z then
      Some (((1 - X) * dm_rho m + X * dm_rho2 m) * exp (dm_bet m * P - dm_alp m * T))
    else None
  else if (dm_model m =? 5)%Z then
    let e := exp (dm_bet m * P - dm_alp m * T) in
    Some ((1 - phi) * (dm_rho m * e) + phi * ((dm_rho m + dm_drho m) * e))
  else if (dm_model m =? 4)%Z then d1 P
  else None.

(** The tables of a run: the files in the order of [pid]; every file must be there. *)
Definition all_tables (files : list (option (list R))) (sT sS rho : R) : option (Z -> option (diagram * (Z -> option R))) :=
  let ts := map (fun df => (in_units sT sS (fst df), read_bin (snd df) (d_nT (fst df) * d_nP (fst df)) rho)) (combine diagrams files) in
  if forallb (fun t => match snd t with NoFile => false | Table _ => true end) ts then
    Some (fun pd => if (pd <? 0)%Z then None else
      match nth_error ts (Z.to_nat pd) with Some (d, Table a) => Some (d, a) | _ => None end)
  else None.
