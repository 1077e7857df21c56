(** * Phase averages, softening, lookup tables and strain rates on the grid

    Transcriptions from MDLIB/RheologyDensity.c; doubles are reals. *)
From Coq Require Import Reals List Bool ZArith.
From Verif Require Import RheoModel.
Import ListNotations.
Local Open Scope R_scope.

(** ** Averages over phases *)

(** Contribution of one phase with volume fraction [f] (RheologyDensity.c 905-922 and 1325-1338): arithmetic,
    harmonic, geometric; any other number matches no case of the switch. *)
Definition contrib (avg : nat) (f e : R) : R :=
  match avg with O => f * e | 1%nat => f * 1 / e | 2%nat => f * ln e | _ => 0 end.
(** RheologyDensity.c 971-975, 994-997 and 1344-1347. *)
Definition finish (avg : nat) (x : R) : R :=
  match avg with 1%nat => 1 / x | 2%nat => exp x | _ => x end.
(** RheologyDensity.c 894-896: phases with a fraction of at most 1e-13 are skipped. *)
Definition active (f : R) : bool := Rltb (/ 10 ^ 13) (Rabs f).
Definition sum_active (avg : nat) (l : list (R * R)) : R :=
  fold_left (fun a fe => if active (fst fe) then a + contrib avg (fst fe) (snd fe) else a) l 0.
(** RheologyDensity.c 865-997 for one cell: viscosity from the phases' fractions and viscosities. *)
Definition cell_eta (avg : nat) (l : list (R * R)) : R := finish avg (sum_active avg l).
(** RheologyDensity.c 1299-1350: shear modulus and bulk compressibility, harmonic, all phases. *)
Definition cell_modulus (l : list (R * R)) : R :=
  finish 1 (fold_left (fun a fe => a + contrib 1 (fst fe) (snd fe)) l 0).
(** RheologyDensity.c 1000-1002: stress from the averaged viscosity. *)
Definition cell_stress (eta E : R) : R := 2 * eta * E.

(** ** Strain softening of one parameter of one phase (RheologyDensity.c 1119-1168); [a] initial value,
    [b] final one. *)
Definition soft_linear (soft : bool) (a b s0 s1 strain : R) : R :=
  let c := a in
  let c := if Rltb strain s0 then (if soft then a else c) else c in
  let c := if Rleb s1 strain then (if soft then b else c) else c in
  if Rleb s0 strain && Rltb strain s1 then (if soft then a + (b - a) / (s1 - s0) * strain else c) else c.
(** RheologyDensity.c 1125-1150; [erfc] is a parameter. *)
Definition soft_smooth (erfc : R -> R) (soft : bool) (a b s0 s1 strain : R) : R :=
  if soft then
    let ds := s1 - s0 in
    let mu := 1 / 2 * (s1 + s0) in
    let d := a - b in
    let f := a - d / 2 * erfc (- (strain - mu) / ds) - b in
    let f0 := a - d / 2 * erfc (- (0 - mu) / ds) - b in
    f * d / f0 + b
  else a.

(** ** Lookup tables *)
Definition ceilZ (x : R) : Z := (1 - up (- x))%Z.
(** RheologyDensity.c 1622-1629, 1600-1603: values outside the table are moved 1% of a step inside. *)
Definition into (x mn mx d : R) : R :=
  let x := if Rltb x mn then mn + / 100 * d else x in
  if Rltb mx x then mx - / 100 * d else x.
(** RheologyDensity.c 1631, 1634, 1605. *)
Definition west (x mn d : R) : Z := (ceilZ ((x - mn) / d) - 1)%Z.
Definition weight (x mn d : R) : R := 1 - (x - (mn + IZR (west x mn d) * d)) / d.

(** A read of [data[i]] for [i] outside [0..size-1] is undefined. *)
Definition read (size : Z) (data : Z -> R) (i : Z) : option R :=
  if (0 <=? i)%Z && (i <? size)%Z then Some (data i) else None.
Definition obind {A B} (o : option A) (f : A -> option B) : option B := match o with Some a => f a | None => None end.

(** RheologyDensity.c 1595-1613 (ItpRho1D). *)
Definition table1 (P mn mx : R) (n : Z) (data : Z -> R) : option R :=
  let d := (mx - mn) / (IZR n - 1) in
  let P := into P mn mx d in
  let i := west P mn d in
  let w := weight P mn d in
  obind (read n data i) (fun a => obind (read n data (i + 1)) (fun b => Some (w * a + (1 - w) * b))).

(** RheologyDensity.c 1618-1656 (Interpolate2Ddata). *)
Definition table2 (T P Tmin Tmax Pmin Pmax : R) (nT nP : Z) (data : Z -> R) : option R :=
  let dT := (Tmax - Tmin) / (IZR nT - 1) in
  let dP := (Pmax - Pmin) / (IZR nP - 1) in
  let T := into T Tmin Tmax dT in
  let P := into P Pmin Pmax dP in
  let iT := west T Tmin dT in
  let iP := west P Pmin dP in
  let wT := weight T Tmin dT in
  let wP := weight P Pmin dP in
  let rd := read (nT * nP) data in
  obind (rd (iT + (iP + 1) * nT + 1))%Z (fun ne =>
  obind (rd (iT + (iP + 1) * nT))%Z (fun nw =>
  obind (rd (iT + iP * nT + 1))%Z (fun se =>
  obind (rd (iT + iP * nT))%Z (fun sw =>
    Some ((1 - wT) * (1 - wP) * ne + wT * (1 - wP) * nw + (1 - wT) * wP * se + wT * wP * sw))))).

(** ** Density of one phase (RheologyDensity.c 1426-1494), the models without tables *)
Definition eos_linear (rho drho T0 alpha P0 beta T P X : R) : R :=
  ((1 - X) * rho + X * (rho + drho)) * ((1 - alpha * (T - T0)) * (1 + beta * (P - P0))).
Definition eos_exp (rho alpha beta T P : R) : R := rho * exp (beta * P - alpha * T).
Definition eos_melt (rho drho alpha beta T P phi : R) : R :=
  (1 - phi) * (rho * exp (beta * P - alpha * T)) + phi * ((rho + drho) * exp (beta * P - alpha * T)).

(** ** Strain rates (RheologyDensity.c 1661-1755)

    Arrays are functions of the flat index. [comp] is [model->compressible], [oop] is 1 or 0. *)
Section StrainRate.
  Variables (Nx : nat) (dx dz : R) (comp oop : R).
  Variables (u v : nat -> R) (bcp bcg : nat -> Z).
  (** The cell test at 1692 and 1741, the vertex test at 1722 and 1742-1749. *)
  Definition in_model (c0 : nat) : bool := negb (bcp c0 =? 30)%Z && negb (bcp c0 =? 31)%Z.
  Definition vert_on (c1 : nat) : bool := negb (bcg c1 =? 30)%Z.
  Definition c0 (k l : nat) : nat := k + l * (Nx - 1).
  Definition c1 (k l : nat) : nat := k + l * Nx.
  Definition c2 (k l : nat) : nat := k + l * (Nx + 1).
  (** RheologyDensity.c 1695-1697. *)
  Definition dvxdx (k l : nat) : R := (u (c1 k l + 1 + Nx)%nat - u (c1 k l + Nx)%nat) / dx.
  Definition dvzdz (k l : nat) : R := (v (c2 k l + Nx + 1 + 1)%nat - v (c2 k l + 1)%nat) / dz.
  Definition dvydy (k l : nat) : R := oop * (1 / 2) * (dvxdx k l + dvzdz k l).
  (** RheologyDensity.c 1687-1705. *)
  Definition div_u (k l : nat) : R := if in_model (c0 k l) then dvxdx k l + dvzdz k l + dvydy k l else 0.
  Definition exxd (k l : nat) : R := if in_model (c0 k l) then dvxdx k l - comp * 1 / 3 * div_u k l else 0.
  Definition ezzd (k l : nat) : R := if in_model (c0 k l) then dvzdz k l - comp * 1 / 3 * div_u k l else 0.
  (** RheologyDensity.c 1720-1730; [w_old] is the previous content of [wxz]. *)
  Definition dvxdz (k l : nat) : R := (u (c1 k l + Nx)%nat - u (c1 k l)) / dz.
  Definition dvzdx (k l : nat) : R := (v (c2 k l + 1)%nat - v (c2 k l)) / dx.
  Definition exz (k l : nat) : R := if vert_on (c1 k l) then 1 / 2 * (dvxdz k l + dvzdx k l) else 0.
  Definition wxz (w_old : R) (k l : nat) : R := if vert_on (c1 k l) then 1 / 2 * (dvzdx k l - dvxdz k l) else w_old.
  (** RheologyDensity.c 1738-1751. *)
  Definition exz_n (k l : nat) : R :=
    if in_model (c0 k l) then
      0 + (if vert_on (c1 k l) then / 4 * exz k l else 0)
        + (if vert_on (c1 k l + 1) then / 4 * exz (k + 1) l else 0)
        + (if vert_on (c1 k l + Nx) then / 4 * exz k (l + 1) else 0)
        + (if vert_on (c1 k l + Nx + 1) then / 4 * exz (k + 1) (l + 1) else 0)
    else 0.
End StrainRate.
