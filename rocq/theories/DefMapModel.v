(** * Deformation maps

    Transcription of MDLIB/RheologyDensity.c 1763-1977 ([GenerateDeformationMaps]) with
    [ScaleBackD] (HDF5Output.c 74-79); printing and allocation left out.

    Arrays are functions of the flat index, doubles are reals. The call of
    [ViscosityConcise] at line 1854 is a parameter [law]: of the materials that the
    function changes it reads the entries of its own phase only (lines 384-386, 391-396).
    It is called with post_process = 0, so that eII_el and eII_pl are set to zero (line
    421) and not changed after (lines 728-746). *)
From Coq Require Import List ZArith Reals Bool Arith.
Import ListNotations.
From Verif Require Import GridModel RheoModel P2GModel.
Local Open Scope R_scope.

(** The five entries of [materials] the function changes. *)
Record mats := Mats { mt_lin : nat -> R; mt_gbs : nat -> R; mt_pwl : nat -> R; mt_texp : nat -> R; mt_gs : nat -> R }.
(** Strain rates of the five viscous mechanisms. *)
Record rates := Rates { rt_pwl : R; rt_lin : R; rt_gbs : R; rt_exp : R; rt_cst : R }.
(** Flin, Fgbs, Fpwl, texp, gs_ref of the phase, phase, T, grain size, strain rate; returns
    viscosity, stress, strain rates. *)
Definition law := R -> R -> R -> R -> R -> nat -> R -> R -> R -> R * R * rates.

(** Lines 1798-1814: an axis. *)
Definition axis (n : nat) (x0 step : R) (a : nat -> R) : nat -> R :=
  loop 0 n (fun a i => if (i =? 0)%nat then upd a i x0 else upd a i (a (i - 1)%nat + step)) a.
(** Lines 1794-1796. *)
Definition step_of (n : nat) (lo hi : R) : R := (hi - lo) / (INR n - 1).
(** Lines 1807, 1813: pow(10, x)/scale. *)
Definition decade (x scale : R) : R := Rpower 10 x / scale.

(** Lines 1857-1863; [None] is the indeterminate value of [mech] before the first
    assignment. *)
Definition beats (a : R) (l : list R) : bool := forallb (fun b => Rltb b a) l.
Definition select (r : rates) (el pl : R) (mech : option Z) : option Z :=
  let '(Rates pwl lin gbs ex cst) := r in
  let mech := if beats pwl [el; pl; ex; lin; gbs; cst] then Some 1%Z else mech in
  let mech := if beats lin [el; pl; ex; pwl; gbs; cst] then Some 2%Z else mech in
  let mech := if beats gbs [el; pl; lin; pwl; ex; cst] then Some 3%Z else mech in
  let mech := if beats ex [el; pl; lin; pwl; gbs; cst] then Some 4%Z else mech in
  let mech := if beats pl [el; pwl; ex; lin; gbs; cst] then Some 5%Z else mech in
  let mech := if beats cst [pl; pwl; ex; lin; gbs; el] then Some 6%Z else mech in
  if beats el [pl; pwl; ex; lin; gbs; cst] then Some 7%Z else mech.

Record maps := MkMaps { mp_mech : option Z; mp_dom : nat -> option Z; mp_stress : nat -> R; mp_visco : nat -> R }.

(** Lines 1850-1870: one point. *)
Definition point (f : law) (k nT nE : nat) (m : mats) (T E d : nat -> R) (ix iy iz : nat) (s : maps) : maps :=
  let '(eta, txx, r) := f (mt_lin m k) (mt_gbs m k) (mt_pwl m k) (mt_texp m k) (mt_gs m k) k (T ix) (d iz) (E iy) in
  let mech := select r 0 0 (mp_mech s) in
  let ind := (ix + iy * nT + iz * nE * nT)%nat in
  MkMaps mech (upd (mp_dom s) ind mech) (upd (mp_stress s) ind txx) (upd (mp_visco s) ind eta).

(** One file: T, E, d, stress, visco, map (lines 1899-1944). *)
Record file := File { fl_T : nat -> R; fl_E : nat -> R; fl_d : nat -> R; fl_stress : nat -> R; fl_visco : nat -> R; fl_map : nat -> option Z }.
Record scales := Scales { sc_T : R; sc_E : R; sc_L : R; sc_S : R; sc_eta : R }.
(** HDF5Output.c 74-79. *)
Definition scale_back (n : nat) (s : R) (a : nat -> R) : nat -> R := loop 0 n (fun a i => upd a i (a i * s)) a.

(** 1821-1969: one phase. [mem] is what the allocated maps hold. *)
Definition phase_map (f : law) (sc : scales) (nT nE nd k : nat) (T E d : nat -> R) (mem : nat -> R) (st : mats * option Z) : file * (mats * option Z) :=
  let '(m, mech) := st in
  let lin := mt_lin m k in let gbs := mt_gbs m k in let pwl := mt_pwl m k in let texp := mt_texp m k in let gs := mt_gs m k in
  let m := Mats (upd (mt_lin m) k 1) (upd (mt_gbs m) k 1) (upd (mt_pwl m) k 1) (upd (mt_texp m) k 0) (mt_gs m) in
  let '(m, s) :=
    loop 0 nd (fun ms iz =>
      let '(m, s) := ms in
      let m := Mats (mt_lin m) (mt_gbs m) (mt_pwl m) (mt_texp m) (upd (mt_gs m) k (d iz)) in
      (m, loop 0 nT (fun s ix => loop 0 nE (fun s iy => point f k nT nE m T E d ix iy iz s) s) s))
    (m, MkMaps mech (fun _ => None) mem mem) in
  let n := (nT * nE * nd)%nat in
  let out := File (scale_back nT (sc_T sc) T) (scale_back nE (sc_E sc) E) (scale_back nd (sc_L sc) d)
    (scale_back n (sc_S sc) (mp_stress s)) (scale_back n (sc_eta sc) (mp_visco s)) (mp_dom s) in
  let m := Mats (upd (mt_lin m) k lin) (upd (mt_gbs m) k gbs) (upd (mt_pwl m) k pwl) (upd (mt_texp m) k texp) (upd (mt_gs m) k gs) in
  (out, (m, mp_mech s)).

Record bounds := Bounds { bd_n : nat; bd_lo : R; bd_hi : R }.

(** 1763-1977: all phases; the file of phase k is entry k. *)
Definition deformation_maps (f : law) (sc : scales) (nph : nat) (bT bE bd : bounds) (mem : nat -> R) (m : mats) : (nat -> file) * (mats * option Z) :=
  let T := axis (bd_n bT) (bd_lo bT) (step_of (bd_n bT) (bd_lo bT) (bd_hi bT)) mem in
  let elog := axis (bd_n bE) (bd_lo bE) (step_of (bd_n bE) (bd_lo bE) (bd_hi bE)) mem in
  let E i := decade (elog i) (sc_E sc) in
  let dlog := axis (bd_n bd) (bd_lo bd) (step_of (bd_n bd) (bd_lo bd) (bd_hi bd)) mem in
  let d i := decade (dlog i) (sc_L sc) in
  loop 0 nph (fun fs k =>
    let '(files, st) := fs in
    let '(o, st) := phase_map f sc (bd_n bT) (bd_n bE) (bd_n bd) k T E d mem st in
    (fun j => if (j =? k)%nat then o else files j, st))
  (fun _ => File mem mem mem mem mem (fun _ => None), (m, None)).
