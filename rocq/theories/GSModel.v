(** * Grain-size evolution and reaction kinetics

    Transcription of
    - MDLIB/FlowLaws.c 839-938 ([ReadDataGSE]), 944-966 ([ReadDataKinetics]),
    - MDLIB/RheologyDensity.c 133-354 ([LocalIterationViscoElasticGrainSize]; the two evaluations at [eta_lo]
      and [eta_up] before the loop, 150-176, are overwritten by the loop and not represented),
    - MDLIB/RheologyDensity.c 537-547, 566-581, 613-615 (first guess and call in [ViscosityConcise]),
      683-705 (kinetics of the density).

    Doubles are reals; [pow(x,y)] is [Rpower x y]. Where C computes with infinities or NaN (division by zero,
    [pow(0,y)] with [y < 0], [log(0)]) the outcome is [GUndef], not followed further. *)
From Coq Require Import Reals ZArith List Bool.
From Verif Require Import OptionsModel RheoModel.
Local Open Scope R_scope.

(** ** Data base (FlowLaws.c 843-928) *)

(** [ppzm], [Kpzm], [Qpzm], [Gpzm], [cpzm], [Lpzm]. Law 42 also sets [Vpzm], which nothing reads. *)
Record gse : Type := Gse { z_p : R; z_K : R; z_Q : R; z_G : R; z_c : R; z_L : R }.

(** Laws 9, 10, 40, 41, 42: [K] in m^p/s, [Q] in J/mol, [G] in J/m2. *)
Definition wattmeter (k : Z) : option gse :=
  match k with
  | 9%Z => Some (Gse 3 (25 / 10 * 10 ^ 9 * Rpower 10 (-6 * 3)) (175 * 10 ^ 3) 1 PI (1 / 100))
  | 10%Z => Some (Gse 3 (25 / 10 * 10 ^ 9 * Rpower 10 (-6 * 3)) (175 * 10 ^ 3) 1 PI (1 / 10))
  | 40%Z => Some (Gse 2 (607 * Rpower 10 (-6 * 2)) (200 * 10 ^ 3) (1 / 10) (12197 / 10000) (1 / 10))
  | 41%Z => Some (Gse 4 (497075 * Rpower 10 (-6 * 4)) (300 * 10 ^ 3) (1 / 10) (12197 / 10000) (1 / 10))
  | 42%Z => Some (Gse (32 / 10) (1800 * Rpower 10 (-6 * (32 / 10))) (620 * 10 ^ 3) (14 / 10) (31415 / 10000) (1 / 100))
  | _ => None
  end.
(** Laws 11 and 12: [p] and the power of ten of the prefactor. *)
Definition piezometer (k : Z) : option (R * R) :=
  match k with
  | 11%Z => Some (114 / 100, 331 / 100)
  | 12%Z => Some (9767 / 10000, 263 / 100)
  | _ => None
  end.
(** Reading with the units of the run; [None] is exit 12 (933). *)
Definition read_gse (s : scale) (number : Z) : option gse :=
  match wattmeter (Z.abs number) with
  | Some g => Some (Gse (z_p g) (z_K g / (Rpower (s_L s) (z_p g) / s_t s)) (z_Q g / s_J s)
                        (z_G g / (s_J s * Rpower (s_L s) (-2))) (z_c g) (z_L g))
  | None =>
      match piezometer (Z.abs number) with
      | Some (p, e) => Some (Gse p (Rpower 10 e * / 10 ^ 6 * Rpower (10 ^ 6) p / (s_L s * Rpower (s_S s) p)) 0 0 0 0)
      | None => None
      end
  end.

(** ** The local iteration *)

(** The parameters of the iteration: those of the rheology and [lam], [cg], [gam], [pg], [Ag]. *)
Record gsp : Type := Gsp { g_lip : lip; g_lam : R; g_cg : R; g_gam : R; g_p : R; g_Ag : R }.

(** 144. *)
Definition Bg (g : gsp) : R := g_lam g / (g_cg g * g_gam g).
(** The grain size used by diffusion creep. *)
Definition set_d (p : lip) (d : R) : lip :=
  Lip (Eii p) (el p) (eta_el p) (cst p) (eta_cst p) (dis p) (C_pwl p) (n_pwl p) (pei p) (C_exp p) (n_exp p)
      (dif p) (C_lin p) (n_lin p) d (m_lin p) (gbs p) (C_gbs p) (n_gbs p).
(** 263: grain size at viscosity [eta]. *)
Definition grain (g : gsp) (eta : R) : R :=
  let p := g_lip g in
  Rpower (2 * Bg g * Eii p * e_pwl p (stress p eta) * eta * g_p g / g_Ag g) (-1 / (g_p g + 1)).
Definition at_grain (g : gsp) (eta : R) : lip := set_d (g_lip g) (grain g eta).
(** 267. *)
Definition dddeta (g : gsp) (eta : R) : R :=
  let E := Eii (g_lip g) in
  let n := n_pwl (g_lip g) in
  let C := C_pwl (g_lip g) in
  let A := g_Ag g in
  let B := Bg g in
  let p := g_p g in
  - 1 / 2 * A * grain g eta * Rpower (2 * E * eta) (- n) *
    (2 * B * C * E * n * p * Rpower (2 * E * eta) n / A + 2 * B * C * E * p * Rpower (2 * E * eta) n / A)
    / (B * C * E * eta * p * (p + 1)).
(** 260-270: residual. *)
Definition gs_resid (g : gsp) (eta : R) : R := resid (at_grain g eta) eta.
(** 282-289: derivative; the last term from the third iteration on. *)
Definition gs_df (it : nat) (g : gsp) (eta : R) : R :=
  let p := at_grain g eta in
  dfdeta p eta
  + (if Nat.ltb 1 it then m_lin p * e_lin p (stress p eta) * dddeta g eta / grain g eta else 0).
(** 291. *)
Definition gs_newton (it : nat) (g : gsp) (eta : R) : R := eta - gs_resid g eta / gs_df it g eta.

(** Exit with status 0 (279), a value that is not a number, or the viscosity, grain size and stress written
    back (346-353). *)
Inductive gs_result := GExit | GUndef | GRet (eta d tii : R).

(** 258-292. *)
Fixpoint gs_loop (g : gsp) (it left : nat) (eta : R) : gs_result :=
  match left with
  | O => GRet eta (grain g eta) (stress (g_lip g) eta)
  | S left' =>
      let res := Rabs (gs_resid g eta / Eii (g_lip g)) in
      if Rltb res (ve_tol / 100) then GRet eta (grain g eta) (stress (g_lip g) eta)
      else match left' with
           | O => if Rltb ve_tol res then GExit
                  else GRet (gs_newton it g eta) (grain g eta) (stress (g_lip g) eta)
           | S _ => gs_loop g (S it) left' (gs_newton it g eta)
           end
  end.
(** 144 divides by [cg * gam]; without dislocation creep 263 is [pow(0, -1/(p+1))]. *)
Definition local_gs (g : gsp) (eta0 : R) : gs_result :=
  if Req_EM_T (g_cg g * g_gam g) 0 then GUndef
  else if dis (g_lip g) then gs_loop g 0 nitmax eta0 else GUndef.

(** ** The call *)

(** 537-547: grain size of the first guess. The stress is that of the elastic element alone. *)
Definition guess_d (v : vin) (z : gse) (Ag : R) : R :=
  let t := 2 * v_etael v * v_E v in
  let e := t / 2 / iso_pwl v in
  exp (ln (Ag * z_G z / (z_L z * (1 / z_c z) * t * e * z_p z)) / (1 + z_p z)).
Definition vin_d (v : vin) (d : R) : vin :=
  Vin (v_E v) (v_el v) (v_etael v) (v_cst v) (v_etacst v) (v_dis v) (v_Bpwl v) (v_npwl v) (v_pei v) (v_Bexp v) (v_nexp v)
      (v_dif v) (v_Blin v) (v_nlin v) d (v_mlin v) (v_gbs v) (v_Bgbs v) (v_ngbs v).
(** 539, 546-615; [R] is the scaled gas constant. Undefined if [eta_pwl] is 0 (no dislocation creep) or
    [Lpzm * (1/cpzm)] is 0 or not a number. *)
Definition gs_viscosity (cap : R) (v : vin) (z : gse) (Rgas T : R) : gs_result :=
  if Req_EM_T (z_c z) 0 then GUndef
  else if v_dis v then
    let Ag := z_K z * exp (- z_Q z / Rgas / T) in
    let v := vin_d v (guess_d v z Ag) in
    local_gs (Gsp (lip_of v) (z_L z) (z_c z) (z_G z) (z_p z) Ag) (eta_up cap v)
  else GUndef.

(** ** Kinetics *)

(** FlowLaws.c 948-964: [Skin], [kkin], [Qkin]; law 1 leaves them. Exit 12 is [None]. *)
Inductive kin_law := KinTau | KinGrowth (S k Q : R).
Definition read_kinetics (s : scale) (number : Z) : option kin_law :=
  match Z.abs number with
  | 1%Z => Some KinTau
  | 9%Z => Some (KinGrowth (335 / 100 / (/ 10 ^ 4) / (1 / s_L s)) (185 / 1000 / (s_L s / s_t s / s_T s)) (243 * 10 ^ 3 / s_J s))
  | _ => None
  end.
(** RheologyDensity.c 697-698. *)
Definition growth_rate (k Q Rgas T dG : R) : R := k * T * (exp (- Q / Rgas / T) * (1 - exp (- dG / Rgas / T))).
Definition kin_time (S k Q Rgas T dG : R) : R := ln (1 - 6666666 / 10 ^ 7) * / (-2 * S * growth_rate k Q Rgas T dG).
(** 691-704 with [kinetics == 1]: [number] is [kin[phase]], [tau] the [tau_kin] of the input, [dG] the
    difference in free energy from the table. *)
Definition kin_density (number : Z) (tau S k Q Rgas T dG dt rho0 rhoeq : R) : R :=
  let tau := if (number =? 9)%Z then (if Rltb 0 dG then kin_time S k Q Rgas T dG else 0) else tau in
  if (number =? 9)%Z || (number =? 1)%Z then kin_rho tau dt rho0 rhoeq else rhoeq.
