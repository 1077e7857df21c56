(** * Local rheology: viscoelastic iteration, plastic return mapping, limiter

    Transcription of MDLIB/RheologyDensity.c 82-127 (LocalIterationViscoElastic) and of the parts of
    ViscosityConcise (360-808) listed at each definition. Doubles are reals; [pow(x,y)] is [Rpower x y]
    ([exp (y * ln x)]), which is C's [pow] for [x > 0]; [RheoProofs] shows that the arguments met are
    positive. Not represented: the grain-size evolution branch ([gs], see GSModel), Huet
    mixtures, melting and the printing. *)
From Coq Require Import Reals List Bool.
Import ListNotations.
Local Open Scope R_scope.

Definition Rltb (a b : R) : bool := if Rlt_dec a b then true else false.
Definition Rleb (a b : R) : bool := if Rle_dec a b then true else false.
Definition ifb (b : bool) (x : R) : R := if b then x else 0.

(** The fields of LocalIterationParams used by the iteration (RheologyDensity.h; filled at
    RheologyDensity.c 583-612). [n_exp] stands for [ST + n_exp]. *)
Record lip : Type := Lip {
  Eii : R;
  el : bool;  eta_el : R;
  cst : bool; eta_cst : R;
  dis : bool; C_pwl : R; n_pwl : R;
  pei : bool; C_exp : R; n_exp : R;
  dif : bool; C_lin : R; n_lin : R; d_gs : R; m_lin : R;
  gbs : bool; C_gbs : R; n_gbs : R
}.

(** RheologyDensity.c 91-95: strain rate of each mechanism at stress [t]. *)
Definition e_cst (p : lip) (t : R) : R := ifb (cst p) (t / 2 / eta_cst p).
Definition e_pwl (p : lip) (t : R) : R := ifb (dis p) (C_pwl p * Rpower t (n_pwl p)).
Definition e_gbs (p : lip) (t : R) : R := ifb (gbs p) (C_gbs p * Rpower t (n_gbs p)).
Definition e_exp (p : lip) (t : R) : R := ifb (pei p) (C_exp p * Rpower t (n_exp p)).
Definition e_lin (p : lip) (t : R) : R :=
  ifb (dif p) (C_lin p * Rpower t (n_lin p) * Rpower (d_gs p) (- m_lin p)).
(** RheologyDensity.c 96. *)
Definition e_vis (p : lip) (t : R) : R := e_pwl p t + e_exp p t + e_lin p t + e_gbs p t + e_cst p t.
(** RheologyDensity.c 90, 98-99. *)
Definition stress (p : lip) (eta : R) : R := 2 * eta * Eii p.
Definition resid (p : lip) (eta : R) : R :=
  Eii p - ifb (el p) (stress p eta / (2 * eta_el p)) - e_vis p (stress p eta).
(** RheologyDensity.c 109-114. *)
Definition dfdeta (p : lip) (eta : R) : R :=
  let t := stress p eta in
  ifb (el p) (- Eii p / eta_el p)
  + ifb (pei p) (- e_exp p t * n_exp p / eta)
  + ifb (dif p) (- e_lin p t * n_lin p / eta)
  + ifb (dis p) (- e_pwl p t * n_pwl p / eta)
  + ifb (cst p) (- Eii p / eta_cst p).
(** RheologyDensity.c 116. *)
Definition newton (p : lip) (eta : R) : R := eta - resid p eta / dfdeta p eta.

(** RheologyDensity.c 83-84. *)
Definition nitmax : nat := 20.
Definition ve_tol : R := / 10 ^ 11.

(** What the call does: leave the process with status 0 (104), or write back the viscosity and the
    stress the returned strain rates were evaluated at (119-125). *)
Inductive li_result := Exit0 | Ret (eta tii : R).

(** RheologyDensity.c 88-117: [left] is [nitmax - it]. *)
Fixpoint li_loop (p : lip) (left : nat) (eta : R) : li_result :=
  match left with
  | O => Ret eta (stress p eta)
  | S left' =>
      let res := Rabs (resid p eta / Eii p) in
      if Rltb res (ve_tol / 100) then Ret eta (stress p eta)
      else match left' with
           | O => if Rltb ve_tol res then Exit0 else Ret (newton p eta) (stress p eta)
           | S _ => li_loop p left' (newton p eta)
           end
  end.
Definition local_iteration (p : lip) (eta0 : R) : li_result := li_loop p nitmax eta0.

(** Inputs of ViscosityConcise that reach the iteration (mechanism switches 449-456, prefactors
    478-500 as given positive numbers [B_*]). *)
Record vin : Type := Vin {
  v_E : R; v_el : bool; v_etael : R; v_cst : bool; v_etacst : R;
  v_dis : bool; v_Bpwl : R; v_npwl : R;
  v_pei : bool; v_Bexp : R; v_nexp : R;
  v_dif : bool; v_Blin : R; v_nlin : R; v_d : R; v_mlin : R;
  v_gbs : bool; v_Bgbs : R; v_ngbs : R
}.
(** RheologyDensity.c 481, 489, 500, 583-612. The initialiser at 583 does not name [C_gbs], which C
    therefore sets to zero. *)
Definition lip_of (v : vin) : lip :=
  Lip (v_E v) (v_el v) (v_etael v) (v_cst v) (v_etacst v)
      (v_dis v) (Rpower (2 * v_Bpwl v) (- v_npwl v)) (v_npwl v)
      (v_pei v) (Rpower (2 * v_Bexp v) (- v_nexp v)) (v_nexp v)
      (v_dif v) (Rpower (2 * v_Blin v) (- v_nlin v)) (v_nlin v) (v_d v) (v_mlin v)
      (v_gbs v) 0 (v_ngbs v).
(** RheologyDensity.c 535-552: isolated viscosities. *)
Definition iso_pwl (v : vin) : R := v_Bpwl v * Rpower (v_E v) (1 / v_npwl v - 1).
Definition iso_exp (v : vin) : R := v_Bexp v * Rpower (v_E v) (1 / v_nexp v - 1).
Definition iso_lin (v : vin) : R :=
  v_Blin v * Rpower (v_E v) (1 / v_nlin v - 1) * Rpower (v_d v) (v_mlin v / v_nlin v).
Definition iso_gbs (v : vin) : R := v_Bgbs v * Rpower (v_E v) (1 / v_ngbs v - 1).
(** mdoodz-private.h 8 and RheologyDensity.c 557-565 ([cap] is [1e100 / scaling->eta]). *)
Definition minv (a b : R) : R := if Rle_dec a b then a else b.
Definition upd_min (b : bool) (u x : R) : R := if b then minv u x else u.
Definition eta_up (cap : R) (v : vin) : R :=
  let u := cap in
  let u := upd_min (v_cst v) u (v_etacst v) in
  let u := upd_min (v_dis v) u (iso_pwl v) in
  let u := upd_min (v_el v) u (v_etael v) in
  let u := upd_min (v_pei v) u (iso_exp v) in
  let u := upd_min (v_dif v) u (iso_lin v) in
  upd_min (v_gbs v) u (iso_gbs v).
(** RheologyDensity.c 570, 616. *)
Definition ve_viscosity (cap : R) (v : vin) : li_result := local_iteration (lip_of v) (eta_up cap v).

(** ** Plasticity (RheologyDensity.c 502-516, 626-686) *)

(** Inputs of the plastic part: the viscoelastic result, pressure, cohesion [co], the sines and cosine
    (502-504), [Slim], the viscoplastic parameters, [K] (1/beta), [dt], [eta_tol], [Tiimin]. *)
Record pin : Type := Pin {
  q_Tii : R; q_eve : R; q_E : R; q_P : R; q_co : R; q_cosf : R; q_sinf : R; q_sind : R; q_slim : R;
  q_evp0 : R; q_nvp : R; q_K : R; q_dt : R; q_tol : R; q_tmin : R
}.
(** RheologyDensity.c 508-515. *)
Definition yield0 (q : pin) : R :=
  let y := q_co q * q_cosf q + q_P q * q_sinf q in if Rltb (q_slim q) y then q_slim q else y.
(** RheologyDensity.c 641, 651. *)
Definition evp_at (q : pin) (x : R) : R := q_evp0 q * Rpower x (1 / q_nvp q - 1).
Definition kss (q : pin) : R := q_K q * q_dt q * q_sinf q * q_sind q.
(** RheologyDensity.c 642. *)
Definition gdot0 (q : pin) : R := (q_Tii q - yield0 q) / (q_eve q + evp_at q (q_E q) + kss q).

(** State after the loop 647-664: the multiplier, the (accumulated) yield stress, and the stress,
    viscoplastic viscosity and plastic divergence of the last evaluation. *)
Record pst : Type := Pst { s_g : R; s_ty : R; s_tc : R; s_evp : R; s_divp : R; s_conv : bool }.
Fixpoint rm_loop (q : pin) (F0 : R) (left : nat) (g ty : R) (last : pst) : pst :=
  match left with
  | O => last
  | S left' =>
      let divp := - g * - q_sind q in
      let evp := evp_at q (Rabs g) in
      let ty := ty + g * evp in
      let tc := q_Tii q - q_eve q * g in
      let F := tc - ty in
      let res := Rabs F in
      if Rltb res (q_tol q) || Rltb (res / F0) (q_tol q) then Pst g ty tc evp divp true
      else let dF := - q_eve q - evp / q_nvp q - kss q in
           let g' := g - F / dF in
           rm_loop q F0 left' g' ty (Pst g' ty tc evp divp false)
  end.

(** Result: whether plastic (635), viscosity (688-695), stress, multiplier, corrected pressure,
    overstress (745). *)
Record pres : Type := Pres { r_pl : bool; r_eta : R; r_tii : R; r_g : R; r_pc : R; r_over : R; r_divp : R }.
(** RheologyDensity.c 629-695. *)
Definition plasticity (q : pin) : pres :=
  let F := q_Tii q - yield0 q in
  if Rltb (/ 10 ^ 17) F then
    let g0 := gdot0 q in
    let s := rm_loop q F nitmax g0 (yield0 q) (Pst g0 (yield0 q) (q_Tii q) 0 0 false) in
    let pc := q_P q + q_K q * q_dt q * s_divp s in
    if Rltb (s_tc s) 0 then
      let g := (q_Tii q - q_tmin q) / q_eve q in
      Pres true (q_tmin q / (2 * q_E q)) (q_tmin q) g (q_P q) (s_evp s * g) (s_divp s)
    else Pres true (s_tc s / (2 * q_E q)) (s_tc s) (s_g s) pc (s_evp s * s_g s) (s_divp s)
  else Pres false (q_eve q) (q_Tii q) 0 (q_P q) 0 0.

(** RheologyDensity.c 785-800. *)
Definition limit_eta (mn mx e : R) : R :=
  let e := if Rltb mx e then mx else e in if Rltb e mn then mn else e.

(** ** Post-processing (RheologyDensity.c 712-781, [post_process == 1], [centroid == 1])

    Strain rates [e_*] are those of the iteration, evaluated at the stress before plasticity. *)
Definition post_eta (v : vin) (tve : R) (pl : pres) : R :=
  let p := lip_of v in
  let ipwl := v_Bpwl v * Rpower (e_pwl p tve) (1 / v_npwl v - 1) in
  let ilin := v_Blin v * Rpower (e_lin p tve) (1 / v_nlin v - 1) * Rpower (v_d v) (v_mlin v / v_nlin v) in
  let iexp := v_Bexp v * Rpower (e_exp p tve) (1 / v_nexp v - 1) in
  let inv := ifb (v_pei v) (1 / iexp) + ifb (v_dis v) (1 / ipwl) + ifb (v_dif v) (1 / ilin)
             + ifb (v_cst v) (1 / v_etacst v) + ifb (r_pl pl) (1 / (r_tii pl / r_g pl)) in
  1 / inv.
Definition w_tot (eve : R) (pl : pres) : R := r_tii pl * r_tii pl / eve.
Definition w_el (v : vin) (pl : pres) : R := r_tii pl * r_tii pl / v_etael v.
Definition w_diss (v : vin) (tve : R) (pl : pres) : R := r_tii pl * r_tii pl / post_eta v tve pl.
(** RheologyDensity.c 731-736, 738: magnitude of the plastic strain rate; the elastic one for a stress
    [t] reached from no previous stress is [t / 2 / eta_el]. *)
Definition e_pl (pl : pres) : R := ifb (r_pl pl) (r_g pl / 2).

(** ** Returned dissipative viscosity (RheologyDensity.c 364, 749, 797-808). Without post-processing the
    variable [eta] keeps its initial value 0. *)
Definition returned_eta (post : bool) (mn mx e : R) : R := limit_eta mn mx (if post then e else 0).

(** ** Mixtures and reactions *)

(** RheologyDensity.c 537-539: viscosity of a two-phase constant-viscosity mixture. *)
Definition mix_eta (avg : nat) (X a b : R) : R :=
  match avg with
  | O => X * a + (1 - X) * b
  | 1%nat => / (X / a + (1 - X) / b)
  | _ => exp (X * ln a + (1 - X) * ln b)
  end.
(** RheologyDensity.c 525; [w] is [erfc((P - Pr)/dPr)], a number in [0,2]. *)
Definition react (X0 tau dt w : R) : R := (X0 * tau - 1 / 2 * dt * w + dt) / (dt + tau).
(** RheologyDensity.c 681. *)
Definition kin_rho (tau dt rho0 rhoeq : R) : R := 1 / (tau + dt) * (tau * rho0 + dt * rhoeq).
