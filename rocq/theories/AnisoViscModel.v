(** * Viscosity of an anisotropic material at a point and in a cell

    Transcription of MDLIB/AnisotropyRoutines.c 80-345 (ViscosityConciseAniso) and of the cell loop of
    NonNewtonianViscosityGridAniso (509-686). Doubles are reals; [pow(x,y)] is [Rpower x y], C's [pow] for
    [x > 0]; a division by zero that C turns into a NaN is followed to the [exit] it leads to (228) where this
    happens in the iteration, and excluded by hypotheses elsewhere. Not represented: printing, the
    arguments the function never reads ([X0], the old stresses, [strain_acc], [T0], [div], [final_update],
    [index]), and the vertex loop 689-810, which is the same computation on other arrays. *)
From Coq Require Import ZArith Reals List Bool.
From Verif Require Import RheoModel AnisoModel MatGridModel.
Import ListNotations.
Local Open Scope R_scope.

(** The parameters of one power-law mechanism of a phase (AnisotropyRoutines.c 91-92); [c_pref] is 1 for
    diffusion creep, which has none. *)
Record creep : Type := Creep {
  c_on : bool; c_A : R; c_n : R; c_m : R; c_r : R; c_a : R; c_f : R; c_F : R; c_Q : R; c_V : R; c_pref : R }.
(** Material of one phase (91-92, 113-117, 142-143, 166, 183, 262). *)
Record amat : Type := Amat {
  a_cst : bool; a_eta0 : R; a_pwl : creep; a_lin : creep;
  a_exp : bool; a_Qexp : R; a_Sexp : R; a_Eexp : R; a_Gexp : R; a_nexp : R;
  a_plast : bool; a_Slim : R; a_etavp : R }.
(** Run parameters (85, 89, 119, 123, 134, 200): [m_cap] is [1e100/scaling->eta], [m_T0] is 0 Celsius,
    [m_Tp] 1200 Celsius and [m_dmin] is [1e-13/scaling->L], all scaled. [m_min], [m_max] are read at 85. *)
Record amodel : Type := Amodel {
  m_elastic : bool; m_step0 : bool; m_dt : R; m_R : R; m_cap : R; m_T0 : R; m_Tp : R; m_dmin : R;
  m_min : R; m_max : R }.
(** State at the point (80); [p_E] is the effective strain rate, [p_angle] the director angle. *)
Record apoint : Type := Apoint {
  p_angle : R; p_fac : R; p_G : R; p_T : R; p_P : R; p_d0 : R; p_phi : R; p_E : ten;
  p_dil : R; p_fric : R; p_C : R; p_P0 : R; p_beta : R }.

(** AnisotropyRoutines.c 90, 119, 121: elasticity is off in the initialisation step. *)
Definition elastic_on (m : amodel) : bool := m_elastic m && negb (m_step0 m).
(** 123. *)
Definition floor_T (m : amodel) (T : R) : R := if Rltb T (m_T0 m) then m_T0 m else T.
(** 115: Peierls creep only below 1200 Celsius. *)
Definition peierls_on (m : amodel) (a : amat) (q : apoint) : bool := a_exp a && Rltb (p_T q) (m_Tp m).
(** 126: prefactor of dislocation creep. *)
Definition B_pwl (m : amodel) (a : amat) (q : apoint) : R :=
  let c := a_pwl a in let T := floor_T m (p_T q) in
  c_pref c * c_F c * Rpower (c_A c) (-1 / c_n c) * exp ((c_Q c + p_P q * c_V c) / m_R m / c_n c / T)
  * Rpower (p_d0 q) (c_m c / c_n c) * Rpower (c_f c) (- c_r c / c_n c) * exp (- c_a c * p_phi q / c_n c).
(** 138: prefactor of diffusion creep, without the grain size. *)
Definition B_lin (m : amodel) (a : amat) (q : apoint) : R :=
  let c := a_lin a in let T := floor_T m (p_T q) in
  c_F c * Rpower (c_A c) (-1 / c_n c) * exp ((c_Q c + p_P q * c_V c) / m_R m / c_n c / T)
  * Rpower (c_f c) (- c_r c / c_n c) * exp (- c_a c * p_phi q / c_n c).
(** 147-151: prefactor and stress dependence of Peierls creep. *)
Definition ST_exp (m : amodel) (a : amat) (q : apoint) : R :=
  a_Qexp a / m_R m / floor_T m (p_T q) * 2 * a_Gexp a * (1 - a_Gexp a).
Definition F_exp (m : amodel) (a : amat) (q : apoint) : R :=
  let st := ST_exp m a q in
  Rpower (Rpower 2 (1 - st - a_nexp a) / Rpower (sqrt 3) (st + a_nexp a + 1)) (1 / (st + a_nexp a)).
Definition B_exp (m : amodel) (a : amat) (q : apoint) : R :=
  let st := ST_exp m a q in
  let arr := exp (- a_Qexp a / m_R m / floor_T m (p_T q) * (1 - a_Gexp a) ^ 2) in
  F_exp m a q * (Rpower (a_Gexp a * a_Sexp a) (st / (st + a_nexp a)) / Rpower (a_Eexp a * arr) (1 / (st + a_nexp a))).
(** 88, 185: [eta_el]. *)
Definition el_eta (m : amodel) (q : apoint) : R := if elastic_on m then p_G q * m_dt m else 10 ^ 20.
(** 113-116, 127, 139, 152, 173-189: what the iteration works on. Grain-boundary sliding is never switched on (90).
    The isolated viscosity of dislocation creep is written with the exponent [(1-n)/n] (184), which is [1/n - 1]. *)
Definition vin_of (m : amodel) (a : amat) (q : apoint) : vin :=
  Vin (local_Eii (p_angle q) (p_E q)) (elastic_on m) (el_eta m q) (a_cst a) (a_eta0 a)
      (c_on (a_pwl a)) (B_pwl m a q) (c_n (a_pwl a))
      (peierls_on m a q) (B_exp m a q) (ST_exp m a q + a_nexp a)
      (c_on (a_lin a)) (B_lin m a q) (c_n (a_lin a)) (p_d0 q) (c_m (a_lin a))
      false 1 1.

(** 218-249: unlike in LocalIterationViscoElastic the viscosity is updated (237) before the test (241). If the
    derivative is zero ([Eii] zero, or no mechanism) the new viscosity is NaN or infinite, the next residual
    is NaN, and the process ends with status 1 (228). *)
Inductive av_result := AvStop (code : Z) | AvRet (eta tii : R).
Fixpoint av_loop (p : lip) (left : nat) (eta : R) : av_result :=
  match left with
  | O => AvRet eta (stress p eta)
  | S left' =>
      if Req_EM_T (Eii p) 0 then AvStop 1
      else if Req_EM_T (dfdeta p eta) 0 then AvStop 1
      else
      let res := Rabs (resid p eta / Eii p) in
      if Rltb res (ve_tol / 100) then AvRet (newton p eta) (stress p eta)
      else match left' with
           | O => if Rltb ve_tol res then AvStop 0 else AvRet (newton p eta) (stress p eta)
           | S _ => av_loop p left' (newton p eta)
           end
  end.

(** 157, 162-170: the yield stress with the von Mises cut-off. *)
Definition ani_yield (a : amat) (q : apoint) : R :=
  if a_plast a then
    let y := p_C q * cos (p_fric q) + p_P q * sin (p_fric q) in
    if Rltb (a_Slim a) y then a_Slim a else y
  else 0.

(** What the function returns and writes. *)
Record aout : Type := Aout {
  o_eta : R; o_vep : R; o_T : ten; o_el : R; o_pl : R; o_pwl : R; o_exp : R; o_lin : R; o_gbs : R; o_cst : R;
  o_d : R; o_x : R; o_over : R; o_pc : R; o_rho : R; o_divel : R; o_divpl : R; o_divr : R;
  o_wtot : R; o_wel : R; o_wdiss : R }.
Inductive aresult := AStop (code : Z) | AOut (o : aout).

(** AnisotropyRoutines.c 255-343, given the viscosity [eve] and the stress [tii] left by the iteration. *)
Definition aniso_out (post centroid : bool) (m : amodel) (a : amat) (q : apoint) (eve tii : R) : aout :=
  let v := vin_of m a q in
  let p := lip_of v in
  (* 121, 158 *)
  let dil := if elastic_on m then p_dil q else 0 in
  let K := 1 / p_beta q in
  (* 263-277 *)
  let Ft := tii - ani_yield a q in
  let pl := Rltb (/ 10 ^ 17) Ft && a_plast a in
  let g := if pl then Ft / (eve + a_etavp a + K * m_dt m * sin dil * sin (p_fric q)) else 0 in
  let tc := if pl then tii - g * eve else tii in
  let pc := if pl then p_P q + K * m_dt m * sin dil * g else p_P q in
  (* 259, 285 *)
  let vep := if pl then tc / 2 / v_E v else eve in
  (* 255-257, 286-288, 296-298 *)
  let T := local_stress (p_angle q) (p_fac q) vep (p_E q) in
  (* 310-312 *)
  let ipwl := v_Bpwl v * Rpower (e_pwl p tii) (1 / v_npwl v - 1) in
  let ilin := v_Blin v * Rpower (e_lin p tii) (1 / v_nlin v - 1) * Rpower (v_d v) (v_mlin v / v_nlin v) in
  let iexp := v_Bexp v * Rpower (e_exp p tii) (1 / v_nexp v - 1) in
  (* 302-303, 323-329 *)
  let inv := ifb (v_dif v) (1 / ilin) + ifb (v_pei v) (1 / iexp) + ifb (v_dis v) (1 / ipwl)
             + ifb (v_cst v) (1 / v_etacst v) + ifb pl (1 / (tc / g)) in
  let eta := if post then 1 / inv else vep in
  let w := post && centroid in
  {| o_eta := eta; o_vep := vep; o_T := T;
          o_el := ifb (post && elastic_on m) (tc * tc / (4 * el_eta m q * el_eta m q)); (* 315 *)
          o_pl := ifb pl (g / 2);                                                       (* 291, 316 *)
          o_pwl := e_pwl p tii; o_exp := e_exp p tii; o_lin := e_lin p tii; o_gbs := 0; o_cst := e_cst p tii;
          o_d := p_d0 q;                                                                (* 111 *)
          o_x := 0; o_rho := 0;                                                         (* 107 *)
          o_over := ifb post (a_etavp a * g);                                           (* 332 *)
          o_pc := pc;                                                                   (* 301 *)
          o_divel := ifb post (- (pc - p_P0 q) / (K * m_dt m));                         (* 320 *)
          o_divpl := g * sin dil; o_divr := 0;                                          (* 290, 319 *)
          o_wtot := ifb w (tc * tc / eve); o_wel := ifb w (tc * tc / el_eta m q);
          o_wdiss := ifb w (tc * tc / eta) |}.                                           (* 335-338 *)

(** AnisotropyRoutines.c 101-344; the exit is that of 134-137. *)
Definition aniso_visc (post centroid : bool) (m : amodel) (a : amat) (q : apoint) : aresult :=
  let v := vin_of m a q in
  let c := a_lin a in
  if c_on c && Rltb 0 (c_m c) && Rltb (p_d0 q) (m_dmin m) then AStop 1 else
  match av_loop (lip_of v) nitmax (eta_up (m_cap m) v) with
  | AvStop k => AStop k
  | AvRet eve tii => AOut (aniso_out post centroid m a q eve tii)
  end.

(** ** One cell (509-686) *)

(** The fields of one cell written by the loop. *)
Record acell : Type := Acell {
  n_eta : R; n_phys : R; n_ve : R; n_stress : ten; n_d : R; n_x : R; n_rho : R; n_pc : R; n_wtot : R; n_divpl : R }.
Inductive acell_result := CStop (code : Z) | CCell (c : acell).

(** 577-638: the phases in turn; a phase with a fraction of at most 1e-13 is skipped, a phase whose
    viscosity cannot be computed ends the process. *)
Fixpoint phases (m : amodel) (q : apoint) (l : list (R * amat)) : Z + list (R * aout) :=
  match l with
  | [] => inr []
  | (f, a) :: l' =>
      if active f then
        match aniso_visc true true m a q with
        | AStop k => inl k
        | AOut o => match phases m q l' with inl k => inl k | inr os => inr ((f, o) :: os) end
        end
      else phases m q l'
  end.
Definition wsum (g : aout -> R) (os : list (R * aout)) : R :=
  fold_left (fun s fo => s + fst fo * g (snd fo)) os 0.
Definition wsum_avg (avg : nat) (g : aout -> R) (os : list (R * aout)) : R :=
  finish avg (fold_left (fun s fo => s + contrib avg (fst fo) (g (snd fo))) os 0).

(** 515-547 (fields of an air cell stay zero; the density is left alone without [density_variations]),
    550-551 ([eta_e]), 590-635, 639, 642-669, 677-684. [dens] is [density_variations == 1], [rho] the
    density before, [d1], [d2] the orientation averages. *)
Definition aniso_cell (avg : nat) (dens : bool) (m : amodel) (air : bool) (rho d1 d2 : R)
    (q : apoint) (l : list (R * amat)) : acell_result :=
  if air then CCell (Acell 0 0 0 (Ten 0 0 0) 0 0 (if dens then 0 else rho) 0 0 0)
  else match phases m q l with
  | inl k => CStop k
  | inr os =>
      let eta_e := if m_elastic m then m_dt m * p_G q else 1 in
      let eta := wsum_avg avg o_vep os in
      CCell {| n_eta := eta; n_phys := wsum_avg avg o_eta os;
               n_ve := wsum (fun o => o_vep o / eta_e) os;
               n_stress := grid_stress eta (p_fac q) d1 d2 (p_E q);
               n_d := 1 / wsum (fun o => 1 / o_d o) os;
               n_x := wsum o_x os; n_rho := if dens then wsum o_rho os else rho;
               n_pc := wsum o_pc os; n_wtot := wsum o_wtot os; n_divpl := wsum o_divpl os |}
  end.

(** ** One vertex (690-836) *)

(** The fields of one vertex written by the loop. *)
Record anode : Type := Anode { v_eta : R; v_phys : R; v_ve : R; v_stress : ten; v_x : R }.
Inductive anode_result := NStop (code : Z) | NNode (c : anode).
(** 735-775: as [phases], with centroid = 0. *)
Fixpoint node_phases (m : amodel) (q : apoint) (l : list (R * amat)) : Z + list (R * aout) :=
  match l with
  | [] => inr []
  | (f, a) :: l' =>
      if active f then
        match aniso_visc true false m a q with
        | AStop k => inl k
        | AOut o => match node_phases m q l' with inl k => inl k | inr os => inr ((f, o) :: os) end
        end
      else node_phases m q l'
  end.
(** 696-708, 756-835. *)
Definition aniso_node (avg : nat) (m : amodel) (air : bool) (d1 d2 : R) (q : apoint) (l : list (R * amat)) : anode_result :=
  if air then NNode (Anode 0 0 0 (Ten 0 0 0) 0)
  else match node_phases m q l with
  | inl k => NStop k
  | inr os =>
      let eta_e := if m_elastic m then m_dt m * p_G q else 1 in
      let eta := wsum_avg avg o_vep os in
      NNode {| v_eta := eta; v_phys := wsum_avg avg o_eta os;
               v_ve := wsum (fun o => o_vep o / eta_e) os;
               v_stress := grid_stress eta (p_fac q) d1 d2 (p_E q);
               v_x := wsum o_x os |}
  end.
