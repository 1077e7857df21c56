(** * C118: viscosity, stress and yielding of an anisotropic material *)
From Coq Require Import ZArith Reals List Bool Lra Lia Psatz.
From Verif Require Import RheoModel RheoProofs RheoProps AnisoModel AnisoProofs AnisoProps MatGridModel MatGridProps AnisoViscModel AnisoViscProofs.
Import ListNotations.
Local Open Scope R_scope.

(** Some mechanism is switched on, and its own viscosity is representable. *)
Definition some_mechanism (m : amodel) (a : amat) (q : apoint) : Prop := exists i, alone (vin_of m a q) i /\ i <= m_cap m.
(** Grain size is usable (the function refuses to run otherwise). *)
Definition grains (m : amodel) (a : amat) (q : apoint) : Prop :=
  c_on (a_lin a) = true -> 0 < c_m (a_lin a) -> m_dmin m <= p_d0 q.
(** Usable plastic parameters. *)
Definition good_plast (m : amodel) (a : amat) (q : apoint) : Prop :=
  0 <= a_etavp a /\ 0 < p_beta q /\ 0 < m_dt m /\ 0 <= sin (p_dil q) /\ 0 <= sin (p_fric q).

Lemma visc_inv : forall post cen m a q o, aniso_visc post cen m a q = AOut o ->
  exists eve tii, av_loop (lip_of (vin_of m a q)) nitmax (eta_up (m_cap m) (vin_of m a q)) = AvRet eve tii /\
    o = aniso_out post cen m a q eve tii.
Proof.
  intros post cen m a q o H. unfold aniso_visc in H.
  destruct (c_on (a_lin a) && Rltb 0 (c_m (a_lin a)) && Rltb (p_d0 q) (m_dmin m)); [discriminate|].
  destruct (av_loop _ _ _) as [k|eve tii] eqn:E; [discriminate|]. injection H; intros <-. exists eve, tii. split; reflexivity.
Qed.

Lemma visc_facts : forall nmax m a q, good_input nmax m a q -> some_mechanism m a q ->
  exists e, point_viscosity m a q e /\ (forall e', point_viscosity m a q e' -> e' = e) /\
  forall eve tii, av_loop (lip_of (vin_of m a q)) nitmax (eta_up (m_cap m) (vin_of m a q)) = AvRet eve tii ->
    exists x, tii = 2 * x * invariant 1 (p_E q) /\ e <= eve <= x /\ x <= (1 + 1 / 10 ^ 11) * e /\
      Rabs (resid (lip_of (vin_of m a q)) x / invariant 1 (p_E q)) <= 1 / 10 ^ 11.
Proof.
  intros nmax m a q H Hi. pose proof (good_ok _ _ _ _ H) as O. set (v := vin_of m a q) in *.
  destruct (start_ok nmax (m_cap m) v O eq_refl Hi) as [S1 [S2 [S3 [S4 S5]]]].
  pose proof (terms_good nmax v O) as G. assert (HE : 0 < v_E v) by apply O.
  destruct (S_root _ (v_E v) _ G HE S1 S2) as [e [[He Heu] Es]].
  assert (EE : v_E v = invariant 1 (p_E q)) by apply local_invariant.
  assert (PV : forall x, point_viscosity m a q x <-> 0 < x /\ S_ (terms (lip_of v)) x = v_E v).
  { intros x. unfold point_viscosity. split; intros [X1 X2]; (split; [exact X1|]).
    - rewrite <- EE in X2. rewrite <- (rate_total nmax) in X2; [|exact H|nra]. rewrite <- (total_terms nmax) by assumption. exact X2.
    - rewrite <- EE. rewrite <- (rate_total nmax); [|exact H|nra]. fold v. rewrite (total_terms nmax) by assumption. exact X2. }
  exists e. split; [apply PV; split; assumption|]. split.
  - intros e' Hp. apply PV in Hp. destruct Hp as [P1 P2]. now apply (S_unique (terms (lip_of v)) e' e (v_E v)).
  - intros eve tii R1. unfold nitmax in R1.
    destruct (av_ret (lip_of v) (lip_no_gbs v) HE (ok_cst nmax v O) (ok_el nmax v O) G S5 e He Es 19 _ eve tii S1 S2 R1) as [x [X1 [X2 [X3 [X4 [X5 X6]]]]]].
    exists x. unfold ve_tol in *. replace (/ 10 ^ 11) with (1 / 10 ^ 11) in * by lra.
    split; [rewrite X1, <- EE; unfold stress; reflexivity|]. split; [exact X3|]. split; [exact X4|]. rewrite <- EE. exact X6.
Qed.

(** With exponents up to 8, at least one mechanism and a usable grain size the function returns: neither
    of its exits is taken. *)
Theorem C118_returns : forall post cen m a q, good_input 8 m a q -> some_mechanism m a q -> grains m a q ->
  exists o, aniso_visc post cen m a q = AOut o.
Proof.
  intros post cen m a q H Hi Hg. pose proof (good_ok _ _ _ _ H) as O. unfold aniso_visc. set (v := vin_of m a q) in *.
  assert (C : c_on (a_lin a) && Rltb 0 (c_m (a_lin a)) && Rltb (p_d0 q) (m_dmin m) = false).
  { destruct (c_on (a_lin a)) eqn:b1; [|reflexivity]. destruct (Rltb 0 (c_m (a_lin a))) eqn:b2; [|reflexivity]. cbn [andb].
    apply Rltb_true in b2. apply Rltb_false. now apply Hg. }
  rewrite C. destruct (start_ok 8 (m_cap m) v O eq_refl Hi) as [S1 [S2 [S3 [S4 S5]]]].
  pose proof (terms_good 8 v O) as G. pose proof (terms_good8 v O) as G8. assert (HE : 0 < v_E v) by apply O.
  destruct (S_root _ (v_E v) _ G HE S1 S2) as [e [[He Heu] Es]].
  destruct (fast_loop (lip_of v) (lip_no_gbs v) HE (ok_cst 8 v O) (ok_el 8 v O) G S5 e He Es G8 _ S1 S2 S3) as [r [R1 R2]].
  unfold local_iteration in R1. unfold nitmax in *.
  rewrite (av_of_li (lip_of v) (lip_no_gbs v) HE (ok_cst 8 v O) (ok_el 8 v O) G S5 e He Es 19 _ r S1 S2 R1 R2).
  eexists. reflexivity.
Qed.
Print Assumptions C118_returns.

(** Below yield: the viscosity is the one at which the flow laws of all mechanisms together give the
    imposed rate, to 1e-11, and that viscosity is unique; the reported rates account for the imposed one. *)
Theorem C118_viscosity : forall post cen nmax m a q o, good_input nmax m a q -> some_mechanism m a q ->
  good_plast m a q -> aniso_visc post cen m a q = AOut o ->
  exists e, point_viscosity m a q e /\ (forall e', point_viscosity m a q e' -> e' = e) /\ 0 <= o_pl o /\
    (o_pl o = 0 -> e <= o_vep o <= (1 + 1 / 10 ^ 11) * e) /\
    (0 < o_pl o -> o_vep o < (1 + 1 / 10 ^ 11) * e) /\
    let E := invariant 1 (p_E q) in
    exists t, 2 * e * E <= t <= (1 + 1 / 10 ^ 11) * (2 * e * E) /\
      Rabs (E - (o_cst o + o_pwl o + o_exp o + o_lin o + (if m_elastic m && negb (m_step0 m) then t / (2 * (p_G q * m_dt m)) else 0)))
        <= 1 / 10 ^ 11 * E.
Proof.
  intros post cen nmax m a q o H Hi Hp Ho. destruct (visc_inv _ _ _ _ _ _ Ho) as [eve [tii [R1 ->]]].
  destruct (visc_facts nmax m a q H Hi) as [e [P1 [P2 P3]]]. destruct (P3 eve tii R1) as [x [X1 [X2 [X3 X4]]]].
  assert (HE : 0 < invariant 1 (p_E q)) by apply H. assert (He : 0 < e) by apply P1.
  exists e. split; [exact P1|]. split; [exact P2|].
  destruct Hp as [K1 [K2 [K3 [K4 K5]]]].
  assert (Hden : 0 < eve + a_etavp a + 1 / p_beta q * m_dt m * sin (if elastic_on m then p_dil q else 0) * sin (p_fric q)).
  { assert (0 <= sin (if elastic_on m then p_dil q else 0)) by (destruct (elastic_on m); [exact K4|rewrite sin_0; lra]).
    assert (0 < 1 / p_beta q * m_dt m) by (apply Rmult_lt_0_compat; [apply Rdiv_lt_0_compat; lra|exact K3]).
    assert (0 <= 1 / p_beta q * m_dt m * sin (if elastic_on m then p_dil q else 0) * sin (p_fric q)).
    { apply Rmult_le_pos; [apply Rmult_le_pos; lra|exact K5]. } lra. }
  assert (EE : v_E (vin_of m a q) = invariant 1 (p_E q)) by apply local_invariant.
  cbn [aniso_out o_pl o_vep o_cst o_pwl o_exp o_lin]. unfold aniso_out. cbn zeta. cbn [o_pl o_vep o_cst o_pwl o_exp o_lin].
  set (den := eve + a_etavp a + 1 / p_beta q * m_dt m * sin (if elastic_on m then p_dil q else 0) * sin (p_fric q)) in *.
  destruct (Rltb (/ 10 ^ 17) (tii - ani_yield a q) && a_plast a) eqn:Epl.
  - apply andb_prop in Epl. destruct Epl as [Epl _]. apply Rltb_true in Epl.
    assert (0 < / 10 ^ 17) by (apply Rinv_0_lt_compat, pow_lt; lra).
    assert (Hgp : 0 < (tii - ani_yield a q) / den) by (apply Rdiv_lt_0_compat; lra).
    set (g := (tii - ani_yield a q) / den) in *. cbn [ifb].
    split; [lra|]. split; [intros; lra|]. split.
    { intros _. rewrite EE. apply Rlt_le_trans with x; [|exact X3].
      assert (0 < g * eve) by (apply Rmult_lt_0_compat; lra).
      apply Rmult_lt_reg_r with (2 * invariant 1 (p_E q)); [lra|].
      replace ((tii - g * eve) / 2 / invariant 1 (p_E q) * (2 * invariant 1 (p_E q))) with (tii - g * eve) by (field; lra). lra. }
    exists tii. split; [rewrite X1; split; [nra|]|].
    { assert (x * (2 * invariant 1 (p_E q)) <= ((1 + 1 / 10 ^ 11) * e) * (2 * invariant 1 (p_E q))) by (apply Rmult_le_compat_r; lra). lra. }
    unfold Rdiv in X4 at 1. rewrite Rabs_mult, (Rabs_pos_eq (/ _)) in X4 by (left; now apply Rinv_0_lt_compat).
    apply Rmult_le_compat_r with (r := invariant 1 (p_E q)) in X4; [|lra]. rewrite Rmult_assoc, Rinv_l, Rmult_1_r in X4 by lra.
    eapply Rle_trans; [|exact X4]. right. f_equal. unfold resid, e_vis. rewrite (e_gbs_0 _ _ (lip_no_gbs _)).
    assert (St : stress (lip_of (vin_of m a q)) x = tii) by (unfold stress; cbn [lip_of Eii]; rewrite EE; lra).
    rewrite St. cbn [lip_of Eii el eta_el]. rewrite EE. cbn [vin_of v_el v_etael]. unfold elastic_on, el_eta, elastic_on, ifb.
    destruct (m_elastic m && negb (m_step0 m)); ring.
  - cbn [ifb]. split; [lra|]. split; [intros _; lra|]. split; [intros; lra|].
    exists tii. split; [rewrite X1; split; [nra|]|].
    { assert (x * (2 * invariant 1 (p_E q)) <= ((1 + 1 / 10 ^ 11) * e) * (2 * invariant 1 (p_E q))) by (apply Rmult_le_compat_r; lra). lra. }
    unfold Rdiv in X4 at 1. rewrite Rabs_mult, (Rabs_pos_eq (/ _)) in X4 by (left; now apply Rinv_0_lt_compat).
    apply Rmult_le_compat_r with (r := invariant 1 (p_E q)) in X4; [|lra]. rewrite Rmult_assoc, Rinv_l, Rmult_1_r in X4 by lra.
    eapply Rle_trans; [|exact X4]. right. f_equal. unfold resid, e_vis. rewrite (e_gbs_0 _ _ (lip_no_gbs _)).
    assert (St : stress (lip_of (vin_of m a q)) x = tii) by (unfold stress; cbn [lip_of Eii]; rewrite EE; lra).
    rewrite St. cbn [lip_of Eii el eta_el]. rewrite EE. cbn [vin_of v_el v_etael]. unfold elastic_on, el_eta, elastic_on, ifb.
    destruct (m_elastic m && negb (m_step0 m)); ring.
Qed.
Print Assumptions C118_viscosity.

(** Specification: components of a tensor in axes turned by [w]. *)
Definition turned (w : R) (t : ten) : ten :=
  let c := cos w in let s := sin w in
  Ten (c * c * txx t + 2 * c * s * txz t + s * s * tzz t) (s * s * txx t - 2 * c * s * txz t + c * c * tzz t)
      (- c * s * txx t + c * s * tzz t + (c * c - s * s) * txz t).
Lemma turned_rotated : forall w t, turned w t = rotated_strain (cos w * sin w) (cos w * cos w) t.
Proof.
  intros w t. unfold turned, rotated_strain. pose proof (sin2_cos2 w) as H. unfold Rsqr in H.
  replace (1 - cos w * cos w) with (sin w * sin w) by lra. f_equal; ring.
Qed.

(** Whatever the input, the stress in the frame of the layer (a quarter turn from the director) is the
    viscosity times the strain rate there, with the shear component divided by the anisotropy factor; its
    invariant, with the shear weighted by the factor, is twice the viscosity times the strain-rate
    invariant, so yielding is judged on the stress the material carries. With factor 1 the stress is the
    isotropic one, whatever the orientation. *)
Theorem C118_stress : forall post cen m a q o, aniso_visc post cen m a q = AOut o -> p_fac q <> 0 ->
  let w := p_angle q - PI / 2 in
  (let e := turned w (p_E q) in
   turned w (o_T o) = Ten (2 * o_vep o * txx e) (2 * o_vep o * tzz e) (2 * o_vep o * txz e / p_fac q)) /\
  invariant (p_fac q) (turned w (o_T o)) = 2 * Rabs (o_vep o) * invariant 1 (p_E q) /\
  (p_fac q = 1 -> o_T o = Ten (2 * o_vep o * txx (p_E q)) (2 * o_vep o * tzz (p_E q)) (2 * o_vep o * txz (p_E q))).
Proof.
  intros post cen m a q o Ho Hf w. destruct (visc_inv _ _ _ _ _ _ Ho) as [eve [tii [_ ->]]].
  set (O := aniso_out post cen m a q eve tii).
  assert (ET : o_T O = local_stress (p_angle q) (p_fac q) (o_vep O) (p_E q)) by reflexivity.
  rewrite ET. set (eta := o_vep O).
  pose proof (local_stress_layer (p_angle q) (p_fac q) eta (p_E q) Hf) as L. cbn zeta in L.
  rewrite !turned_rotated. fold w in L. unfold layer_lxlz, layer_lx2 in L. fold w in L.
  assert (C : turned w (local_stress (p_angle q) (p_fac q) eta (p_E q)) =
    let e := turned w (p_E q) in Ten (2 * eta * txx e) (2 * eta * tzz e) (2 * eta * txz e / p_fac q)).
  { unfold local_stress, layer_lxlz, layer_lx2. fold w. rewrite <- turned_rotated. cbn zeta.
    set (e := turned w (p_E q)). set (X := 2 * eta * txx e). set (Z := 2 * eta * tzz e). set (Y := 2 * eta * txz e / p_fac q).
    pose proof (sin2_cos2 w) as H. unfold Rsqr in H.
    assert (Hs : 1 - cos w * cos w = sin w * sin w) by lra. rewrite Hs.
    set (c := cos w) in *. set (s := sin w) in *.
    assert (H1 : (s * s + c * c) * (s * s + c * c) = 1) by (rewrite H; ring).
    unfold turned. cbn [txx tzz txz]. fold c s. f_equal.
    - transitivity (X * ((s * s + c * c) * (s * s + c * c))); [ring|rewrite H1; ring].
    - transitivity (Z * ((s * s + c * c) * (s * s + c * c))); [ring|rewrite H1; ring].
    - transitivity (Y * ((s * s + c * c) * (s * s + c * c))); [ring|rewrite H1; ring]. }
  rewrite <- !turned_rotated. split; [exact C|]. split; [rewrite turned_rotated; exact L|].
  intros F1. unfold local_stress, layer_lxlz, layer_lx2. fold w. rewrite F1. pose proof (sin2_cos2 w) as H. unfold Rsqr in H.
  assert (Hs : 1 - cos w * cos w = sin w * sin w) by lra. unfold rotated_strain. cbn [txx tzz txz]. rewrite Hs.
  set (c := cos w) in *. set (s := sin w) in *.
  assert (H1 : (s * s + c * c) * (s * s + c * c) = 1) by (rewrite H; ring).
  unfold Rdiv. rewrite Rinv_1. f_equal.
  - transitivity (2 * eta * txx (p_E q) * ((s * s + c * c) * (s * s + c * c))); [ring|rewrite H1; ring].
  - transitivity (2 * eta * tzz (p_E q) * ((s * s + c * c) * (s * s + c * c))); [ring|rewrite H1; ring].
  - transitivity (2 * eta * txz (p_E q) * ((s * s + c * c) * (s * s + c * c))); [ring|rewrite H1; ring].
Qed.
Print Assumptions C118_stress.

(** Orientation and anisotropy factor change the stress only: every other output is the same. *)
Theorem C118_orientation : forall post cen m a q o w f, aniso_visc post cen m a q = AOut o ->
  exists o', aniso_visc post cen m a (Apoint w f (p_G q) (p_T q) (p_P q) (p_d0 q) (p_phi q) (p_E q) (p_dil q) (p_fric q) (p_C q) (p_P0 q) (p_beta q)) = AOut o' /\
    o_vep o' = o_vep o /\ o_eta o' = o_eta o /\ o_pl o' = o_pl o /\ o_pc o' = o_pc o /\ o_wtot o' = o_wtot o /\ o_wdiss o' = o_wdiss o.
Proof.
  intros post cen m a q o w f H. destruct (visc_inv _ _ _ _ _ _ H) as [eve [tii [R1 ->]]].
  set (q' := Apoint w f _ _ _ _ _ _ _ _ _ _ _).
  assert (V : vin_of m a q' = vin_of m a q).
  { unfold vin_of. rewrite !local_invariant. reflexivity. }
  exists (aniso_out post cen m a q' eve tii). split.
  - unfold aniso_visc in *. rewrite V, R1. change (p_d0 q') with (p_d0 q).
    destruct (c_on (a_lin a) && Rltb 0 (c_m (a_lin a)) && Rltb (p_d0 q) (m_dmin m)); [discriminate|reflexivity].
  - unfold aniso_out. rewrite V. repeat split; reflexivity.
Qed.
Print Assumptions C118_orientation.

(** Yielding: below yield the weighted invariant of the stress does not exceed the yield stress (nor the
    von Mises limit) by more than 1e-17. At yield, if the limit is not reached, the signed invariant is
    the Drucker-Prager yield stress at the corrected pressure plus the viscoplastic overstress; the
    pressure correction is the one of the plastic dilation. *)
Theorem C118_yield : forall cen nmax m a q o, good_input nmax m a q -> some_mechanism m a q -> good_plast m a q ->
  a_plast a = true -> aniso_visc true cen m a q = AOut o ->
  let E := invariant 1 (p_E q) in
  let y := p_C q * cos (p_fric q) + p_P q * sin (p_fric q) in
  (o_pl o = 0 -> 2 * o_vep o * E <= Rmin y (a_Slim a) + / 10 ^ 17 /\ o_pc o = p_P q /\ o_over o = 0 /\ o_divpl o = 0) /\
  (0 < o_pl o -> o_over o = a_etavp a * (2 * o_pl o) /\
     o_divpl o = 2 * o_pl o * sin (if m_elastic m && negb (m_step0 m) then p_dil q else 0) /\
     o_pc o = p_P q + m_dt m / p_beta q * o_divpl o /\
     (y <= a_Slim a -> 2 * o_vep o * E = p_C q * cos (p_fric q) + o_pc o * sin (p_fric q) + o_over o) /\
     (a_Slim a < y -> 2 * o_vep o * E = a_Slim a + (o_pc o - p_P q) * sin (p_fric q) + o_over o)).
Proof.
  intros cen nmax m a q o H Hi Hp Hpl Ho. destruct (visc_inv _ _ _ _ _ _ Ho) as [eve [tii [R1 ->]]].
  destruct (visc_facts nmax m a q H Hi) as [e [P1 [P2 P3]]]. destruct (P3 eve tii R1) as [x [X1 [X2 [X3 X4]]]].
  assert (HE : 0 < invariant 1 (p_E q)) by apply H. assert (He : 0 < e) by apply P1.
  destruct Hp as [K1 [K2 [K3 [K4 K5]]]]. cbn zeta.
  set (y := p_C q * cos (p_fric q) + p_P q * sin (p_fric q)).
  assert (Yd : ani_yield a q = if Rltb (a_Slim a) y then a_Slim a else y) by (unfold ani_yield; rewrite Hpl; reflexivity).
  set (sd := sin (if elastic_on m then p_dil q else 0)).
  assert (Hsd : 0 <= sd) by (unfold sd; destruct (elastic_on m); [exact K4|rewrite sin_0; lra]).
  assert (Hden : 0 < eve + a_etavp a + 1 / p_beta q * m_dt m * sd * sin (p_fric q)).
  { assert (0 < 1 / p_beta q * m_dt m) by (apply Rmult_lt_0_compat; [apply Rdiv_lt_0_compat; lra|exact K3]).
    assert (0 <= 1 / p_beta q * m_dt m * sd * sin (p_fric q)).
    { apply Rmult_le_pos; [apply Rmult_le_pos; lra|exact K5]. } lra. }
  assert (EE : v_E (vin_of m a q) = invariant 1 (p_E q)) by apply local_invariant.
  unfold aniso_out. cbn zeta. cbn [o_pl o_vep o_pc o_over o_divpl ifb]. fold sd. rewrite Hpl, andb_true_r, EE.
  set (den := eve + a_etavp a + 1 / p_beta q * m_dt m * sd * sin (p_fric q)) in *.
  assert (0 < / 10 ^ 17) by (apply Rinv_0_lt_compat, pow_lt; lra).
  destruct (Rltb (/ 10 ^ 17) (tii - ani_yield a q)) eqn:Epl.
  - apply Rltb_true in Epl.
    assert (Hgp : 0 < (tii - ani_yield a q) / den) by (apply Rdiv_lt_0_compat; lra).
    set (g := (tii - ani_yield a q) / den) in *. cbn [ifb]. split; [intros; lra|]. intros _.
    assert (Hg : g * den = tii - ani_yield a q) by (unfold g; field; lra). unfold den in Hg.
    split; [lra|]. split; [unfold sd, elastic_on; lra|]. split; [field; lra|].
    replace (2 * ((tii - g * eve) / 2 / invariant 1 (p_E q)) * invariant 1 (p_E q)) with (tii - g * eve) by (field; lra).
    unfold y in *. rewrite Yd in Hg. split; intros Hy; unfold Rltb in Hg; destruct (Rlt_dec (a_Slim a) _) as [d|d] in Hg; lra.
  - apply Rltb_false in Epl. cbn [ifb]. split; [intros _|intros; lra].
    assert (2 * eve * invariant 1 (p_E q) <= tii) by (rewrite X1; nra).
    assert (ani_yield a q <= Rmin y (a_Slim a)).
    { rewrite Yd. unfold Rltb. destruct (Rlt_dec (a_Slim a) y); apply Rmin_glb; lra. }
    split; [lra|]. split; [reflexivity|]. split; lra.
Qed.
Print Assumptions C118_yield.

(** The work reported at a centroid below yield: the total is the sum of the elastic and the dissipated
    part to 2e-11. *)
Theorem C118_work : forall m a q o, good_input 8 m a q -> some_mechanism m a q ->
  a_plast a = false -> (a_cst a || c_on (a_pwl a) || peierls_on m a q || c_on (a_lin a) = true) ->
  aniso_visc true true m a q = AOut o ->
  0 < o_wdiss o /\
  Rabs (o_wtot o - ((if m_elastic m && negb (m_step0 m) then o_wel o else 0) + o_wdiss o)) <= 2 / 10 ^ 11 * o_wtot o.
Proof.
  intros m a q o H Hi Hpl Hv Ho. destruct (visc_inv _ _ _ _ _ _ Ho) as [eve [tii [R1 ->]]].
  pose proof (good_ok _ _ _ _ H) as O. set (v := vin_of m a q) in *.
  destruct (C60_work_balance (m_cap m) v (p_P q) O eq_refl Hi) as [r [t [W1 W2]]].
  { exact Hv. }
  destruct (start_ok 8 (m_cap m) v O eq_refl Hi) as [S1 [S2 [S3 [S4 S5]]]].
  pose proof (terms_good 8 v O) as G. pose proof (terms_good8 v O) as G8. assert (HE : 0 < v_E v) by apply O.
  destruct (S_root _ (v_E v) _ G HE S1 S2) as [e [[He Heu] Es]].
  destruct (fast_loop (lip_of v) (lip_no_gbs v) HE (ok_cst 8 v O) (ok_el 8 v O) G S5 e He Es G8 _ S1 S2 S3) as [r' [R2 R3]].
  assert (Er : r' = r /\ t = stress (lip_of v) r). { unfold ve_viscosity in W1. rewrite R2 in W1. injection W1; intros; subst. split; reflexivity. }
  destruct Er as [-> Et]. unfold local_iteration in R2.
  pose proof (av_of_li (lip_of v) (lip_no_gbs v) HE (ok_cst 8 v O) (ok_el 8 v O) G S5 e He Es 19 _ r S1 S2 R2 R3) as A.
  unfold nitmax in R1. rewrite A in R1. injection R1; intros Ht Hn.
  destruct (av_ret (lip_of v) (lip_no_gbs v) HE (ok_cst 8 v O) (ok_el 8 v O) G S5 e He Es 19 _ _ _ S1 S2 A) as [x [X1 [X2 [X3 [X4 [X5 X6]]]]]].
  rewrite Hn in X2, X3. assert (Ex : x = r). { unfold stress in X1. cbn [lip_of Eii] in X1. nra. } subst x.
  assert (Hr : 0 < r) by lra. rewrite Et in W2. rewrite Ht in W2. clear Et.
  assert (Htp : 0 < tii). { rewrite <- Ht. unfold stress. cbn [lip_of Eii]. nra. }
  cbn zeta in W2. destruct W2 as [W2 [W3 W4]]. unfold w_tot, w_el, w_diss in *. cbn [r_tii] in *.
  unfold aniso_out. cbn zeta. cbn [o_wtot o_wel o_wdiss]. rewrite Hpl, andb_false_r. cbn [andb ifb]. fold v.
  match goal with |- context [1 / (?i1 + 0)] => set (inv := i1) end.
  assert (EP : post_eta v tii (Pres false r tii 0 (p_P q) 0 0) = 1 / (inv + 0)).
  { unfold post_eta, inv. cbn [r_pl ifb]. f_equal. ring. }
  rewrite <- EP. split; [exact W3|].
  set (wd := tii * tii / post_eta v tii (Pres false r tii 0 (p_P q) 0 0)) in *.
  assert (Wel : (if v_el v then tii * tii / v_etael v else 0) = (if m_elastic m && negb (m_step0 m) then tii * tii / el_eta m q else 0)) by reflexivity.
  rewrite Wel in W4. set (we := if m_elastic m && negb (m_step0 m) then tii * tii / el_eta m q else 0) in *.
  set (T := tii * tii / r) in *. set (T' := tii * tii / eve).
  assert (HT : 0 < T) by (unfold T; apply Rdiv_lt_0_compat; nra).
  assert (L1 : T <= T'). { unfold T, T', Rdiv. apply Rmult_le_compat_l; [nra|]. apply Rinv_le_contravar; lra. }
  assert (L2 : T' <= (1 + / 10 ^ 11) * T).
  { unfold T, T'. unfold ve_tol in X4. apply Rmult_le_reg_r with (eve * r); [nra|].
    replace (tii * tii / eve * (eve * r)) with (tii * tii * r) by (field; lra).
    replace ((1 + / 10 ^ 11) * (tii * tii / r) * (eve * r)) with ((tii * tii) * ((1 + / 10 ^ 11) * eve)) by (field; lra).
    apply Rmult_le_compat_l; [nra|]. assert ((1 + / 10 ^ 11) * e <= (1 + / 10 ^ 11) * eve) by (apply Rmult_le_compat_l; lra). lra. }
  replace (T' - (we + wd)) with ((T - (we + wd)) + (T' - T)) by ring.
  eapply Rle_trans; [apply Rabs_triang|]. rewrite (Rabs_pos_eq (T' - T)) by lra.
  assert (/ 10 ^ 11 * T <= / 10 ^ 11 * T') by (apply Rmult_le_compat_l; lra). lra.
Qed.
Print Assumptions C118_work.

(** ** Cells *)
Lemma wsum_const : forall g c os, (forall fo, In fo os -> g (snd fo) = c) -> wsum g os = c * fold_right (fun fo s => fst fo + s) 0 os.
Proof.
  intros g c os. unfold wsum.
  assert (G : forall l s, (forall fo, In fo l -> g (snd fo) = c) -> fold_left (fun s fo => s + fst fo * g (snd fo)) l s = s + c * fold_right (fun fo s => fst fo + s) 0 l).
  { induction l as [|fo l IH]; intros s Hl; cbn [fold_left fold_right]; [ring|]. rewrite IH by (intros; apply Hl; now right).
    rewrite (Hl fo) by now left. ring. }
  intros H. rewrite G by exact H. ring.
Qed.

Lemma phases_out : forall m q l os, phases m q l = inr os ->
  forall fo, In fo os -> exists a, In (fst fo, a) l /\ aniso_visc true true m a q = AOut (snd fo).
Proof.
  intros m q. induction l as [|[f a] l IH]; intros os H fo Hf; cbn [phases] in H.
  - injection H; intros <-. destruct Hf.
  - destruct (active f).
    + destruct (aniso_visc true true m a q) as [k|o] eqn:E; [discriminate|].
      destruct (phases m q l) as [k|os'] eqn:E2; [discriminate|]. injection H; intros <-. destruct Hf as [<-|Hf].
      * exists a. split; [now left|exact E].
      * destruct (IH os' eq_refl fo Hf) as [a' [I1 I2]]. exists a'. split; [now right|exact I2].
    + destruct (IH os H fo Hf) as [a' [I1 I2]]. exists a'. split; [now right|exact I2].
Qed.

(** Refuted: the density of a cell comes from its material. With [density_variations] the loop stores
    density zero in every cell, whatever it contains, because the function never computes one; the
    reaction progress is reset to zero in the same way, with or without the option. *)
Theorem C118_density_refuted : forall avg dens m air rho d1 d2 q l c,
  aniso_cell avg dens m air rho d1 d2 q l = CCell c -> (dens = true -> n_rho c = 0) /\ n_x c = 0 /\ (dens = false -> n_rho c = rho).
Proof.
  intros avg dens m air rho d1 d2 q l c H. unfold aniso_cell in H. destruct air.
  - injection H; intros <-. cbn [n_rho n_x]. destruct dens; repeat split; intros; congruence.
  - destruct (phases m q l) as [k|os] eqn:E; [discriminate|]. injection H; intros <-. cbn [n_rho n_x].
    assert (Z : forall g, (forall post cen m a q eve tii, g (aniso_out post cen m a q eve tii) = 0) -> wsum g os = 0).
    { intros g Hg. rewrite (wsum_const g 0); [ring|]. intros fo Hf. destruct (phases_out _ _ _ _ E fo Hf) as [a [_ Ha]].
      destruct (visc_inv _ _ _ _ _ _ Ha) as [eve [tii [_ ->]]]. apply Hg. }
    rewrite (Z o_rho), (Z o_x) by reflexivity. destruct dens; repeat split; intros; congruence.
Qed.
Print Assumptions C118_density_refuted.

(** The fractions of the phases present. *)
Definition amounts (l : list (R * amat)) : list (R * R) := map (fun fa => (fst fa, 0)) l.

Lemma cell_link : forall avg m q l os, Forall (fun fe => 0 <= fst fe /\ (fst fe = 0 \/ big (fst fe))) (amounts l) ->
  phases m q l = inr os ->
  exists l', total l' = total (amounts l) /\ Forall (fun fe => 0 <= fst fe /\ (fst fe = 0 \/ big (fst fe))) l' /\
    (forall fe, In fe l' -> exists a o, In (fst fe, a) l /\ active (fst fe) = true /\ aniso_visc true true m a q = AOut o /\ snd fe = o_vep o) /\
    wsum_avg avg o_vep os = cell_eta avg l' /\ fold_right (fun fo s => fst fo + s) 0 os = total l'.
Proof.
  intros avg m q.
  assert (G : forall l os, Forall (fun fe => 0 <= fst fe /\ (fst fe = 0 \/ big (fst fe))) (amounts l) -> phases m q l = inr os ->
    exists l', total l' = total (amounts l) /\ Forall (fun fe => 0 <= fst fe /\ (fst fe = 0 \/ big (fst fe))) l' /\
    (forall fe, In fe l' -> exists a o, In (fst fe, a) l /\ active (fst fe) = true /\ aniso_visc true true m a q = AOut o /\ snd fe = o_vep o) /\
    (forall s, fold_left (fun s fo => s + contrib avg (fst fo) (o_vep (snd fo))) os s =
               fold_left (fun a fe => if active (fst fe) then a + contrib avg (fst fe) (snd fe) else a) l' s) /\
    fold_right (fun fo s => fst fo + s) 0 os = total l').
  { induction l as [|[f a] l IH]; intros os Hf H; cbn [phases] in H.
    - injection H; intros <-. exists []. cbn. repeat split; auto. intros fe [].
    - cbn [amounts map] in Hf. apply Forall_cons_iff in Hf. destruct Hf as [[F0 F1] F2]. cbn [fst] in F0, F1. destruct (active f) eqn:Ea.
      + destruct (aniso_visc true true m a q) as [k|o] eqn:E; [discriminate|].
        destruct (phases m q l) as [k|os'] eqn:E2; [discriminate|]. injection H; intros <-.
        destruct (IH os' F2 eq_refl) as [l' [L1 [L2 [L3 [L4 L5]]]]]. exists ((f, o_vep o) :: l'). split; [cbn [total amounts map fst]; rewrite L1; reflexivity|].
        split; [constructor; [split; assumption|exact L2]|]. split.
        { intros fe [<-|Hin]; [exists a, o; cbn [fst snd]; repeat split; auto; now left|].
          destruct (L3 fe Hin) as [a' [o' [I1 [I2 [I3 I4]]]]]. exists a', o'. repeat split; auto. now right. }
        split; [intros s; cbn [fold_left fst snd]; rewrite Ea; apply L4|]. cbn [fold_right fst total]. rewrite L5. reflexivity.
      + destruct (IH os F2 H) as [l' [L1 [L2 [L3 [L4 L5]]]]].
        assert (f = 0). { destruct F1 as [F1|F1]; [exact F1|]. apply active_iff in F1. congruence. }
        subst f. exists l'. split; [cbn [amounts map total fst]; fold (amounts l); lra|]. split; [exact L2|]. split; [|split; assumption].
        intros fe Hin. destruct (L3 fe Hin) as [a' [o' [I1 [I2 [I3 I4]]]]]. exists a', o'. repeat split; auto. now right. }
  intros l os Hf H. destruct (G l os Hf H) as [l' [L1 [L2 [L3 [L4 L5]]]]]. exists l'. repeat (split; [assumption|]). split; [|exact L5].
  unfold wsum_avg, cell_eta, sum_active. f_equal. apply L4.
Qed.

(** A cell: the viscosity lies between those of the phases present for each of the three averages, the
    grain size is unchanged, and the stress is the operator of the averaged orientation applied to the
    effective strain rate. A phase that cannot be evaluated ends the run. *)
Theorem C118_cell : forall avg dens m rho d1 d2 q l c lo hi, (avg <= 2)%nat -> 0 < lo -> fractions (amounts l) -> 0 < p_d0 q ->
  (forall f a o, In (f, a) l -> f <> 0 -> aniso_visc true true m a q = AOut o -> lo <= o_vep o <= hi) ->
  aniso_cell avg dens m false rho d1 d2 q l = CCell c ->
  lo <= n_eta c <= hi /\ n_d c = p_d0 q /\ n_stress c = apply_op (picard_operator true (n_eta c) (p_fac q) d1 d2) (p_E q) /\
  (forall f a, In (f, a) l -> big f -> exists o, aniso_visc true true m a q = AOut o).
Proof.
  intros avg dens m rho d1 d2 q l c lo hi Ha Hlo F Hd V H. unfold aniso_cell in H.
  destruct (phases m q l) as [k|os] eqn:E; [discriminate|]. injection H; intros <-. clear H. cbn [n_eta n_d n_stress].
  destruct (cell_link avg m q l os (proj1 F) E) as [l' [L1 [L2 [L3 [L4 L5]]]]].
  split; [|split; [|split]].
  - rewrite L4. apply C61_average_between; try assumption.
    + split; [exact L2|]. rewrite L1. exact (proj2 F).
    + apply Forall_forall. intros fe Hin Hnz. destruct (L3 fe Hin) as [a [o [I1 [I2 [I3 I4]]]]]. rewrite I4. now apply (V (fst fe) a o).
  - rewrite (wsum_const _ (1 / p_d0 q)).
    + rewrite L5, L1, (proj2 F). field. lra.
    + intros fo Hf. destruct (phases_out _ _ _ _ E fo Hf) as [a [_ Hx]]. destruct (visc_inv _ _ _ _ _ _ Hx) as [eve [tii [_ ->]]]. reflexivity.
  - apply C34_grid_stress_is_operator.
  - clear -E. revert os E. induction l as [|[f a] l IH]; intros os E f' a' Hin Hb; [destruct Hin|].
    cbn [phases] in E. destruct Hin as [Heq|Hin].
    + injection Heq; intros; subst. apply active_iff in Hb. rewrite Hb in E. destruct (aniso_visc true true m a' q) as [k|o]; [discriminate|]. now exists o.
    + destruct (active f).
      * destruct (aniso_visc true true m a q) as [k|o]; [discriminate|]. destruct (phases m q l) as [k|os'] eqn:E2; [discriminate|]. now apply (IH os' eq_refl f' a').
      * now apply (IH os E f' a').
Qed.
Print Assumptions C118_cell.

(** Vertices and cells agree: with the same state, materials and fractions a vertex gets the viscosities, the
    viscoelastic factor and the stress of a cell, and it ends the run exactly when the cell does. *)
Theorem C118_vertices : forall avg dens m air rho d1 d2 q l,
  match aniso_cell avg dens m air rho d1 d2 q l, aniso_node avg m air d1 d2 q l with
  | CCell c, NNode v => v_eta v = n_eta c /\ v_phys v = n_phys c /\ v_ve v = n_ve c /\ v_stress v = n_stress c /\ v_x v = n_x c
  | CStop k, NStop k' => k = k'
  | _, _ => False
  end.
Proof.
  intros avg dens m air rho d1 d2 q l. unfold aniso_cell, aniso_node. destruct air; [repeat split; reflexivity|].
  assert (G : match phases m q l, node_phases m q l with
    | inr os, inr os' => forall g : aout -> R, (forall a eve tii, g (aniso_out true false m a q eve tii) = g (aniso_out true true m a q eve tii)) ->
        map (fun fo => (fst fo, g (snd fo))) os' = map (fun fo => (fst fo, g (snd fo))) os
    | inl k, inl k' => k = k' | _, _ => False end).
  { induction l as [|[f a] l IH]; cbn [phases node_phases]; [reflexivity|]. destruct (active f); [|exact IH].
    unfold aniso_visc. destruct (c_on (a_lin a) && Rltb 0 (c_m (a_lin a)) && Rltb (p_d0 q) (m_dmin m)); [reflexivity|].
    destruct (av_loop _ _ _) as [k|eve tii]; [reflexivity|].
    revert IH. destruct (phases m q l) as [k|os], (node_phases m q l) as [k'|os']; intros IH; try exact IH.
    intros g Hg. cbn [map fst snd]. rewrite Hg. f_equal. now apply IH. }
  assert (W : forall g os, wsum g os = fold_left (fun s fo => s + fst fo * snd fo) (map (fun fo => (fst fo, g (snd fo))) os) 0).
  { intros g os. unfold wsum. generalize 0. induction os as [|fo os IH]; intros s; cbn [map fold_left fst snd]; [reflexivity|apply IH]. }
  assert (WA : forall g os, wsum_avg avg g os = finish avg (fold_left (fun s fo => s + contrib avg (fst fo) (snd fo)) (map (fun fo => (fst fo, g (snd fo))) os) 0)).
  { intros g os. unfold wsum_avg. f_equal. generalize 0. induction os as [|fo os IH]; intros s; cbn [map fold_left fst snd]; [reflexivity|apply IH]. }
  revert G. destruct (phases m q l) as [k|os], (node_phases m q l) as [k'|os']; intros G; try exact G.
  cbn [v_eta v_phys v_ve v_stress v_x n_eta n_phys n_ve n_stress n_x]. rewrite !WA, !W.
  rewrite (G o_vep), (G o_eta), (G (fun o => o_vep o / _)), (G o_x) by reflexivity. repeat split; reflexivity.
Qed.
Print Assumptions C118_vertices.

(** ** Refutations *)

(** A point that does not deform ends the run, whatever the material. *)
Theorem C118_rest_refuted : forall post cen m a q, invariant 1 (p_E q) = 0 -> aniso_visc post cen m a q = AStop 1.
Proof.
  intros post cen m a q H. unfold aniso_visc.
  destruct (c_on (a_lin a) && Rltb 0 (c_m (a_lin a)) && Rltb (p_d0 q) (m_dmin m)); [reflexivity|].
  unfold nitmax. cbn [av_loop]. cbn [lip_of Eii vin_of v_E]. rewrite local_invariant, H.
  destruct (Req_EM_T 0 0); [reflexivity|lra].
Qed.
Print Assumptions C118_rest_refuted.

(** The same for a material without any mechanism. *)
Theorem C118_no_mechanism_refuted : forall post cen m a q, invariant 1 (p_E q) <> 0 -> a_cst a = false -> c_on (a_pwl a) = false ->
  c_on (a_lin a) = false -> a_exp a = false -> m_elastic m = false -> aniso_visc post cen m a q = AStop 1.
Proof.
  intros post cen m a q H A1 A2 A3 A4 A5. unfold aniso_visc. rewrite A3. cbn [andb].
  unfold nitmax. cbn [av_loop].
  assert (Z : forall e, dfdeta (lip_of (vin_of m a q)) e = 0).
  { intros e. unfold dfdeta. cbn [lip_of el pei dif dis cst vin_of v_el v_pei v_dif v_dis v_cst].
    unfold elastic_on, peierls_on. rewrite A1, A2, A3, A4, A5. cbn. ring. }
  rewrite Z. cbn [lip_of Eii vin_of v_E]. rewrite local_invariant.
  destruct (Req_EM_T _ 0); [reflexivity|]. destruct (Req_EM_T 0 0); [reflexivity|lra].
Qed.
Print Assumptions C118_no_mechanism_refuted.

(** Concrete materials: constant viscosity [e], alone or with an elastic viscosity of the same size. *)
Definition off : creep := Creep false 1 1 0 0 0 1 1 0 0 1.
Definition newtonian (e : R) (pl : bool) (slim : R) : amat := Amat true e off off false 1 1 1 (/ 2) 1 pl slim 0.
Definition run_model (el : bool) : amodel := Amodel el false 1 1 100 1 2 0 0 1.
Definition shear_point (E P fric dil : R) : apoint := Apoint (PI / 2) 2 1 1 P 1 0 (Ten E (- E) 0) dil fric 0 0 1.

Lemma inv_case : forall E, 0 < E -> invariant 1 (Ten E (- E) 0) = E.
Proof.
  intros E HE. unfold invariant. cbn [txx tzz txz].
  replace (/ 2 * (E ^ 2 + (- E) ^ 2 + (E + - E) ^ 2) + (1 * 0) ^ 2) with (E * E) by field. apply sqrt_square. lra.
Qed.

Lemma run_newtonian : forall e pl slim E P fric dil, 0 < e <= 100 -> 0 < E ->
  let v := vin_of (run_model false) (newtonian e pl slim) (shear_point E P fric dil) in
  av_loop (lip_of v) nitmax (eta_up 100 v) = AvRet e (2 * e * E).
Proof.
  intros e pl slim E P fric dil He HE v.
  assert (EE : v_E v = E) by (unfold v, vin_of; cbn [v_E shear_point p_angle p_E]; rewrite local_invariant; now apply inv_case).
  assert (U : eta_up 100 v = e).
  { unfold eta_up, upd_min. cbn [v vin_of v_cst v_dis v_el v_pei v_dif v_gbs v_etacst newtonian run_model a_cst a_eta0 a_pwl a_lin off c_on elastic_on peierls_on m_elastic m_step0 a_exp andb negb].
    unfold minv. destruct (Rle_dec 100 e); lra. }
  assert (Rs : resid (lip_of v) e = 0).
  { unfold resid, e_vis, e_pwl, e_exp, e_lin, e_gbs, e_cst, stress. cbn [lip_of Eii el cst dis pei dif gbs eta_cst]. rewrite EE.
    cbn [v vin_of v_cst v_dis v_el v_pei v_dif v_gbs v_etacst newtonian run_model a_cst a_eta0 a_pwl a_lin off c_on elastic_on peierls_on m_elastic m_step0 a_exp andb negb ifb]. field. lra. }
  assert (Ds : dfdeta (lip_of v) e = - E / e).
  { unfold dfdeta, e_exp, e_lin, e_pwl. cbn [lip_of Eii el cst dis pei dif gbs eta_cst]. rewrite EE.
    cbn [v vin_of v_cst v_dis v_el v_pei v_dif v_gbs v_etacst newtonian run_model a_cst a_eta0 a_pwl a_lin off c_on elastic_on peierls_on m_elastic m_step0 a_exp andb negb ifb]. ring. }
  assert (Dn : dfdeta (lip_of v) e <> 0).
  { rewrite Ds. unfold Rdiv. apply Rmult_integral_contrapositive_currified; [lra|]. apply Rinv_neq_0_compat. lra. }
  rewrite U. unfold nitmax. cbn [av_loop].
  destruct (Req_EM_T (Eii (lip_of v)) 0) as [Z|_]; [cbn [lip_of Eii] in Z; lra|].
  destruct (Req_EM_T (dfdeta (lip_of v) e) 0) as [Z|_]; [contradiction|].
  unfold newton at 1. rewrite Rs. replace (0 / Eii (lip_of v)) with 0 by (unfold Rdiv; ring). rewrite Rabs_R0.
  assert (Ht : 0 < ve_tol / 100) by (unfold ve_tol; lra). apply Rltb_true in Ht. rewrite Ht.
  f_equal; [unfold Rdiv; ring|]. unfold stress. cbn [lip_of Eii]. rewrite EE. ring.
Qed.

Lemma run_maxwell : forall pl slim E P fric dil, 0 < E ->
  let v := vin_of (run_model true) (newtonian 1 pl slim) (shear_point E P fric dil) in
  av_loop (lip_of v) nitmax (eta_up 100 v) = AvRet (1 / 2) E.
Proof.
  intros pl slim E P fric dil HE v.
  assert (EE : v_E v = E) by (unfold v, vin_of; cbn [v_E shear_point p_angle p_E]; rewrite local_invariant; now apply inv_case).
  assert (U : eta_up 100 v = 1).
  { unfold eta_up, upd_min. cbn [v vin_of v_cst v_dis v_el v_pei v_dif v_gbs v_etacst v_etael newtonian run_model a_cst a_eta0 a_pwl a_lin off c_on elastic_on peierls_on el_eta p_G shear_point m_dt m_elastic m_step0 a_exp andb negb].
    unfold minv. destruct (Rle_dec 100 1); [lra|]. destruct (Rle_dec 1 (1 * 1)); lra. }
  assert (Rs : forall x, resid (lip_of v) x = E - 2 * x * E).
  { intros x. unfold resid, e_vis, e_pwl, e_exp, e_lin, e_gbs, e_cst, stress. cbn [lip_of Eii el cst dis pei dif gbs eta_cst eta_el]. rewrite EE.
    cbn [v vin_of v_cst v_dis v_el v_pei v_dif v_gbs v_etacst v_etael newtonian run_model a_cst a_eta0 a_pwl a_lin off c_on elastic_on peierls_on el_eta p_G shear_point m_dt m_elastic m_step0 a_exp andb negb ifb]. field. }
  assert (Ds : forall x, dfdeta (lip_of v) x = - (2 * E)).
  { intros x. unfold dfdeta, e_exp, e_lin, e_pwl. cbn [lip_of Eii el cst dis pei dif gbs eta_cst eta_el]. rewrite EE.
    cbn [v vin_of v_cst v_dis v_el v_pei v_dif v_gbs v_etacst v_etael newtonian run_model a_cst a_eta0 a_pwl a_lin off c_on elastic_on peierls_on el_eta p_G shear_point m_dt m_elastic m_step0 a_exp andb negb ifb]. field. }
  assert (N1 : forall x, newton (lip_of v) x = 1 / 2) by (intros x; unfold newton; rewrite Rs, Ds; field; lra).
  rewrite U. unfold nitmax. rewrite av_step.
  destruct (Req_EM_T (Eii (lip_of v)) 0) as [Z|_]; [cbn [lip_of Eii] in Z; lra|].
  destruct (Req_EM_T (dfdeta (lip_of v) 1) 0) as [Z|_]; [rewrite Ds in Z; lra|].
  rewrite N1. replace (resid (lip_of v) 1 / Eii (lip_of v)) with (-1) by (rewrite Rs; cbn [lip_of Eii]; rewrite EE; field; lra).
  rewrite Rabs_left by lra. replace (Rltb (- -1) (ve_tol / 100)) with false by (symmetry; apply Rltb_false; unfold ve_tol; lra).
  rewrite av_step. destruct (Req_EM_T (Eii (lip_of v)) 0) as [Z|_]; [cbn [lip_of Eii] in Z; lra|].
  destruct (Req_EM_T (dfdeta (lip_of v) (1 / 2)) 0) as [Z|_]; [rewrite Ds in Z; lra|].
  rewrite N1. replace (resid (lip_of v) (1 / 2) / Eii (lip_of v)) with 0 by (rewrite Rs; cbn [lip_of Eii]; rewrite EE; field; lra).
  rewrite Rabs_R0. assert (Ht : 0 < ve_tol / 100) by (unfold ve_tol; lra). apply Rltb_true in Ht. rewrite Ht.
  f_equal. unfold stress. cbn [lip_of Eii]. rewrite EE. field.
Qed.

Lemma visc_newtonian : forall post cen e pl slim E P fric dil, 0 < e <= 100 -> 0 < E ->
  aniso_visc post cen (run_model false) (newtonian e pl slim) (shear_point E P fric dil) =
  AOut (aniso_out post cen (run_model false) (newtonian e pl slim) (shear_point E P fric dil) e (2 * e * E)).
Proof.
  intros. unfold aniso_visc. cbn [newtonian a_lin off c_on andb]. change (m_cap (run_model false)) with 100.
  rewrite run_newtonian by assumption. reflexivity.
Qed.
Lemma visc_maxwell : forall post cen pl slim E P fric dil, 0 < E ->
  aniso_visc post cen (run_model true) (newtonian 1 pl slim) (shear_point E P fric dil) =
  AOut (aniso_out post cen (run_model true) (newtonian 1 pl slim) (shear_point E P fric dil) (1 / 2) E).
Proof.
  intros. unfold aniso_visc. cbn [newtonian a_lin off c_on andb]. change (m_cap (run_model true)) with 100.
  rewrite run_maxwell by assumption. reflexivity.
Qed.

(** The viscosity limits of the input file are ignored: they do not enter the result, and a viscosity ten times the
    upper limit is returned. *)
Theorem C118_limits_refuted :
  (forall post cen m a q mn mx, aniso_visc post cen (Amodel (m_elastic m) (m_step0 m) (m_dt m) (m_R m) (m_cap m) (m_T0 m) (m_Tp m) (m_dmin m) mn mx) a q
     = aniso_visc post cen m a q) /\
  exists m a q o, m_max m = 1 /\ aniso_visc true true m a q = AOut o /\ o_vep o = 10.
Proof.
  split; [intros; reflexivity|].
  exists (run_model false), (newtonian 10 false 1), (shear_point 1 0 0 0). eexists. split; [reflexivity|]. split; [apply visc_newtonian; lra|].
  unfold aniso_out. cbn zeta. cbn [o_vep newtonian a_plast]. rewrite andb_false_r. reflexivity.
Qed.
Print Assumptions C118_limits_refuted.

(** In tension the return mapping gives a negative stress invariant, hence a negative viscosity. *)
Theorem C118_tension_refuted : exists m a q o, good_plast m a q /\ aniso_visc true true m a q = AOut o /\ o_vep o = -5 /\ o_pl o = 6.
Proof.
  exists (run_model false), (newtonian 1 true 100), (shear_point 1 (-10) (PI / 2) 0). eexists.
  split; [repeat split; cbn; try rewrite sin_PI2; try rewrite sin_0; lra|]. split; [apply visc_newtonian; lra|].
  unfold aniso_out. cbn zeta. cbn [o_vep o_pl].
  assert (Y : ani_yield (newtonian 1 true 100) (shear_point 1 (-10) (PI / 2) 0) = -10).
  { unfold ani_yield. cbn. rewrite cos_PI2, sin_PI2. unfold Rltb. destruct (Rlt_dec 100 _); lra. }
  rewrite Y. cbn [newtonian a_plast a_etavp].
  assert (B : Rltb (/ 10 ^ 17) (2 * 1 * 1 - -10) = true) by (apply Rltb_true; assert (0 < / 10 ^ 17 < 1) by lra; lra).
  rewrite B. cbn [andb ifb]. cbn [vin_of v_E shear_point p_angle p_E]. rewrite local_invariant, inv_case by lra.
  cbn [elastic_on run_model m_elastic andb p_fric m_dt p_beta]. cbn [shear_point run_model newtonian p_fric p_beta m_dt a_etavp]. rewrite sin_0, sin_PI2. split; field.
Qed.
Print Assumptions C118_tension_refuted.

(** With dilation the von Mises limit is exceeded although there is no overstress: limit 1, stress 7. *)
Theorem C118_cutoff_refuted : exists m a q o, good_plast m a q /\ a_Slim a = 1 /\ aniso_visc true true m a q = AOut o /\
  o_over o = 0 /\ 2 * o_vep o * invariant 1 (p_E q) = 7.
Proof.
  exists (run_model true), (newtonian 1 true 1), (shear_point 10 5 (PI / 2) (PI / 2)). eexists.
  split; [repeat split; cbn; try rewrite sin_PI2; lra|]. split; [reflexivity|]. split; [apply visc_maxwell; lra|].
  unfold aniso_out. cbn zeta. cbn [o_vep o_over].
  assert (Y : ani_yield (newtonian 1 true 1) (shear_point 10 5 (PI / 2) (PI / 2)) = 1).
  { unfold ani_yield. cbn. rewrite cos_PI2, sin_PI2. unfold Rltb. destruct (Rlt_dec 1 _); lra. }
  rewrite Y. cbn [newtonian a_plast a_etavp].
  assert (B : Rltb (/ 10 ^ 17) (10 - 1) = true) by (apply Rltb_true; assert (0 < / 10 ^ 17 < 1) by lra; lra).
  rewrite B. cbn [andb ifb]. cbn [vin_of v_E shear_point p_angle p_E]. rewrite local_invariant, inv_case by lra.
  cbn [elastic_on run_model m_elastic m_step0 negb andb p_dil p_fric m_dt p_beta]. cbn [shear_point run_model newtonian p_fric p_dil p_beta m_dt a_etavp]. try rewrite sin_PI2. split; field.
Qed.
Print Assumptions C118_cutoff_refuted.

(** The reported elastic strain rate is the square of the elastic strain rate: the reported rates of a
    Maxwell body add up to 6 where 4 is imposed. *)
Theorem C118_elastic_rate_refuted :
  (forall cen m a q o, aniso_visc true cen m a q = AOut o -> m_elastic m = true -> m_step0 m = false -> o_pl o <> 0 -> 0 < p_G q -> 0 < m_dt m ->
     invariant 1 (p_E q) <> 0 ->
     o_el o = (2 * o_vep o * invariant 1 (p_E q) / (2 * (p_G q * m_dt m))) ^ 2) /\
  exists m a q o, aniso_visc true true m a q = AOut o /\ o_pl o = 0 /\ invariant 1 (p_E q) = 4 /\ o_cst o = 2 /\ o_el o = 4.
Proof.
  split.
  - intros cen m a q o H E1 E2 Hp HG Hdt HE. destruct (visc_inv _ _ _ _ _ _ H) as [eve [tii [_ ->]]].
    unfold aniso_out in *. cbn zeta in *. cbn [o_el o_pl o_vep] in *.
    destruct (Rltb (/ 10 ^ 17) (tii - ani_yield a q) && a_plast a); [|cbn [ifb] in Hp; congruence].
    unfold el_eta, elastic_on. rewrite E1, E2. cbn [andb negb ifb]. cbn [vin_of v_E]. rewrite local_invariant.
    match goal with |- context [(tii - ani_yield a q) / ?d] => set (g := (tii - ani_yield a q) / d) end.
    field. repeat split; try assumption; lra.
  - exists (run_model true), (newtonian 1 false 1), (shear_point 4 0 0 0). eexists. split; [apply visc_maxwell; lra|].
    unfold aniso_out. cbn zeta. cbn [o_el o_pl o_cst newtonian a_plast]. rewrite andb_false_r. split; [reflexivity|].
    split; [cbn [shear_point p_E]; apply inv_case; lra|]. split.
    + unfold e_cst. cbn [lip_of cst eta_cst vin_of v_cst v_etacst newtonian a_cst a_eta0 ifb]. field.
    + cbn [elastic_on run_model m_elastic m_step0 negb andb ifb el_eta shear_point p_G m_dt]. field.
Qed.
Print Assumptions C118_elastic_rate_refuted.

(** The hypotheses of the positive theorems hold for a Maxwell body in pure shear across a layer of factor 2:
    viscosity 1/2, stress 4 (isotropic here, as the shear vanishes in the layer frame). *)
Example C118_ex : good_input 8 (run_model true) (newtonian 1 false 1) (shear_point 4 0 0 0) /\
  some_mechanism (run_model true) (newtonian 1 false 1) (shear_point 4 0 0 0) /\
  point_viscosity (run_model true) (newtonian 1 false 1) (shear_point 4 0 0 0) (1 / 2) /\
  exists o, aniso_visc true true (run_model true) (newtonian 1 false 1) (shear_point 4 0 0 0) = AOut o /\ o_vep o = 1 / 2 /\ o_wtot o = 32.
Proof.
  assert (I4 : invariant 1 (Ten 4 (Ropp 4) 0) = 4) by (apply inv_case; lra).
  split; [|split; [|split]].
  - unfold good_input, good_creep. cbn [shear_point newtonian run_model p_E p_d0 p_G p_T m_R m_T0 m_dt m_Tp a_cst a_eta0 a_pwl a_lin a_exp off c_on].
    rewrite I4. repeat split; try lra; discriminate.
  - exists 1. split; [apply (al_cst (vin_of (run_model true) (newtonian 1 false 1) (shear_point 4 0 0 0))); reflexivity|cbn; lra].
  - split; [lra|]. unfold rate_sum. cbn [shear_point newtonian run_model p_E p_G m_dt a_cst a_eta0 a_pwl a_lin a_exp off c_on m_elastic m_step0 andb negb].
    rewrite I4. field.
  - eexists. split; [apply visc_maxwell; lra|]. unfold aniso_out. cbn zeta. cbn [o_vep o_wtot newtonian a_plast andb]. rewrite andb_false_r. cbn [ifb]. split; [reflexivity|field].
Qed.

(** A cell of that material alone. *)
Example C118_cell_ex : exists c, aniso_cell 1 true (run_model true) false 3 0 0 (shear_point 4 0 0 0) [(1, newtonian 1 false 1)] = CCell c /\
  n_eta c = 1 / 2 /\ n_rho c = 0 /\ n_d c = 1.
Proof.
  unfold aniso_cell. cbn [phases].
  assert (A : active 1 = true) by (apply active_iff; unfold big; rewrite Rabs_R1; lra). rewrite A.
  rewrite visc_maxwell by lra. eexists. split; [reflexivity|]. cbn [n_eta n_rho n_d].
  unfold wsum_avg, wsum, aniso_out. cbn zeta. cbn [fold_left fst snd o_vep o_rho o_d newtonian a_plast]. rewrite andb_false_r.
  cbn [finish contrib shear_point p_d0]. repeat split; field.
Qed.
