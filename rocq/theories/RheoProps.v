(** * C58-C60: creep, elasticity and plasticity at a point *)
From Coq Require Import Reals List Bool Lra Lia Psatz.
From Verif Require Import RheoModel RheoProofs.
Import ListNotations.
Local Open Scope R_scope.

(** ** C58 *)

Lemma lip_no_gbs : forall v, no_gbs (lip_of v).
Proof. intros v. right. reflexivity. Qed.
Lemma ok_cst : forall nmax v, ok nmax v -> cst (lip_of v) = true -> eta_cst (lip_of v) <> 0.
Proof. intros nmax v [_ [H _]] b. cbn in *. specialize (H b). lra. Qed.
Lemma ok_el : forall nmax v, ok nmax v -> el (lip_of v) = true -> eta_el (lip_of v) <> 0.
Proof. intros nmax v [_ [_ [_ [H _]]]] b. cbn in *. specialize (H b). lra. Qed.

(** For every admissible combination of mechanisms (exponents between 1 and 8) the viscosity at which
    the strain rates of all mechanisms add up exists, is unique, is below that of each mechanism alone,
    and the code returns it to a relative accuracy of 1e-13; the failure exit is not taken, and the
    stress handed on is the one of the returned viscosity. *)
Theorem C58_effective_viscosity : forall cap v, ok 8 v -> v_gbs v = false -> (exists i, alone v i /\ i <= cap) ->
  exists e r, effective v e /\ (forall e', effective v e' -> e' = e) /\ (forall i, alone v i -> e <= i) /\
    ve_viscosity cap v = Ret r (2 * r * v_E v) /\ e <= r <= (1 + 1 / 10 ^ 13) * e.
Proof.
  intros cap v H Hg Hi. destruct (start_ok 8 cap v H Hg Hi) as [S1 [S2 [S3 [S4 S5]]]].
  set (u := eta_up cap v) in *. set (l := terms (lip_of v)) in *.
  pose proof (terms_good 8 v H) as G. pose proof (terms_good8 v H) as G8. fold l in G, G8.
  assert (HE : 0 < v_E v) by apply H.
  destruct (S_root l (v_E v) u G HE S1 S2) as [e [[He Heu] Es]].
  destruct (fast_loop (lip_of v) (lip_no_gbs v) HE (ok_cst 8 v H) (ok_el 8 v H) G S5 e He Es G8 u S1 S2 S3) as [r [R1 R2]].
  exists e, r. split; [split; [exact He|rewrite (total_terms 8) by assumption; exact Es]|].
  split; [|split; [|split]].
  - intros e' [He' Ee']. rewrite (total_terms 8) in Ee' by assumption. now apply (S_unique l e' e (v_E v)).
  - intros i Hal. specialize (S4 i Hal). lra.
  - unfold ve_viscosity. fold u. rewrite R1. reflexivity.
  - pose proof (loop_ret (lip_of v) (lip_no_gbs v) HE (ok_cst 8 v H) (ok_el 8 v H) G S5 e He Es 19 u r _ S1 S2 R1) as [L1 _].
    assert (Hr0 : 0 < r) by lra.
    assert (Hrs : v_E v <= S_ l r).
    { pose proof (S_superlinear l e r G He ltac:(lra)) as Q. rewrite Es in Q.
      assert (1 <= r / e). { apply Rmult_le_reg_r with e; [lra|]. unfold Rdiv. rewrite Rmult_assoc, Rinv_l by lra. lra. }
      nra. }
    pose proof (above_root (lip_of v) (lip_no_gbs v) HE (ok_cst 8 v H) (ok_el 8 v H) G e He Es r (1 / 10 ^ 13) Hr0 Hrs) as A.
    apply A; [lra|]. left. eapply Rlt_le_trans; [exact R2|]. unfold ve_tol. lra.
Qed.
Print Assumptions C58_effective_viscosity.

(** Any exponents >= 1 (Peierls creep included): all intermediate viscosities decrease towards the
    effective one and never fall below it, so every power is taken of a positive stress; and if the
    call returns, the result is the effective viscosity to 1e-11. *)
Theorem C58_monotone : forall nmax cap v, ok nmax v -> v_gbs v = false -> (exists i, alone v i /\ i <= cap) ->
  exists e, effective v e /\
    (forall k, let x := Nat.iter k (newton (lip_of v)) (eta_up cap v) in e <= newton (lip_of v) x <= x) /\
    (forall r t, ve_viscosity cap v = Ret r t ->
       e <= r <= (1 + 1 / 10 ^ 11) * e /\ 2 * e * v_E v <= t <= (1 + 1 / 10 ^ 11) * (2 * e * v_E v)).
Proof.
  intros nmax cap v H Hg Hi. destruct (start_ok nmax cap v H Hg Hi) as [S1 [S2 [S3 [S4 S5]]]].
  set (u := eta_up cap v) in *. set (l := terms (lip_of v)) in *.
  pose proof (terms_good nmax v H) as G. fold l in G.
  assert (HE : 0 < v_E v) by apply H.
  destruct (S_root l (v_E v) u G HE S1 S2) as [e [[He Heu] Es]].
  exists e. split; [split; [exact He|rewrite (total_terms nmax) by assumption; exact Es]|]. split.
  - intros k x.
    destruct (iter_mono (lip_of v) (lip_no_gbs v) HE (ok_cst nmax v H) (ok_el nmax v H) G S5 e He Es k u S1 S2) as [I1 [I2 I3]].
    fold x in I1, I2, I3.
    rewrite (newton_N (lip_of v) (lip_no_gbs v) HE (ok_cst nmax v H) (ok_el nmax v H) G S5 x I1).
    destruct (newton_bracket l (v_E v) x e G S5 I1 He Es I3) as [B _]. exact B.
  - intros r t R1.
    pose proof (loop_ret (lip_of v) (lip_no_gbs v) HE (ok_cst nmax v H) (ok_el nmax v H) G S5 e He Es 19 u r t S1 S2 R1) as [L1 [_ [e1 [-> L2]]]].
    unfold ve_tol in *. split; [lra|]. unfold stress. cbn [lip_of Eii].
    split; [nra|]. assert (e1 * (2 * v_E v) <= (1 + / 10 ^ 11) * e * (2 * v_E v)) by (apply Rmult_le_compat_r; lra). lra.
Qed.
Print Assumptions C58_monotone.

(** Whatever the parameters: on return the reported strain rates of all mechanisms plus the elastic one
    account for the imposed strain rate to 1e-11. *)
Theorem C58_budget : forall p eta0 r t, 0 < Eii p -> local_iteration p eta0 = Ret r t ->
  Rabs (Eii p - ((if el p then t / (2 * eta_el p) else 0)
                 + e_cst p t + e_pwl p t + e_exp p t + e_lin p t + e_gbs p t)) <= 1 / 10 ^ 11 * Eii p.
Proof.
  intros p eta0 r t HE. unfold local_iteration, nitmax.
  assert (K : forall e tol, Rabs (resid p e / Eii p) <= tol ->
    Rabs (Eii p - ((if el p then stress p e / (2 * eta_el p) else 0)
                 + e_cst p (stress p e) + e_pwl p (stress p e) + e_exp p (stress p e) + e_lin p (stress p e) + e_gbs p (stress p e))) <= tol * Eii p).
  { intros e tol Hr. unfold Rdiv in Hr.
    rewrite Rabs_mult, (Rabs_pos_eq (/ Eii p)) in Hr by (left; now apply Rinv_0_lt_compat).
    apply Rmult_le_compat_r with (r := Eii p) in Hr; [|lra]. rewrite Rmult_assoc, Rinv_l, Rmult_1_r in Hr by lra.
    eapply Rle_trans; [|exact Hr]. right. f_equal. unfold resid, e_vis, ifb. ring. }
  generalize 19%nat as left. intros left. revert eta0.
  assert (Ht : 0 < ve_tol) by (unfold ve_tol; apply Rinv_0_lt_compat, pow_lt; lra).
  induction left as [|left IH]; intros eta0 H; cbn [li_loop] in H.
  - destruct (Rltb (Rabs (resid p eta0 / Eii p)) (ve_tol / 100)) eqn:E1.
    + apply Rltb_true in E1. injection H; intros; subst. replace (1 / 10 ^ 11) with ve_tol by (unfold ve_tol; lra). apply K. lra.
    + destruct (Rltb ve_tol (Rabs (resid p eta0 / Eii p))) eqn:E2; [discriminate|]. apply Rltb_false in E2.
      injection H; intros; subst. replace (1 / 10 ^ 11) with ve_tol by (unfold ve_tol; lra). apply K. lra.
  - destruct (Rltb (Rabs (resid p eta0 / Eii p)) (ve_tol / 100)) eqn:E1.
    + apply Rltb_true in E1. injection H; intros; subst. replace (1 / 10 ^ 11) with ve_tol by (unfold ve_tol; lra). apply K. lra.
    + now apply (IH (newton p eta0)).
Qed.
Print Assumptions C58_budget.

(** Refuted: grain-boundary sliding counts. A material creeping both at constant viscosity 1 and by
    grain-boundary sliding of the same strength should flow twice as fast; the code returns the
    viscosity of the first mechanism alone and reports no sliding. *)
Definition gbs_case : vin := Vin 1 false 1 true 1 false 1 1 false 1 1 false 1 1 1 0 true 1 1.
Theorem C58_gbs_ignored_refuted :
  ve_viscosity 10 gbs_case = Ret 1 2 /\ e_gbs (lip_of gbs_case) 2 = 0 /\
  2 / (2 * 1) + Rpower (2 / (2 * v_Bgbs gbs_case)) (v_ngbs gbs_case) = 2 * v_E gbs_case.
Proof.
  assert (P1 : Rpower 1 (1 / 1 - 1) = 1) by (replace (1 / 1 - 1) with 0 by field; apply Rpower_O; lra).
  split; [|split].
  - unfold ve_viscosity. replace (eta_up 10 gbs_case) with 1.
    2:{ unfold eta_up, upd_min, gbs_case, iso_gbs. cbn [v_cst v_dis v_el v_pei v_dif v_gbs v_etacst v_Bgbs v_ngbs v_E].
        rewrite P1. unfold minv. repeat destruct Rle_dec; lra. }
    unfold local_iteration, nitmax. cbn [li_loop].
    assert (E : resid (lip_of gbs_case) 1 = 0).
    { unfold resid, e_vis, e_pwl, e_exp, e_lin, e_gbs, e_cst, stress, ifb, lip_of, gbs_case. cbn [v_E v_el v_etael v_cst v_etacst v_dis v_Bpwl v_npwl v_pei v_Bexp v_nexp v_dif v_Blin v_nlin v_d v_mlin v_gbs v_Bgbs v_ngbs Eii el cst eta_cst dis pei dif gbs C_gbs n_gbs]. lra. }
    rewrite E. replace (0 / Eii (lip_of gbs_case)) with 0 by (unfold Rdiv; ring). rewrite Rabs_R0.
    assert (Ht : 0 < ve_tol / 100) by (unfold ve_tol; lra). apply Rltb_true in Ht. rewrite Ht.
    f_equal. unfold stress. cbn. lra.
  - unfold e_gbs, ifb. cbn. ring.
  - cbn [gbs_case v_Bgbs v_ngbs v_E]. replace (2 / (2 * 1)) with 1 by field. rewrite Rpower_1 by lra. lra.
Qed.
Print Assumptions C58_gbs_ignored_refuted.

(** With sliding as the only mechanism the iteration divides by zero at every viscosity. *)
Theorem C58_gbs_alone_refuted : forall v, v_gbs v = true -> v_el v = false -> v_cst v = false -> v_dis v = false ->
  v_pei v = false -> v_dif v = false -> forall eta, dfdeta (lip_of v) eta = 0 /\ resid (lip_of v) eta = v_E v.
Proof.
  intros v H1 H2 H3 H4 H5 H6 eta. unfold dfdeta, resid, e_vis, e_pwl, e_exp, e_lin, e_gbs, e_cst, ifb.
  cbn [lip_of Eii el cst dis pei dif gbs C_gbs]. rewrite H1, H2, H3, H4, H5, H6. split; ring.
Qed.
Print Assumptions C58_gbs_alone_refuted.

(** Non-vacuity: constant viscosity 2, power law with n = 3 and elasticity. *)
Definition ve_case : vin := Vin 1 true 5 true 2 true 3 3 false 1 1 false 1 1 1 0 false 1 1.
Example C58_ex : ok 8 ve_case /\ v_gbs ve_case = false /\ (exists i, alone ve_case i /\ i <= 10 ^ 9) /\
  exists e, effective ve_case e /\ 1 < e < 2.
Proof.
  assert (O : ok 8 ve_case).
  { unfold ok, ve_case; cbn. repeat split; intros; try discriminate; lra. }
  assert (A : exists i, alone ve_case i /\ i <= 10 ^ 9).
  { exists 2. split; [apply (al_cst ve_case); reflexivity|cbn; lra]. }
  split; [exact O|]. split; [reflexivity|]. split; [exact A|].
  destruct (C58_effective_viscosity (10 ^ 9) ve_case O eq_refl A) as [e [r [[E0 E1] [_ [E2 _]]]]].
  exists e. split; [split; assumption|].
  unfold total_rate, pick, ve_case in E1. cbn [v_E v_el v_etael v_cst v_etacst v_dis v_Bpwl v_npwl v_pei v_dif] in E1.
  assert (P : Rpower (2 * e * 1 / (2 * 3)) 3 = (e / 3) * ((e / 3) * (e / 3))).
  { replace 3 with (INR 3) at 2 by (cbn; ring). rewrite Rpower_pow by lra. cbn. field. }
  rewrite P in E1. assert (Q : e / 2 + e / 5 + e * e * e / 27 = 1) by lra.
  split.
  - destruct (Rlt_dec 1 e) as [h|h]; [exact h|exfalso]. assert (e * e * e <= 1) by nra. lra.
  - destruct (Rlt_dec e 2) as [h|h]; [exact h|exfalso]. assert (0 < e * e * e) by nra. lra.
Qed.

(** ** C59: plastic return mapping

    Specification: the Mohr-Coulomb strength at pressure [p], capped. *)
Definition strength (q : pin) (p : R) : R := q_co q * q_cosf q + p * q_sinf q.

Definition pok (q : pin) : Prop :=
  0 < q_eve q /\ 0 < q_E q /\ q_Tii q = 2 * q_eve q * q_E q /\ 0 <= q_evp0 q /\ 0 <= q_K q * q_dt q * (q_sinf q * q_sind q).

Lemma kss_nonneg : forall q, pok q -> 0 <= kss q.
Proof. intros q H. destruct H as [_ [_ [_ [_ H]]]]. unfold kss. nra. Qed.
Lemma evp_one : forall q x, q_nvp q = 1 -> 0 < x -> evp_at q x = q_evp0 q.
Proof.
  intros q x H Hx. unfold evp_at. rewrite H. replace (1 / 1 - 1) with 0 by field. rewrite Rpower_O by exact Hx. ring.
Qed.

(** Below the strength nothing happens. *)
Theorem C59_below_yield : forall q, q_Tii q <= yield0 q ->
  plasticity q = Pres false (q_eve q) (q_Tii q) 0 (q_P q) 0 0.
Proof.
  intros q H. unfold plasticity. assert (E : Rltb (/ 10 ^ 17) (q_Tii q - yield0 q) = false).
  { apply Rltb_false. assert (0 < / 10 ^ 17) by (apply Rinv_0_lt_compat, pow_lt; lra). lra. }
  now rewrite E.
Qed.
Print Assumptions C59_below_yield.

Lemma rm_S : forall q F0 left g ty last, rm_loop q F0 (S left) g ty last =
  let divp := - g * - q_sind q in
  let evp := evp_at q (Rabs g) in
  let ty := ty + g * evp in
  let tc := q_Tii q - q_eve q * g in
  let F := tc - ty in
  let res := Rabs F in
  if Rltb res (q_tol q) || Rltb (res / F0) (q_tol q) then Pst g ty tc evp divp true
  else let dF := - q_eve q - evp / q_nvp q - kss q in
       let g' := g - F / dF in
       rm_loop q F0 left g' ty (Pst g' ty tc evp divp false).
Proof. reflexivity. Qed.

(** First evaluation of the loop for a linear viscoplastic (or rate-independent) material. *)
Lemma first_eval : forall q, pok q -> q_nvp q = 1 -> / 10 ^ 17 < q_Tii q - yield0 q ->
  0 < gdot0 q /\ evp_at q (Rabs (gdot0 q)) = q_evp0 q /\
  (q_eve q + q_evp0 q + kss q) * gdot0 q = q_Tii q - yield0 q.
Proof.
  intros q H Hn HF. pose proof (kss_nonneg q H) as Hk. destruct H as [H1 [H2 [H3 [H4 _]]]].
  assert (HF0 : 0 < q_Tii q - yield0 q) by (assert (0 < / 10 ^ 17) by (apply Rinv_0_lt_compat, pow_lt; lra); lra).
  assert (G : 0 < gdot0 q).
  { unfold gdot0. rewrite evp_one by assumption. apply Rdiv_lt_0_compat; lra. }
  split; [exact G|]. split.
  - apply evp_one; [exact Hn|]. rewrite Rabs_pos_eq; lra.
  - unfold gdot0. rewrite evp_one by assumption. field. lra.
Qed.

(** Linear viscoplasticity. If there is no dilation-friction feedback, or the tolerance exceeds one (the
    default is 1e11), the result lies exactly on the strength at the corrected pressure plus the
    viscous overstress, strain rates add up, and stress and viscosity are lowered. *)
Theorem C59_return_mapping : forall q, pok q -> q_nvp q = 1 -> 0 <= yield0 q -> / 10 ^ 17 < q_Tii q - yield0 q ->
  (kss q = 0 /\ 0 < q_tol q) \/ 1 < q_tol q ->
  let r := plasticity q in
  r_pl r = true /\ 0 < r_g r /\
  r_tii r = yield0 q + q_sinf q * (r_pc r - q_P q) + r_over r /\
  (strength q (q_P q) <= q_slim q -> r_tii r = strength q (r_pc r) + q_evp0 q * r_g r) /\
  r_pc r - q_P q = q_K q * q_dt q * r_divp r /\ r_divp r = r_g r * q_sind q /\
  q_E q = r_tii r / (2 * q_eve q) + r_g r / 2 /\
  yield0 q <= r_tii r < q_Tii q /\ 0 <= r_eta r < q_eve q /\ r_tii r = 2 * r_eta r * q_E q.
Proof.
  intros q H Hn Hy HF Ht. destruct (first_eval q H Hn HF) as [G [V EQ]]. pose proof (kss_nonneg q H) as Hk.
  pose proof H as [H1 [H2 [H3 [H4 _]]]].
  assert (HF0 : 0 < q_Tii q - yield0 q) by (assert (0 < / 10 ^ 17) by (apply Rinv_0_lt_compat, pow_lt; lra); lra).
  set (g := gdot0 q) in *.
  assert (EF : q_Tii q - q_eve q * g - (yield0 q + g * q_evp0 q) = kss q * g) by lra.
  assert (Hstop : Rltb (Rabs (kss q * g)) (q_tol q) || Rltb (Rabs (kss q * g) / (q_Tii q - yield0 q)) (q_tol q) = true).
  { destruct Ht as [[K0 T0]|T1].
    - rewrite K0, Rmult_0_l, Rabs_R0. apply Rltb_true in T0. now rewrite T0.
    - apply orb_true_iff. right. apply Rltb_true. rewrite Rabs_pos_eq by nra.
      apply Rle_lt_trans with 1; [|exact T1].
      apply Rmult_le_reg_r with (q_Tii q - yield0 q); [exact HF0|]. unfold Rdiv. rewrite Rmult_assoc, Rinv_l by lra. nra. }
  assert (EP : plasticity q = Pres true ((q_Tii q - q_eve q * g) / (2 * q_E q)) (q_Tii q - q_eve q * g) g
                 (q_P q + q_K q * q_dt q * (g * q_sind q)) (q_evp0 q * g) (g * q_sind q)).
  { unfold plasticity. apply Rltb_true in HF. rewrite HF. unfold nitmax. rewrite rm_S. cbn zeta. fold g. rewrite V.
    rewrite EF, Hstop. cbn [s_tc s_divp s_g s_evp].
    assert (E0 : Rltb (q_Tii q - q_eve q * g) 0 = false) by (apply Rltb_false; nra). rewrite E0.
    replace (- g * - q_sind q) with (g * q_sind q) by ring. reflexivity. }
  cbn zeta. rewrite EP. cbn [r_pl r_g r_tii r_pc r_over r_divp r_eta].
  assert (EPc : q_sinf q * (q_P q + q_K q * q_dt q * (g * q_sind q) - q_P q) = kss q * g) by (unfold kss; ring).
  split; [reflexivity|]. split; [exact G|]. split; [rewrite EPc; lra|]. split; [|split; [ring|split; [ring|split; [|split; [|split]]]]].
  - intros Hs. assert (EY : yield0 q = strength q (q_P q)).
    { unfold yield0, strength in *. destruct (Rltb _ _) eqn:E; [apply Rltb_true in E; lra|reflexivity]. }
    unfold strength in *. rewrite Rmult_plus_distr_r.
    replace (q_K q * q_dt q * (g * q_sind q) * q_sinf q) with (kss q * g) by (unfold kss; ring). lra.
  - rewrite H3. field. lra.
  - split; nra.
  - assert (0 < q_eve q * g) by nra. assert (0 <= q_Tii q - q_eve q * g) by nra. split.
    + apply Rmult_le_pos; [lra|left; apply Rinv_0_lt_compat; lra].
    + apply Rmult_lt_reg_r with (2 * q_E q); [lra|]. unfold Rdiv. rewrite Rmult_assoc, Rinv_l by lra. lra.
  - field. lra.
Qed.
Print Assumptions C59_return_mapping.

(** Stress and viscosity never turn negative, whatever the parameters. *)
Theorem C59_nonnegative : forall q, 0 <= q_Tii q -> 0 <= q_eve q -> 0 < q_E q -> 0 <= q_tmin q ->
  0 <= r_tii (plasticity q) /\ 0 <= r_eta (plasticity q).
Proof.
  intros q H1 H2 H3 H4. unfold plasticity. destruct (Rltb _ _); [|cbn; lra].
  set (s := rm_loop _ _ _ _ _ _). destruct (Rltb (s_tc s) 0) eqn:E; cbn [r_tii r_eta].
  - split; [exact H4|]. apply Rmult_le_pos; [exact H4|left; apply Rinv_0_lt_compat; lra].
  - apply Rltb_false in E. split; [exact E|]. apply Rmult_le_pos; [exact E|left; apply Rinv_0_lt_compat; lra].
Qed.
Print Assumptions C59_nonnegative.

(** Refuted: a tighter tolerance gives a better answer. For every rate-independent dilatant frictional
    material whose first evaluation misses the tolerance, the iteration leaves the exact solution it
    started from: the returned stress is strictly below the strength at the returned pressure. *)
Lemma tight_loop : forall q F0 left g last, q_evp0 q = 0 -> 0 < q_eve q -> 0 < kss q -> 0 < F0 ->
  F0 = q_Tii q - yield0 q -> gdot0 q < g -> q_eve q * g <= F0 ->
  (exists g1, gdot0 q < g1 /\ q_eve q * g1 <= F0 /\ s_tc last = q_Tii q - q_eve q * g1 /\ s_divp last = g1 * q_sind q) \/ left <> O ->
  let s := rm_loop q F0 left g (yield0 q) last in
  exists g1, gdot0 q < g1 /\ q_eve q * g1 <= F0 /\ s_tc s = q_Tii q - q_eve q * g1 /\ s_divp s = g1 * q_sind q.
Proof.
  intros q F0 left. induction left as [|left IH]; intros g last He0 He Hk HF EF Hg Hb Hl.
  - destruct Hl as [Hl|Hl]; [exact Hl|congruence].
  - cbn zeta. cbn [rm_loop]. assert (V : evp_at q (Rabs g) = 0) by (unfold evp_at; rewrite He0; ring).
    rewrite V. replace (yield0 q + g * 0) with (yield0 q) by ring.
    assert (P1 : - g * - q_sind q = g * q_sind q) by ring. rewrite P1.
    destruct (Rltb _ _ || Rltb _ _).
    + cbn [s_tc s_divp]. exists g. repeat split; try assumption; reflexivity.
    + replace (- q_eve q - 0 / q_nvp q - kss q) with (- (q_eve q + kss q)) by (unfold Rdiv; ring).
      set (F := q_Tii q - q_eve q * g - yield0 q). set (g' := g - F / - (q_eve q + kss q)).
      assert (Fn : 0 <= F) by (unfold F; lra).
      assert (Eg : g' = g + F / (q_eve q + kss q)) by (unfold g'; field; lra).
      assert (Hq : 0 <= F / (q_eve q + kss q)) by (apply Rmult_le_pos; [exact Fn|left; apply Rinv_0_lt_compat; lra]).
      apply IH; try assumption; [rewrite Eg; lra| |].
      * rewrite Eg. assert (q_eve q * (F / (q_eve q + kss q)) <= F).
        { apply Rmult_le_reg_r with (q_eve q + kss q); [lra|].
          replace (q_eve q * (F / (q_eve q + kss q)) * (q_eve q + kss q)) with (q_eve q * F) by (field; lra). nra. }
        unfold F in *. lra.
      * left. cbn [s_tc s_divp]. exists g. repeat split; try assumption; reflexivity.
Qed.

Theorem C59_tight_tolerance_refuted : forall q, pok q -> q_nvp q = 1 -> q_evp0 q = 0 -> 0 < kss q -> 0 <= yield0 q ->
  / 10 ^ 17 < q_Tii q - yield0 q -> strength q (q_P q) <= q_slim q ->
  q_tol q <= kss q / (q_eve q + kss q) -> q_tol q <= kss q / (q_eve q + kss q) * (q_Tii q - yield0 q) ->
  let r := plasticity q in r_pl r = true /\ r_tii r < strength q (r_pc r).
Proof.
  intros q H Hn He0 Hk Hy HF Hs T1 T2. destruct (first_eval q H Hn HF) as [G [V EQ]].
  pose proof H as [H1 [H2 [H3 [H4 _]]]].
  assert (HF0 : 0 < q_Tii q - yield0 q) by (assert (0 < / 10 ^ 17) by (apply Rinv_0_lt_compat, pow_lt; lra); lra).
  set (F0 := q_Tii q - yield0 q) in *.
  rewrite He0 in EQ.
  assert (Hgo : kss q * gdot0 q = kss q / (q_eve q + kss q) * F0) by (rewrite <- EQ; field; lra).
  unfold plasticity. fold F0. pose proof HF as HFb. apply Rltb_true in HFb. rewrite HFb. unfold nitmax.
  rewrite rm_S. cbn zeta. rewrite V, He0.
  replace (yield0 q + gdot0 q * 0) with (yield0 q) by ring.
  assert (EF : q_Tii q - q_eve q * gdot0 q - yield0 q = kss q * gdot0 q) by (unfold F0 in *; lra).
  rewrite EF.
  assert (Hpos : 0 < kss q * gdot0 q) by nra.
  assert (Hgo2 : Rltb (Rabs (kss q * gdot0 q)) (q_tol q) || Rltb (Rabs (kss q * gdot0 q) / F0) (q_tol q) = false).
  { rewrite Rabs_pos_eq by lra. apply orb_false_iff. split; apply Rltb_false; rewrite Hgo; [exact T2|].
    replace (kss q / (q_eve q + kss q) * F0 / F0) with (kss q / (q_eve q + kss q)) by (field; lra). exact T1. }
  rewrite Hgo2.
  replace (- q_eve q - 0 / q_nvp q - kss q) with (- (q_eve q + kss q)) by (unfold Rdiv; ring).
  set (g1 := gdot0 q - kss q * gdot0 q / - (q_eve q + kss q)).
  assert (Eg1 : g1 = gdot0 q + kss q * gdot0 q / (q_eve q + kss q)) by (unfold g1; field; lra).
  assert (Hq : 0 < kss q * gdot0 q / (q_eve q + kss q)) by (apply Rdiv_lt_0_compat; lra).
  assert (Hb : q_eve q * g1 <= F0).
  { rewrite Eg1. assert (q_eve q * (kss q * gdot0 q / (q_eve q + kss q)) <= kss q * gdot0 q).
    { apply Rmult_le_reg_r with (q_eve q + kss q); [lra|].
      replace (q_eve q * (kss q * gdot0 q / (q_eve q + kss q)) * (q_eve q + kss q)) with (q_eve q * (kss q * gdot0 q)) by (field; lra). nra. }
    lra. }
  set (last := Pst g1 _ _ _ _ _).
  destruct (tight_loop q F0 19 g1 last He0 H1 Hk HF0 eq_refl ltac:(lra) Hb ltac:(right; lia)) as [g [L1 [L2 [L3 L4]]]].
  set (s := rm_loop q F0 19 g1 (yield0 q) last) in *.
  assert (E0 : Rltb (s_tc s) 0 = false) by (apply Rltb_false; rewrite L3; unfold F0 in *; lra).
  rewrite E0. cbn zeta. cbn [r_pl r_tii r_pc]. split; [reflexivity|]. rewrite L3, L4.
  unfold strength. assert (EY : yield0 q = strength q (q_P q)).
  { unfold yield0, strength in *. destruct (Rltb _ _) eqn:E; [apply Rltb_true in E; lra|reflexivity]. }
  unfold strength in EY.
  replace ((q_P q + q_K q * q_dt q * (g * q_sind q)) * q_sinf q) with (q_P q * q_sinf q + kss q * g) by (unfold kss; ring).
  unfold F0 in *. nra.
Qed.
Print Assumptions C59_tight_tolerance_refuted.

(** Refuted: power-law viscoplasticity. With exponent 2 and the default tolerance the returned stress is
    9 where strength plus overstress of the returned multiplier is more than 10. *)
Definition nvp_case : pin := Pin 10 1 5 0 8 1 0 0 100 (sqrt 5) 2 1 1 (10 ^ 11) 1.
Lemma rpow_half : forall x, 0 < x -> Rpower x (1 / 2 - 1) = / sqrt x.
Proof.
  intros x Hx. replace (1 / 2 - 1) with (- / 2) by field. rewrite Rpower_Ropp, Rpower_sqrt by exact Hx. reflexivity.
Qed.
Theorem C59_nonlinear_viscoplastic_refuted :
  exists q, pok q /\ q_nvp q = 2 /\ q_tol q = 10 ^ 11 /\ kss q = 0 /\
    let r := plasticity q in
    r_pl r = true /\ r_over r = q_evp0 q * sqrt (r_g r) /\ r_tii r < strength q (r_pc r) + r_over r - 1.
Proof.
  exists nvp_case.
  assert (S5 : sqrt 5 * / sqrt 5 = 1) by (apply Rinv_r, Rgt_not_eq, sqrt_lt_R0; lra).
  assert (S5p : 0 < sqrt 5) by (apply sqrt_lt_R0; lra).
  assert (S5s : sqrt 5 * sqrt 5 = 5) by (apply sqrt_sqrt; lra).
  split; [unfold pok, nvp_case; cbn [q_eve q_E q_Tii q_evp0 q_K q_dt q_sinf q_sind]; repeat split; lra|]. split; [reflexivity|]. split; [reflexivity|]. split; [unfold kss, nvp_case; cbn [q_eve q_E q_Tii q_evp0 q_K q_dt q_sinf q_sind]; ring|].
  assert (Y : yield0 nvp_case = 8).
  { unfold yield0, nvp_case. cbn [q_co q_cosf q_P q_sinf q_slim]. destruct (Rltb _ _) eqn:E; [apply Rltb_true in E; lra|lra]. }
  assert (G : gdot0 nvp_case = 1).
  { unfold gdot0. rewrite Y. unfold evp_at, kss, nvp_case. cbn [q_Tii q_eve q_E q_evp0 q_nvp q_K q_dt q_sinf q_sind].
    rewrite rpow_half by lra. rewrite S5. field. }
  assert (V : evp_at nvp_case (Rabs 1) = sqrt 5).
  { rewrite Rabs_pos_eq by lra. unfold evp_at, nvp_case. cbn [q_evp0 q_nvp]. rewrite rpow_half by lra. rewrite sqrt_1. field. }
  unfold plasticity. rewrite Y, G. unfold nitmax. rewrite rm_S. cbn zeta. rewrite V.
  cbn [nvp_case q_Tii q_eve q_E q_P q_co q_cosf q_sinf q_sind q_slim q_evp0 q_nvp q_K q_dt q_tol q_tmin].
  assert (A1 : Rltb (/ 10 ^ 17) (10 - 8) = true) by (apply Rltb_true; lra). rewrite A1.
  set (F := 10 - 1 * 1 - (8 + 1 * sqrt 5)).
  assert (B : 2 < sqrt 5 < 3) by (split; nra).
  assert (A2 : Rltb (Rabs F) (10 ^ 11) = true).
  { apply Rltb_true. unfold F. apply Rabs_def1; lra. }
  rewrite A2. cbn [orb s_tc s_divp s_g s_evp].
  assert (A3 : Rltb (10 - 1 * 1) 0 = false) by (apply Rltb_false; lra). rewrite A3.
  cbn zeta. cbn [r_pl r_tii r_over r_pc r_g]. split; [reflexivity|]. rewrite sqrt_1. split; [ring|].
  unfold strength, nvp_case. cbn [q_co q_cosf q_sinf]. nra.
Qed.
Print Assumptions C59_nonlinear_viscoplastic_refuted.

(** Refuted: plasticity only lowers the stress. In tension the stress is reset to a fixed minimum even if
    the trial stress was lower; the multiplier is then negative. *)
Definition tension_case : pin := Pin 1 1 (1 / 2) (-1) 0 0 1 0 100 0 1 1 1 (10 ^ 11) 2.
Theorem C59_tension_refuted :
  pok tension_case /\ r_tii (plasticity tension_case) > q_Tii tension_case /\ r_g (plasticity tension_case) < 0 /\
  r_eta (plasticity tension_case) > q_eve tension_case.
Proof.
  split; [unfold pok, tension_case; cbn [q_eve q_E q_Tii q_evp0 q_K q_dt q_sinf q_sind]; repeat split; lra|].
  assert (Y : yield0 tension_case = -1).
  { unfold yield0, tension_case. cbn [q_co q_cosf q_P q_sinf q_slim]. destruct (Rltb _ _) eqn:E; [apply Rltb_true in E; lra|lra]. }
  assert (V : forall x, evp_at tension_case x = 0) by (intros x; unfold evp_at, tension_case; cbn [q_evp0]; ring).
  assert (G : gdot0 tension_case = 2).
  { unfold gdot0. rewrite Y, V. unfold kss, tension_case. cbn [q_Tii q_eve q_E q_K q_dt q_sinf q_sind]. field. }
  unfold plasticity. rewrite Y, G. unfold nitmax. rewrite rm_S. cbn zeta. rewrite V.
  unfold tension_case. cbn [q_Tii q_eve q_E q_P q_co q_cosf q_sinf q_sind q_slim q_evp0 q_nvp q_K q_dt q_tol q_tmin].
  assert (A1 : Rltb (/ 10 ^ 17) (1 - -1) = true) by (apply Rltb_true; lra). rewrite A1.
  assert (A2 : Rltb (Rabs (1 - 1 * 2 - (-1 + 2 * 0))) (10 ^ 11) = true).
  { apply Rltb_true. apply Rabs_def1; lra. }
  rewrite A2. cbn [orb s_tc s_divp s_g s_evp].
  assert (A3 : Rltb (1 - 1 * 2) 0 = true) by (apply Rltb_true; lra). rewrite A3. cbn [r_tii r_g r_eta].
  repeat split; lra.
Qed.
Print Assumptions C59_tension_refuted.

(** Refuted: the reported strain rates add up at yield. The creep rates are those of the trial stress, so
    together with the plastic rate they exceed the imposed strain rate by the plastic rate. *)
Theorem C59_partition_refuted : forall cap v r t q, v_el v = false -> 0 < v_E v -> ve_viscosity cap v = Ret r t ->
  r_pl (plasticity q) = true -> 0 < r_g (plasticity q) ->
  let p := lip_of v in
  e_cst p t + e_pwl p t + e_exp p t + e_lin p t + e_gbs p t + e_pl (plasticity q)
    >= (1 - 1 / 10 ^ 11) * v_E v + r_g (plasticity q) / 2.
Proof.
  intros cap v r t q Hel HE Hr Hpl Hg p. unfold ve_viscosity in Hr.
  pose proof (C58_budget p (eta_up cap v) r t HE Hr) as B. unfold p in B at 2. cbn [lip_of el] in B. rewrite Hel in B.
  unfold p in B at 1 7. cbn [lip_of Eii] in B. pose proof (Rle_abs (v_E v - (0 + e_cst p t + e_pwl p t + e_exp p t + e_lin p t + e_gbs p t))).
  unfold e_pl, ifb. rewrite Hpl. fold p in B. lra.
Qed.
Print Assumptions C59_partition_refuted.

(** Non-vacuity of the return-mapping theorems: a frictional, dilatant, viscoplastic material. *)
Definition pl_case : pin := Pin 10 1 5 4 1 1 (1 / 2) (1 / 2) 100 1 1 4 1 (10 ^ 11) 1.
Example C59_ex : pok pl_case /\ yield0 pl_case = 3 /\ / 10 ^ 17 < q_Tii pl_case - yield0 pl_case /\
  kss pl_case = 1 /\ strength pl_case (q_P pl_case) <= q_slim pl_case /\
  r_g (plasticity pl_case) = 7 / 3 /\ r_tii (plasticity pl_case) = 23 / 3.
Proof.
  assert (O : pok pl_case).
  { unfold pok, pl_case; cbn [q_eve q_E q_Tii q_evp0 q_K q_dt q_sinf q_sind]; repeat split; lra. }
  assert (Y : yield0 pl_case = 3).
  { unfold yield0, pl_case. cbn [q_co q_cosf q_P q_sinf q_slim]. destruct (Rltb _ _) eqn:E; [apply Rltb_true in E; lra|lra]. }
  assert (F : / 10 ^ 17 < q_Tii pl_case - yield0 pl_case) by (rewrite Y; unfold pl_case; cbn [q_Tii]; lra).
  assert (K : kss pl_case = 1) by (unfold kss, pl_case; cbn [q_K q_dt q_sinf q_sind]; lra).
  split; [exact O|]. split; [exact Y|]. split; [exact F|]. split; [exact K|].
  split; [unfold strength, pl_case; cbn [q_co q_cosf q_P q_sinf q_slim]; lra|].
  destruct (C59_return_mapping pl_case O eq_refl ltac:(lra) F) as [_ [_ [_ [U [P [D [B _]]]]]]].
  { right. unfold pl_case. cbn [q_tol]. lra. }
  assert (S1 : strength pl_case (q_P pl_case) <= q_slim pl_case) by (unfold strength, pl_case; cbn [q_co q_cosf q_P q_sinf q_slim]; lra).
  specialize (U S1). rewrite D in P.
  set (g := r_g (plasticity pl_case)) in *. set (tt := r_tii (plasticity pl_case)) in *.
  set (pc := r_pc (plasticity pl_case)) in *. clearbody g tt pc. clear D S1 F Y K O.
  unfold strength, pl_case in *. cbn [q_Tii q_eve q_E q_P q_co q_cosf q_sinf q_sind q_slim q_evp0 q_nvp q_K q_dt] in *.
  split; lra.
Qed.
Example C59_ex2 : let q := Pin 10 1 5 4 1 1 (1 / 2) (1 / 2) 100 0 1 4 1 (1 / 10) 1 in
  pok q /\ q_nvp q = 1 /\ q_evp0 q = 0 /\ 0 < kss q /\ 0 <= yield0 q /\ / 10 ^ 17 < q_Tii q - yield0 q /\
  strength q (q_P q) <= q_slim q /\ q_tol q <= kss q / (q_eve q + kss q) /\
  q_tol q <= kss q / (q_eve q + kss q) * (q_Tii q - yield0 q).
Proof.
  set (q := Pin _ _ _ _ _ _ _ _ _ _ _ _ _ _ _). cbn zeta.
  assert (Y : yield0 q = 3).
  { unfold yield0, q. cbn [q_co q_cosf q_P q_sinf q_slim]. destruct (Rltb _ _) eqn:E; [apply Rltb_true in E; lra|lra]. }
  assert (K : kss q = 1) by (unfold kss, q; cbn [q_K q_dt q_sinf q_sind]; lra).
  rewrite Y, K. unfold pok, strength, q. cbn [q_eve q_E q_Tii q_evp0 q_K q_dt q_sinf q_sind q_nvp q_tol q_P q_co q_cosf q_slim].
  repeat split; lra.
Qed.

(** ** C60: work rates *)

(** Without plasticity: total work rate equals elastic plus dissipated work rate, to the accuracy of the
    iteration, and equals twice stress times strain rate. *)
Lemma post_term : forall B n t, 0 < B -> 1 <= n -> 0 < t ->
  1 / (B * Rpower (Rpower (2 * B) (- n) * Rpower t n) (1 / n - 1)) = 2 * (Rpower (2 * B) (- n) * Rpower t n) / t.
Proof.
  intros B n t HB Hn Ht. rewrite <- pow_split by assumption. set (z := t / (2 * B)).
  assert (Hz : 0 < z) by (unfold z; apply Rdiv_lt_0_compat; lra).
  rewrite Rpower_mult. replace (n * (1 / n - 1)) with (1 - n) by (field; lra).
  unfold Rminus. rewrite Rpower_plus, Rpower_Ropp, Rpower_1 by exact Hz.
  pose proof (Rpower_pos z n). replace t with (2 * B * z) by (unfold z; field; lra).
  field. lra.
Qed.
Theorem C60_work_balance : forall cap v P, ok 8 v -> v_gbs v = false -> (exists i, alone v i /\ i <= cap) ->
  (v_cst v || v_dis v || v_pei v || v_dif v = true) ->
  exists r t, ve_viscosity cap v = Ret r t /\
    let pl := Pres false r t 0 P 0 0 in
    w_tot r pl = 2 * t * v_E v /\ 0 < w_diss v t pl /\
    Rabs (w_tot r pl - ((if v_el v then w_el v pl else 0) + w_diss v t pl)) <= 1 / 10 ^ 11 * w_tot r pl.
Proof.
  intros cap v P H Hg Hi Hv.
  destruct (C58_effective_viscosity cap v H Hg Hi) as [e [r [[He _] [_ [_ [Hr Hb]]]]]].
  exists r, (2 * r * v_E v). split; [exact Hr|]. set (t := 2 * r * v_E v) in *.
  pose proof H as [HE [H1 [H2 [H3 [H4 H5]]]]].
  assert (Hr0 : 0 < r) by lra. assert (Ht : 0 < t) by (unfold t; nra).
  cbn zeta. unfold w_tot, w_el, w_diss. cbn [r_tii].
  assert (ED : 1 / post_eta v t (Pres false r t 0 P 0 0) = 2 * e_vis (lip_of v) t / t /\ 0 < e_vis (lip_of v) t).
  { unfold post_eta, e_vis. cbn [r_pl r_tii r_g]. rewrite (e_gbs_0 _ _ (lip_no_gbs v)).
    assert (T2 : v_dis v = true -> 1 / (v_Bpwl v * Rpower (e_pwl (lip_of v) t) (1 / v_npwl v - 1)) = 2 * e_pwl (lip_of v) t / t /\ 0 < e_pwl (lip_of v) t).
    { intros b. destruct (H2 b). unfold e_pwl. cbn [lip_of dis C_pwl n_pwl]. rewrite b. cbn [ifb].
      split; [apply post_term; lra|apply Rmult_lt_0_compat; apply Rpower_pos]. }
    assert (T4 : v_pei v = true -> 1 / (v_Bexp v * Rpower (e_exp (lip_of v) t) (1 / v_nexp v - 1)) = 2 * e_exp (lip_of v) t / t /\ 0 < e_exp (lip_of v) t).
    { intros b. destruct (H4 b). unfold e_exp. cbn [lip_of pei C_exp n_exp]. rewrite b. cbn [ifb].
      split; [apply post_term; lra|apply Rmult_lt_0_compat; apply Rpower_pos]. }
    assert (T5 : v_dif v = true -> 1 / (v_Blin v * Rpower (e_lin (lip_of v) t) (1 / v_nlin v - 1) * Rpower (v_d v) (v_mlin v / v_nlin v)) = 2 * e_lin (lip_of v) t / t /\ 0 < e_lin (lip_of v) t).
    { intros b. destruct (H5 b) as [A1 [A2 A3]]. unfold e_lin. cbn [lip_of dif C_lin n_lin d_gs m_lin]. rewrite b. cbn [ifb].
      split; [|repeat apply Rmult_lt_0_compat; apply Rpower_pos].
      set (w := Rpower (2 * v_Blin v) (- v_nlin v) * Rpower t (v_nlin v)).
      assert (Hw : 0 < w) by (apply Rmult_lt_0_compat; apply Rpower_pos).
      rewrite <- (Rpower_mult_distr w) by (try exact Hw; apply Rpower_pos).
      rewrite (Rpower_mult (v_d v) (- v_mlin v)).
      replace (v_Blin v * (Rpower w (1 / v_nlin v - 1) * Rpower (v_d v) (- v_mlin v * (1 / v_nlin v - 1))) * Rpower (v_d v) (v_mlin v / v_nlin v))
        with (v_Blin v * Rpower w (1 / v_nlin v - 1) * (Rpower (v_d v) (- v_mlin v * (1 / v_nlin v - 1)) * Rpower (v_d v) (v_mlin v / v_nlin v))) by ring.
      rewrite <- Rpower_plus. replace (- v_mlin v * (1 / v_nlin v - 1) + v_mlin v / v_nlin v) with (v_mlin v) by (field; lra).
      pose proof (post_term (v_Blin v) (v_nlin v) t A1 ltac:(lra) Ht) as Q. fold w in Q.
      rewrite Rpower_Ropp. pose proof (Rpower_pos (v_d v) (v_mlin v)). pose proof (Rpower_pos w (1 / v_nlin v - 1)).
      transitivity ((1 / (v_Blin v * Rpower w (1 / v_nlin v - 1))) * / Rpower (v_d v) (v_mlin v)); [field; lra|].
      rewrite Q. field. lra. }
    assert (T1 : v_cst v = true -> 1 / v_etacst v = 2 * e_cst (lip_of v) t / t /\ 0 < e_cst (lip_of v) t).
    { intros b. specialize (H1 b). unfold e_cst. cbn [lip_of cst eta_cst]. rewrite b. cbn [ifb].
      split; [field; lra|]. apply Rmult_lt_0_compat; [lra|now apply Rinv_0_lt_compat]. }
    assert (Z1 : v_cst v = false -> e_cst (lip_of v) t = 0) by (intros b; unfold e_cst; cbn [lip_of cst]; now rewrite b).
    assert (Z2 : v_dis v = false -> e_pwl (lip_of v) t = 0) by (intros b; unfold e_pwl; cbn [lip_of dis]; now rewrite b).
    assert (Z4 : v_pei v = false -> e_exp (lip_of v) t = 0) by (intros b; unfold e_exp; cbn [lip_of pei]; now rewrite b).
    assert (Z5 : v_dif v = false -> e_lin (lip_of v) t = 0) by (intros b; unfold e_lin; cbn [lip_of dif]; now rewrite b).
    destruct (v_cst v) eqn:B1; [destruct (T1 eq_refl) as [T1a T1b]; rewrite T1a|rewrite (Z1 eq_refl)];
    (destruct (v_dis v) eqn:B2; [destruct (T2 eq_refl) as [T2a T2b]; rewrite T2a|rewrite (Z2 eq_refl)]);
    (destruct (v_pei v) eqn:B4; [destruct (T4 eq_refl) as [T4a T4b]; rewrite T4a|rewrite (Z4 eq_refl)]);
    (destruct (v_dif v) eqn:B5; [destruct (T5 eq_refl) as [T5a T5b]; rewrite T5a|rewrite (Z5 eq_refl)]);
    cbn [ifb orb] in *; try discriminate; (split; [field; lra|lra]). }
  destruct ED as [ED Hpos].
  assert (Hpe : t * t / post_eta v t (Pres false r t 0 P 0 0) = 2 * t * e_vis (lip_of v) t).
  { transitivity (t * t * (1 / post_eta v t (Pres false r t 0 P 0 0))); [unfold Rdiv; ring|]. rewrite ED. field. lra. }
  rewrite Hpe. assert (Ew : t * t / r = 2 * t * v_E v) by (unfold t; field; lra). rewrite Ew.
  split; [reflexivity|]. split; [nra|].
  unfold ve_viscosity in Hr.
  pose proof (C58_budget (lip_of v) (eta_up cap v) r t HE Hr) as B. cbn [lip_of Eii el eta_el] in B. fold (lip_of v) in B.
  match goal with |- Rabs ?x <= _ => replace x with (2 * t * (v_E v - ((if v_el v then t / (2 * v_etael v) else 0) + e_cst (lip_of v) t + e_pwl (lip_of v) t + e_exp (lip_of v) t + e_lin (lip_of v) t + e_gbs (lip_of v) t))) end.
  - rewrite Rabs_mult, (Rabs_pos_eq (2 * t)) by lra.
    apply Rmult_le_compat_l with (r := 2 * t) in B; [|lra]. eapply Rle_trans; [exact B|]. right. ring.
  - unfold e_vis. destruct (v_el v) eqn:Bel; [|ring]. specialize (H3 eq_refl). field. lra.
Qed.
Print Assumptions C60_work_balance.

(** Refuted: the reported total work is the work done at yield. It is lower by the factor returned stress
    over trial stress. *)
Theorem C60_plastic_work_refuted : forall q, pok q -> 0 < r_tii (plasticity q) < q_Tii q ->
  w_tot (q_eve q) (plasticity q) < 2 * r_tii (plasticity q) * q_E q.
Proof.
  intros q [H1 [H2 [H3 _]]] [Ht1 Ht2]. unfold w_tot. set (t := r_tii (plasticity q)) in *.
  apply Rmult_lt_reg_r with (q_eve q); [exact H1|]. unfold Rdiv. rewrite Rmult_assoc, Rinv_l by lra. nra.
Qed.
Print Assumptions C60_plastic_work_refuted.

(** Refuted: no elastic work without elasticity. *)
Theorem C60_elastic_work_refuted : forall v pl, v_el v = false -> 0 < v_etael v -> r_tii pl <> 0 -> 0 < w_el v pl.
Proof.
  intros v pl _ H1 H2. unfold w_el. apply Rmult_lt_0_compat; [|now apply Rinv_0_lt_compat]. nra.
Qed.
Print Assumptions C60_elastic_work_refuted.

Example C60_ex : ok 8 ve_case /\ (v_cst ve_case || v_dis ve_case || v_pei ve_case || v_dif ve_case = true) /\
  pok pl_case /\ 0 < r_tii (plasticity pl_case) < q_Tii pl_case.
Proof.
  split; [apply C58_ex|]. split; [reflexivity|]. split; [apply C59_ex|].
  destruct C59_ex as [_ [_ [_ [_ [_ [_ ->]]]]]]. unfold pl_case. cbn [q_Tii]. lra.
Qed.
