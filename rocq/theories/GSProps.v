(** * C114 grain size in a run with grain-size evolution; C115 kinetics of phase changes *)
From Coq Require Import Reals ZArith List Bool Lra Lia Psatz.
From Verif Require Import OptionsModel RheoModel RheoProofs GSModel GSProofs.
Import ListNotations.
Local Open Scope R_scope.

(** ** Specification *)

(** Wattmeter: the grain size [d] is steady at stress [t] and dislocation creep rate [e] if it grows (rate
    [A/p d^(1-p)]) as fast as recrystallisation reduces it (rate [lam/(c gam) t e d^2]). *)
Definition steady (A p lam c gam t e d : R) : Prop := 0 < d /\ A / p * Rpower d (1 - p) = lam / (c * gam) * t * e * d ^ 2.
(** Growth at temperature [T]. *)
Definition growth (z : gse) (Rgas T : R) : R := z_K z * exp (- (z_Q z / (Rgas * T))).
(** Steady state of the rock [v] with growth law [z]. *)
Definition steady_at (v : vin) (z : gse) (Rgas T t d : R) : Prop :=
  steady (growth z Rgas T) (z_p z) (z_L z) (z_c z) (z_G z) t (Rpower (t / (2 * v_Bpwl v)) (v_npwl v)) d.
(** Viscosity [e] and grain size [d]: the strain rates of all mechanisms add up and the grain size is steady. *)
Definition solution (v : vin) (z : gse) (Rgas T e d : R) : Prop :=
  effective (vin_d v d) e /\ steady_at v z Rgas T (2 * e * v_E v) d.
(** Admissible rock. *)
Definition gs_ok (nmax : R) (v : vin) (z : gse) (Rgas T : R) : Prop :=
  ok nmax (vin_d v 1) /\ v_dis v = true /\ v_gbs v = false /\ (v_dif v = true -> 0 <= v_mlin v) /\
  0 < z_p z /\ 0 < z_K z /\ 0 < z_G z /\ 0 < z_c z /\ 0 < z_L z /\ 0 < Rgas /\ 0 < T.

(** ** Lemmas *)
Definition gof (v : vin) (z : gse) (d0 A : R) : gsp := Gsp (lip_of (vin_d v d0)) (z_L z) (z_c z) (z_G z) (z_p z) A.
Lemma gok_of nmax v z Rg T d0 : gs_ok nmax v z Rg T -> gok (gof v z d0 (z_K z * exp (- z_Q z / Rg / T))).
Proof.
  intros (O & D & B & M & P1 & P2 & P3 & P4 & P5 & P6 & P7). destruct O as (HE & H1 & H2 & H3 & H4 & H5). destruct v. cbn in *.
  unfold gok, gof. cbn. unfold no_gbs. cbn. destruct (H2 D) as (B1 & B2 & _).
  assert (0 < z_K z * exp (- z_Q z / Rg / T)) by (apply Rmult_lt_0_compat; [assumption|apply exp_pos]).
  repeat split; try assumption; try (now left); try apply Rpower_pos; intros; try apply Rpower_pos; try (destruct (H4 H0); lra); try (destruct (H5 H0); lra). now apply M.
Qed.
Lemma ok_d nmax v d : ok nmax (vin_d v 1) -> 0 < d -> ok nmax (vin_d v d).
Proof. intros (HE & H1 & H2 & H3 & H4 & H5) Hd. destruct v. unfold ok in *. cbn in *. repeat split; auto; try (apply H2; assumption); try (apply H4; assumption); apply H5; assumption. Qed.
Lemma grain_pos g e : 0 < grain g e. Proof. apply Rpower_pos. Qed.

Section One.
  Variables (nmax : R) (v : vin) (z : gse) (Rg T d0 : R).
  Hypothesis HO : gs_ok nmax v z Rg T.
  Let g := gof v z d0 (z_K z * exp (- z_Q z / Rg / T)).
  Lemma HG : gok g. Proof. now apply (gok_of nmax). Qed.
  Lemma A_eq : z_K z * exp (- z_Q z / Rg / T) = growth z Rg T.
  Proof. unfold growth. do 2 f_equal. destruct HO as (_ & _ & _ & _ & _ & _ & _ & _ & _ & A & B). field. lra. Qed.
  Lemma total_gS e : 0 < e -> total_rate (vin_d v (grain g e)) (2 * e * v_E v) = S_ (gterms g) e.
  Proof.
    intros He. assert (X := resid_gS g e HG He). unfold gs_resid in X. assert (E0 : 0 < Eii (g_lip g)) by apply HG.
    rewrite resid_S in X; [|left; unfold at_grain, set_d, g, gof; destruct v; cbn; apply HO|exact E0|exact He|intros b; apply Rgt_not_eq; apply HG; exact b|intros b; apply Rgt_not_eq; apply HG; exact b].
    assert (Q : Eii (at_grain g e) = Eii (g_lip g)) by reflexivity. rewrite Q in X.
    assert (OK : ok nmax (vin_d v (grain g e))) by (apply ok_d; [apply HO|apply grain_pos]).
    pose proof (total_terms nmax (vin_d v (grain g e)) e OK He) as TT. change (v_E (vin_d v (grain g e))) with (v_E v) in TT. rewrite TT.
    change (terms (lip_of (vin_d v (grain g e)))) with (terms (at_grain g e)). lra.
  Qed.
  Lemma rate_eq e : 0 < e -> e_pwl (g_lip g) (stress (g_lip g) e) = Rpower (2 * e * v_E v / (2 * v_Bpwl v)) (v_npwl v).
  Proof.
    intros He. destruct HO as ((HE & _ & H2 & _) & D & _). destruct (H2 D) as (B1 & _). unfold e_pwl, ifb, stress, g, gof. destruct v. cbn in *. rewrite D.
    rewrite pow_split by (try assumption; repeat apply Rmult_lt_0_compat; lra). reflexivity.
  Qed.
  Lemma steady_iff t e d : 0 < t -> 0 < e -> (steady (growth z Rg T) (z_p z) (z_L z) (z_c z) (z_G z) t e d <->
    d = Rpower (z_L z / (z_c z * z_G z) * t * e * z_p z / growth z Rg T) (-1 / (z_p z + 1))).
  Proof.
    intros Ht He. assert (A0 : 0 < growth z Rg T) by (rewrite <- A_eq; apply HG). destruct HO as (_ & _ & _ & _ & P1 & _ & P3 & P4 & P5 & _). set (K := z_L z / (z_c z * z_G z) * t * e * z_p z / growth z Rg T).
    assert (K0 : 0 < K). { unfold K. apply Rdiv_lt_0_compat; [|assumption]. repeat (apply Rmult_lt_0_compat; [|assumption]). apply Rdiv_lt_0_compat; [assumption|]. now apply Rmult_lt_0_compat. }
    assert (EQ : forall d, 0 < d -> (growth z Rg T / z_p z * Rpower d (1 - z_p z) = z_L z / (z_c z * z_G z) * t * e * d ^ 2 <-> Rpower d (- (z_p z + 1)) = K)).
    { intros x Hx. replace (1 - z_p z) with (- (z_p z + 1) + INR 2) by (cbn; ring). rewrite Rpower_plus, Rpower_pow by exact Hx.
      assert (X2 : 0 < x ^ 2) by now apply pow_lt. unfold K. set (w := Rpower x _). set (q := z_L z / (z_c z * z_G z)). split; intros Q.
      - apply Rmult_eq_reg_r with (x ^ 2 * (growth z Rg T / z_p z)); [|apply Rgt_not_eq; apply Rmult_lt_0_compat; [exact X2|now apply Rdiv_lt_0_compat]].
        transitivity (growth z Rg T / z_p z * (w * x ^ 2)); [ring|]. rewrite Q. field. lra.
      - rewrite Q. field. lra. }
    split.
    - intros [Hd Q]. apply EQ in Q; [|exact Hd]. rewrite <- Q, Rpower_mult. replace (- (z_p z + 1) * (-1 / (z_p z + 1))) with 1 by (field; lra). now rewrite Rpower_1.
    - intros ->. split; [apply Rpower_pos|]. apply EQ; [apply Rpower_pos|]. rewrite Rpower_mult. replace (-1 / (z_p z + 1) * - (z_p z + 1)) with 1 by (field; lra). now rewrite Rpower_1.
  Qed.
  Lemma grain_is e : 0 < e -> grain g e = Rpower (z_L z / (z_c z * z_G z) * (2 * e * v_E v) * Rpower (2 * e * v_E v / (2 * v_Bpwl v)) (v_npwl v) * z_p z / growth z Rg T) (-1 / (z_p z + 1)).
  Proof. intros He. unfold grain. cbv zeta. rewrite rate_eq by exact He. rewrite <- A_eq. unfold Bg. cbn. f_equal. unfold Rdiv. destruct v; cbn. ring. Qed.
  Lemma steady_grain e d : 0 < e -> (steady_at v z Rg T (2 * e * v_E v) d <-> d = grain g e).
  Proof.
    intros He. unfold steady_at. assert (0 < v_E v) by (destruct HO as ((A & _) & _); exact A). rewrite steady_iff by (repeat apply Rmult_lt_0_compat; try lra; apply Rpower_pos). now rewrite grain_is.
  Qed.
  Lemma solution_iff e d : solution v z Rg T e d <-> 0 < e /\ S_ (gterms g) e = v_E v /\ d = grain g e.
  Proof.
    unfold solution, effective. change (v_E (vin_d v d)) with (v_E v). split.
    - intros [[He Q] St]. apply steady_grain in St; [|exact He]. subst d. rewrite total_gS in Q by exact He. now repeat split.
    - intros (He & Q & ->). split; [split; [exact He|now rewrite total_gS]|]. now apply steady_grain.
  Qed.
End One.

Lemma tol_pos : 0 < ve_tol. Proof. unfold ve_tol. apply Rinv_0_lt_compat. apply pow_lt. lra. Qed.
Lemma tol_half : ve_tol <= 1 / 2.
Proof. unfold ve_tol. replace (1 / 2) with (/ 2) by field. apply Rinv_le_contravar; [lra|]. apply Rle_trans with (10 ^ 1); [lra|]. apply Rle_pow; [lra|lia]. Qed.
Lemma loop_ret g left : forall it e r d t, gok g -> 0 < e -> gs_loop g it (S left) e = GRet r d t ->
  exists x, 0 < x /\ Rabs (gs_resid g x / Eii (g_lip g)) <= ve_tol /\ d = grain g x /\ t = stress (g_lip g) x /\ (r = x \/ r = gs_newton (it + left) g x).
Proof.
  pose proof tol_pos as TP. induction left; intros it e r d t G He Q; cbn [gs_loop] in Q.
  - destruct (Rltb _ (ve_tol / 100)) eqn:B.
    + injection Q as <- <- <-. exists e. apply Rltb_true in B. split; [exact He|]. split; [lra|]. split; [reflexivity|]. split; [reflexivity|now left].
    + destruct (Rltb ve_tol _) eqn:B2; [discriminate|]. apply Rltb_false in B2. injection Q as <- <- <-. exists e. split; [exact He|]. split; [exact B2|]. split; [reflexivity|]. split; [reflexivity|]. right. f_equal. lia.
  - destruct (Rltb _ (ve_tol / 100)) eqn:B.
    + injection Q as <- <- <-. exists e. apply Rltb_true in B. split; [exact He|]. split; [lra|]. split; [reflexivity|]. split; [reflexivity|now left].
    + apply IHleft in Q; [|exact G|now apply newton_pos]. destruct Q as (x & X1 & X2 & X3 & X4 & X5). exists x. split; [exact X1|]. split; [exact X2|]. split; [exact X3|]. split; [exact X4|]. destruct X5 as [X5|X5]; [now left|right]. rewrite X5. f_equal. lia.
Qed.
Lemma iso_pos v : 0 < v_E v -> (v_dis v = true -> 0 < v_Bpwl v) -> (v_pei v = true -> 0 < v_Bexp v) -> (v_dif v = true -> 0 < v_Blin v) ->
  (v_dis v = true -> 0 < iso_pwl v) /\ (v_pei v = true -> 0 < iso_exp v) /\ (v_dif v = true -> 0 < iso_lin v).
Proof.
  intros HE H1 H2 H3. unfold iso_pwl, iso_exp, iso_lin. repeat split; intros b; repeat apply Rmult_lt_0_compat; try apply Rpower_pos; auto.
Qed.
Lemma up_pos cap v : 0 < cap -> v_gbs v = false -> 0 < v_E v -> (v_cst v = true -> 0 < v_etacst v) -> (v_el v = true -> 0 < v_etael v) ->
  (v_dis v = true -> 0 < v_Bpwl v) -> (v_pei v = true -> 0 < v_Bexp v) -> (v_dif v = true -> 0 < v_Blin v) -> 0 < eta_up cap v.
Proof.
  intros Hc B HE H1 H2 H3 H4 H5. destruct (iso_pos v HE H3 H4 H5) as (I1 & I2 & I3). unfold eta_up. rewrite B. cbn [upd_min].
  assert (U : forall b u x, 0 < u -> (b = true -> 0 < x) -> 0 < upd_min b u x).
  { intros [] u x Hu Hx; cbn [upd_min]; [|exact Hu]. unfold minv. destruct (Rle_dec u x); auto. }
  cbv zeta. repeat (apply U; [|assumption]). exact Hc.
Qed.
Lemma gs_visc_ret nmax cap v z Rg T r d t : gs_ok nmax v z Rg T -> 0 < cap -> gs_viscosity cap v z Rg T = GRet r d t ->
  exists d0 x, 0 < x /\ let g := gof v z d0 (z_K z * exp (- z_Q z / Rg / T)) in
  Rabs (gs_resid g x / v_E v) <= ve_tol /\ d = grain g x /\ t = 2 * x * v_E v /\ (r = x \/ r = gs_newton 19 g x).
Proof.
  intros HO Hc Q. unfold gs_viscosity in Q. destruct (Req_EM_T (z_c z) 0); [discriminate|]. assert (D : v_dis v = true) by apply HO. rewrite D in Q.
  set (d0 := guess_d v z _) in *. set (g := Gsp (lip_of (vin_d v d0)) _ _ _ _ _) in *. unfold local_gs in Q. destruct (Req_EM_T _ 0); [discriminate|].
  replace (dis (g_lip g)) with true in Q by (unfold g; destruct v; cbn in *; now symmetry).
  assert (G : gok g) by (now apply (gok_of nmax)). change nitmax with (S 19) in Q. apply loop_ret in Q; [|exact G|].
  - destruct Q as (x & X1 & X2 & X3 & X4 & X5). exists d0, x. split; [exact X1|]. split; [exact X2|]. split; [exact X3|]. split; [|exact X5]. rewrite X4. unfold stress, g. destruct v; cbn. ring.
  - destruct HO as ((HE & H1 & H2 & H3 & H4 & H5) & _ & B & _). destruct v. cbn in *. apply up_pos; cbn; try assumption; intros b; [now apply H2|now apply H4|now apply H5].
Qed.

(** ** C114 *)

(** If a viscosity is returned, the strain rates of all mechanisms add up to the given one (to 10^-11), and
    the returned grain size is the steady one at the returned stress. *)
Theorem C114_budget : forall nmax cap v z Rgas T eta d t, gs_ok nmax v z Rgas T -> 0 < cap -> gs_viscosity cap v z Rgas T = GRet eta d t ->
  0 < t /\ Rabs (v_E v - total_rate (vin_d v d) t) <= / 10 ^ 11 * v_E v /\ steady_at v z Rgas T t d.
Proof.
  intros nmax cap v z Rg T r d t HO Hc Q. apply (gs_visc_ret nmax) in Q; try assumption. destruct Q as (d0 & x & X1 & X2 & X3 & X4 & _).
  assert (HE : 0 < v_E v) by (destruct HO as ((A & _) & _); exact A). rewrite X4. split; [nra|]. split.
  - rewrite X3, (total_gS nmax) by assumption. rewrite resid_gS in X2; [|now apply (gok_of nmax)|exact X1]. unfold gof at 1 in X2. cbn [g_lip] in X2. change (Eii (lip_of (vin_d v d0))) with (v_E v) in X2.
    unfold Rdiv in X2. assert (I : 0 < / v_E v) by now apply Rinv_0_lt_compat. rewrite Rabs_mult, (Rabs_pos_eq (/ v_E v)) in X2 by lra.
    apply Rmult_le_compat_r with (r := v_E v) in X2; [|lra]. rewrite Rmult_assoc, Rinv_l, Rmult_1_r in X2 by lra. exact X2.
  - apply (steady_grain nmax v z Rg T d0 HO x d X1). exact X3.
Qed.
Print Assumptions C114_budget.

(** There is exactly one viscosity with a matching steady grain size, and a returned viscosity is that one. *)
Theorem C114_effective_viscosity : forall nmax v z Rgas T, gs_ok nmax v z Rgas T ->
  exists e s, solution v z Rgas T e s /\ (forall e' s', solution v z Rgas T e' s' -> e' = e /\ s' = s) /\
    forall cap eta d t, 0 < cap -> gs_viscosity cap v z Rgas T = GRet eta d t ->
      0 < eta /\ Rabs (eta - e) <= 2 * / 10 ^ 11 * e /\ Rabs (t - 2 * e * v_E v) <= / 10 ^ 11 * (2 * e * v_E v).
Proof.
  intros nmax v z Rg T HO. pose (g := gof v z 1 (z_K z * exp (- z_Q z / Rg / T))). pose proof (gok_of nmax v z Rg T 1 HO) as G. fold g in G.
  assert (HE : 0 < v_E v) by (destruct HO as ((A & _) & _); exact A).
  destruct (root_exists g G) as (e & He & Er). change (Eii (g_lip g)) with (v_E v) in Er. destruct (gterms_good g G) as [GG GN]. exists e, (grain g e).
  split; [|split].
  - apply (solution_iff nmax v z Rg T 1 HO). now repeat split.
  - intros e' s' S. apply (solution_iff nmax v z Rg T 1 HO) in S. fold g in S. destruct S as (A & B & C).
    assert (e' = e) by (apply (S_unique (gterms g) e' e (v_E v)); assumption). subst e'. now split.
  - intros cap eta d t Hc Q. apply (gs_visc_ret nmax) in Q; try assumption. destruct Q as (d0 & x & X1 & Q). cbv zeta in Q. pose (g' := gof v z d0 (z_K z * exp (- z_Q z / Rg / T))).
    fold g' in Q. pose proof (gok_of nmax v z Rg T d0 HO) as G'. fold g' in G'. destruct Q as (X2 & X3 & X4 & X5). assert (ET : gterms g' = gterms g) by reflexivity.
    rewrite resid_gS in X2 by assumption. change (Eii (g_lip g')) with (v_E v) in X2. rewrite ET in X2.
    destruct (near_root (gterms g) (v_E v) x e ve_tol GG GN HE X1 He Er (conj (Rlt_le _ _ tol_pos) tol_half) X2) as [N1 N2]. pose proof tol_pos as TP.
    split; [|split].
    + destruct X5 as [-> | ->]; [exact X1|now apply newton_pos].
    + destruct X5 as [-> | ->]; [fold ve_tol; nra|]. unfold gs_newton. rewrite resid_gS, gs_df_eq by assumption. change (Eii (g_lip g')) with (v_E v). rewrite ET. cbn [Nat.ltb Nat.leb].
      unfold N_ in N2. replace (x - (v_E v - S_ (gterms g) x) / - D_ (gterms g) x) with (x + (v_E v - S_ (gterms g) x) / D_ (gterms g) x); [exact N2|].
      field. apply Rgt_not_eq. now apply D_pos.
    + rewrite X4. replace (2 * x * v_E v - 2 * e * v_E v) with ((x - e) * (2 * v_E v)) by ring. rewrite Rabs_mult, (Rabs_pos_eq (2 * v_E v)) by lra.
      apply Rmult_le_compat_r with (r := 2 * v_E v) in N1; [|lra]. fold ve_tol. lra.
Qed.
Print Assumptions C114_effective_viscosity.

(** From the third evaluation on the iteration is Newton's: the derivative is the derivative, including the
    change of the grain size with viscosity. *)
Theorem C114_newton : forall nmax v z Rgas T d0 it e, gs_ok nmax v z Rgas T -> 0 < e -> (2 <= it)%nat ->
  let g := Gsp (lip_of (vin_d v d0)) (z_L z) (z_c z) (z_G z) (z_p z) (growth z Rgas T) in
  derivable_pt_lim (gs_resid g) e (gs_df it g e) /\ gs_df it g e < 0 /\ gs_df 0 g e < 0.
Proof.
  intros nmax v z Rg T d0 it e HO He Hi g. assert (G : gok g) by (unfold g; rewrite <- (A_eq nmax v) by exact HO; now apply (gok_of nmax)).
  destruct (gterms_good g G) as [GG GN]. rewrite !gs_df_eq by assumption. replace (Nat.ltb 1 it) with true by (symmetry; apply Nat.ltb_lt; lia). cbn [Nat.ltb Nat.leb].
  pose proof (D_pos _ e GG GN He) as Dp. pose proof (D0_ge_S g e G He) as D0p. pose proof (S_pos _ e GG GN) as Sp. assert (0 < S_ (gterms g) e / e) by now apply Rdiv_lt_0_compat.
  split; [|split; lra].
  assert (Q : derivable_pt_lim (fun x => Eii (g_lip g) - S_ (gterms g) x) e (- D_ (gterms g) e)).
  { replace (- D_ (gterms g) e) with (0 - D_ (gterms g) e) by ring. apply (derivable_pt_lim_minus (fun _ => Eii (g_lip g)) (S_ (gterms g))); [apply derivable_pt_lim_const|now apply S_derivable]. }
  intros eps He1. destruct (Q eps He1) as (dl & HD). assert (M : 0 < Rmin dl e) by (apply Rmin_pos; [apply cond_pos|exact He]). exists (mkposreal _ M). intros h Hh Hl. cbn in Hl.
  assert (Rabs h < dl /\ Rabs h < e) as [L1 L2] by (split; eapply Rlt_le_trans; try exact Hl; [apply Rmin_l|apply Rmin_r]). specialize (HD h Hh L1). rewrite !resid_gS; [exact HD|exact G|exact He|exact G|].
  apply Rabs_def2 in L2. lra.
Qed.
Print Assumptions C114_newton.

(** The steady size in metres does not depend on the units of the run: with the data base in the run's
    units, the scaled size at scaled stress, rate and temperature is steady iff the size in SI units is. *)
Theorem C114_units : forall k z eta L V Tc Rgas T t e d, wattmeter (Z.abs k) = Some z -> 0 < eta -> 0 < L -> 0 < V -> 0 < Tc -> 0 < Rgas -> 0 < T ->
  let s := ScaleMe eta L V Tc in
  exists z', read_gse s k = Some z' /\
  (steady (growth z' (Rgas / (s_J s / s_T s)) (T / s_T s)) (z_p z') (z_L z') (z_c z') (z_G z') (t / s_S s) (e / s_E s) (d / s_L s) <->
   steady (growth z Rgas T) (z_p z) (z_L z) (z_c z) (z_G z) t e d).
Proof.
  intros k z eta L V Tc Rg T t e d Hz He HL HV HT HR HT' s. unfold read_gse. rewrite Hz. eexists. split; [reflexivity|]. cbn [z_p z_L z_c z_G].
  assert (ZP : 0 < z_p z /\ 0 < z_c z /\ 0 < z_G z).
  { pose proof PI_RGT_0. unfold wattmeter in Hz. destruct (Z.abs k) as [|q|q]; try discriminate. repeat (destruct q; try discriminate); injection Hz as <-; cbn [z_p z_c z_G]; lra. }
  destruct ZP as (Zp & Zc & Zg). unfold growth. cbn [z_K z_Q].
  assert (SL : s_L s = L) by reflexivity. assert (ST : s_t s = L / V) by reflexivity. assert (SJ : s_J s = s_S s * L ^ 3) by (unfold s, ScaleMe; cbn [s_J s_S]; field; lra).
  assert (SS : 0 < s_S s) by (unfold s, ScaleMe; cbn [s_S]; apply Rdiv_lt_0_compat; [lra|apply Rdiv_lt_0_compat; lra]). assert (SE : s_E s = / (L / V)) by (unfold s, ScaleMe; cbn [s_E]; field; lra).
  assert (STc : s_T s = Tc) by reflexivity. rewrite SL, ST, SJ, SE, STc. set (S := s_S s) in *. clearbody S. clear SL ST SJ SE STc s.
  replace (z_Q z / (S * L ^ 3) / (Rg / (S * L ^ 3 / Tc) * (T / Tc))) with (z_Q z / (Rg * T)) by (field; repeat split; try lra).
  set (X := exp _). clearbody X. unfold steady.
  assert (PD : 0 < d / L <-> 0 < d). { split; intros Q; [|now apply Rdiv_lt_0_compat]. replace d with (d / L * L) by (field; lra). now apply Rmult_lt_0_compat. }
  rewrite PD. assert (P2 : Rpower L (-2) = / (L ^ 2)). { replace (-2) with (- INR 2) by (cbn; lra). rewrite Rpower_Ropp. now rewrite Rpower_pow. } rewrite P2.
  assert (L3 : 0 < L ^ 3) by now apply pow_lt. assert (L2 : 0 < L ^ 2) by now apply pow_lt.
  assert (K : 0 < L / V / L) by (repeat apply Rdiv_lt_0_compat; assumption).
  assert (RHS : z_L z / (z_c z * (z_G z / (S * L ^ 3 * / L ^ 2))) * (t / S) * (e / / (L / V)) * (d / L) ^ 2 = L / V / L * (z_L z / (z_c z * z_G z) * t * e * d ^ 2)).
  { field. repeat split; lra. }
  rewrite RHS. split; intros [Hd Q]; split; try exact Hd.
  - assert (LHS : z_K z / (Rpower L (z_p z) / (L / V)) * X / z_p z * Rpower (d / L) (1 - z_p z) = L / V / L * (z_K z * X / z_p z * Rpower d (1 - z_p z))).
    { rewrite Rpower_div by assumption. unfold Rminus at 2. rewrite Rpower_plus, Rpower_Ropp, Rpower_1 by assumption. pose proof (Rpower_pos L (z_p z)). field. repeat split; lra. }
    rewrite LHS in Q. now apply Rmult_eq_reg_l in Q; [|lra].
  - assert (LHS : z_K z / (Rpower L (z_p z) / (L / V)) * X / z_p z * Rpower (d / L) (1 - z_p z) = L / V / L * (z_K z * X / z_p z * Rpower d (1 - z_p z))).
    { rewrite Rpower_div by assumption. unfold Rminus at 2. rewrite Rpower_plus, Rpower_Ropp, Rpower_1 by assumption. pose proof (Rpower_pos L (z_p z)). field. repeat split; lra. }
    rewrite LHS. now rewrite Q.
Qed.
Print Assumptions C114_units.

(** What the reader accepts. *)
Theorem C114_data_base : forall s k, 0 < s_L s -> 0 < s_t s -> 0 < s_J s ->
  (In (Z.abs k) [9; 10; 40; 41; 42]%Z -> exists z, read_gse s k = Some z /\ 0 < z_p z /\ 0 < z_K z /\ 0 < z_Q z /\ 0 < z_G z /\ 0 < z_c z /\ 0 < z_L z) /\
  (read_gse s k <> None -> In (Z.abs k) [9; 10; 11; 12; 40; 41; 42]%Z).
Proof.
  intros s k HL Ht HJ. split.
  - intros I. pose proof PI_RGT_0. unfold read_gse.
    assert (W : exists z, wattmeter (Z.abs k) = Some z /\ 0 < z_p z /\ 0 < z_K z /\ 0 < z_Q z /\ 0 < z_G z /\ 0 < z_c z /\ 0 < z_L z).
    { cbn [In] in I. repeat (destruct I as [I|I]; [rewrite <- I; eexists; split; [reflexivity|]; cbn [z_p z_K z_Q z_G z_c z_L]; repeat split; try lra; (apply Rmult_lt_0_compat; [lra|apply Rpower_pos])|]). destruct I. }
    destruct W as (z & -> & P1 & P2 & P3 & P4 & P5 & P6). eexists. split; [reflexivity|]. cbn [z_p z_K z_Q z_G z_c z_L].
    repeat split; try assumption; repeat (apply Rdiv_lt_0_compat || apply Rmult_lt_0_compat || apply Rpower_pos || assumption).
  - unfold read_gse, wattmeter, piezometer. destruct (Z.abs k) as [|q|q]; try congruence. intros N. cbn [In].
    repeat (destruct q; try (exfalso; apply N; reflexivity); try (tauto)).
Qed.
Print Assumptions C114_data_base.

(** The paleopiezometers 11 and 12 of the data base are accepted, but every viscosity is then not a number. *)
Theorem C114_piezometers_refuted : forall s k cap v Rgas T, In (Z.abs k) [11; 12]%Z ->
  exists z, read_gse s k = Some z /\ gs_viscosity cap v z Rgas T = GUndef.
Proof.
  intros s k cap v Rg T I. unfold read_gse. cbn [In] in I. destruct I as [I|[I|[]]]; rewrite <- I; eexists; (split; [reflexivity|]); unfold gs_viscosity; cbn [z_c]; destruct (Req_EM_T 0 0); congruence.
Qed.
Print Assumptions C114_piezometers_refuted.
(** Grain-size evolution without dislocation creep is not a number either. *)
Theorem C114_needs_dislocation_refuted : forall cap v z Rgas T, v_dis v = false -> gs_viscosity cap v z Rgas T = GUndef.
Proof. intros cap v z Rg T H. unfold gs_viscosity. rewrite H. now destruct (Req_EM_T (z_c z) 0). Qed.
Print Assumptions C114_needs_dislocation_refuted.

(** *** The iteration need not find the solution *)

(** Strain rate 1/2, dislocation creep with stress exponent 2, diffusion creep with grain-size exponent 3, no
    elasticity; [M] is the product of shear modulus and time step. *)
Definition bad_v (M : R) : vin := Vin (1 / 2) false M false 1 true (/ sqrt 2) 2 false 1 1 true 1 1 1 3 false 1 1.
Definition bad_z : gse := Gse 2 1 0 1 1 1.
Definition bad_g (M d0 A : R) : gsp := gof (bad_v M) bad_z d0 A.
Lemma bad_ok M : gs_ok 3 (bad_v M) bad_z 1 1.
Proof.
  assert (0 < sqrt 2) by (apply sqrt_lt_R0; lra). unfold gs_ok, ok, bad_v, vin_d, bad_z. cbn. assert (0 < / sqrt 2) by now apply Rinv_0_lt_compat. repeat split; intros; try assumption; try lra; discriminate.
Qed.
Lemma bad_gok M d0 : gok (bad_g M d0 1).
Proof.
  pose proof (gok_of 3 _ _ _ _ d0 (bad_ok M)) as G. unfold bad_z at 2 3 in G. cbn [z_K z_Q] in G. replace (1 * exp (- 0 / 1 / 1)) with 1 in G; [exact G|]. replace (- 0 / 1 / 1) with 0 by field. rewrite exp_0. ring.
Qed.
Lemma bad_C : Rpower (2 * / sqrt 2) (- (2)) = 1 / 2.
Proof.
  assert (Q0 : 0 < sqrt 2) by (apply sqrt_lt_R0; lra). assert (QQ : sqrt 2 * sqrt 2 = 2) by (apply sqrt_sqrt; lra). replace (- (2)) with (- INR 2) by (cbn; lra).
  rewrite Rpower_Ropp, Rpower_pow by (apply Rmult_lt_0_compat; [lra|now apply Rinv_0_lt_compat]). replace (2 * / sqrt 2) with (sqrt 2); [cbn; rewrite Rmult_1_r, QQ; field|]. rewrite <- QQ at 2. field. lra.
Qed.
Lemma bad_kappa M d0 : kappa (bad_g M d0 1) = 1.
Proof.
  unfold kappa, bad_g, gof, Bg, bad_v, bad_z, vin_d, lip_of. cbn -[Rpower pow]. rewrite bad_C. replace (2 * (1 / 2)) with 1 by field. replace (Rpower 1 (2 + 1)) with 1; [field|]. unfold Rpower. rewrite ln_1, Rmult_0_r, exp_0. reflexivity.
Qed.
Lemma bad_terms M d0 x : 0 < x -> S_ (gterms (bad_g M d0 1)) x = (x ^ 2 + x ^ 4) / 2 /\ D_ (gterms (bad_g M d0 1)) x = x + 2 * x ^ 3 /\ D0 (bad_g M d0 1) x = x + x ^ 3 / 2.
Proof.
  intros Hx. assert (Q0 : 0 < sqrt 2) by (apply sqrt_lt_R0; lra). assert (QQ : sqrt 2 * sqrt 2 = 2) by (apply sqrt_sqrt; lra).
  assert (P2 : forall y, 0 < y -> Rpower y 2 = y ^ 2) by (intros y Hy; replace 2 with (INR 2) at 1 by (cbn; ring); now apply Rpower_pow).
  pose proof bad_C as C1. pose proof (bad_kappa M d0) as KP.
  assert (R1 : forall y, Rpower 1 y = 1) by (intros y; unfold Rpower; rewrite ln_1, Rmult_0_r, exp_0; reflexivity).
  assert (LC : lin_c (bad_g M d0 1) = 1 / 2).
  { unfold lin_c. rewrite KP, R1. unfold bad_g, gof, bad_v, vin_d, lip_of. cbn -[Rpower pow]. replace (2 * (1 / 2)) with 1 by field. rewrite R1, Rpower_Ropp, Rmult_1_r, Rpower_1 by lra. field. }
  assert (LN : lin_n (bad_g M d0 1) = INR 4) by (unfold lin_n, bad_g, gof, bad_v, vin_d, lip_of, bad_z; cbn; field).
  assert (P4 : Rpower x (INR 4) = x ^ 4) by now apply Rpower_pow.
  unfold D0, gterms. cbv zeta. rewrite !S_app, !D_app, !S_one, !D_one, LC, LN, P4. unfold bad_g, gof, bad_v, vin_d, lip_of. cbn -[Rpower pow INR].
  rewrite C1. replace (2 * (1 / 2)) with 1 by field. rewrite !R1, !P2 by assumption. replace (INR 4) with 4 by (cbn; ring). repeat split; field; lra.
Qed.
Lemma bad_resid M d0 x : 0 < x -> gs_resid (bad_g M d0 1) x / Eii (g_lip (bad_g M d0 1)) = 1 - x ^ 2 - x ^ 4.
Proof.
  intros Hx. pose proof (bad_gok M d0) as G.
  rewrite resid_gS by assumption. destruct (bad_terms M d0 x Hx) as (-> & _). change (Eii (g_lip (bad_g M d0 1))) with (1 / 2). field.
Qed.
Lemma bad_step M d0 it x : 0 < x -> gs_newton it (bad_g M d0 1) x = if Nat.ltb 1 it then (1 + x ^ 2 + 3 * x ^ 4) / (2 * x + 4 * x ^ 3) else (1 + x ^ 2) / (2 * x + x ^ 3).
Proof.
  intros Hx. pose proof (bad_gok M d0) as G.
  unfold gs_newton. rewrite resid_gS, gs_df_eq by assumption. destruct (bad_terms M d0 x Hx) as (-> & -> & ->). change (Eii (g_lip (bad_g M d0 1))) with (1 / 2).
  assert (0 < x ^ 3) by now apply pow_lt. destruct (Nat.ltb 1 it); field; repeat split; nra.
Qed.
Lemma big_out g it left x : (1 <= left)%nat -> 1 / 2 <= Rabs (gs_resid g x / Eii (g_lip g)) -> gs_loop g it (S left) x = gs_loop g (S it) left (gs_newton it g x).
Proof.
  intros HL B. pose proof tol_pos. pose proof tol_half. cbn [gs_loop]. replace (Rltb _ (ve_tol / 100)) with false by (symmetry; apply Rltb_false; lra). destruct left; [lia|]. reflexivity.
Qed.
Lemma big_exit g it x : 1 <= Rabs (gs_resid g x / Eii (g_lip g)) -> gs_loop g it 1 x = GExit.
Proof.
  intros B. pose proof tol_pos. pose proof tol_half. cbn [gs_loop]. replace (Rltb _ (ve_tol / 100)) with false by (symmetry; apply Rltb_false; lra).
  now replace (Rltb ve_tol _) with true by (symmetry; apply Rltb_true; lra).
Qed.
Lemma far M d0 x : 2 <= x -> 1 <= Rabs (gs_resid (bad_g M d0 1) x / Eii (g_lip (bad_g M d0 1))).
Proof. intros Hx. rewrite bad_resid by lra. assert (4 <= x ^ 2) by nra. assert (0 < x ^ 4) by (apply pow_lt; lra). rewrite Rabs_left; lra. Qed.
Lemma near M d0 x : 0 < x <= / 10 ^ 6 -> 1 / 2 <= Rabs (gs_resid (bad_g M d0 1) x / Eii (g_lip (bad_g M d0 1))).
Proof. intros Hx. rewrite bad_resid by lra. assert (x <= 1 / 4) by lra. assert (x ^ 2 <= 1 / 16) by nra. assert (x ^ 4 <= 1 / 16) by (replace (x ^ 4) with (x ^ 2 * x ^ 2) by ring; assert (0 <= x ^ 2) by nra; nra). rewrite Rabs_pos_eq; lra. Qed.
Lemma crawl M d0 left : forall it x, (2 <= it)%nat -> 2 * 2 ^ left <= x -> gs_loop (bad_g M d0 1) it (S left) x = GExit.
Proof.
  induction left; intros it x Hi Hx.
  - apply big_exit. apply far. cbn in Hx. lra.
  - cbn [pow] in Hx. assert (1 <= 2 ^ left) by (apply pow_R1_Rle; lra). rewrite big_out; [|lia|apply Rle_trans with 1; [lra|apply far; lra]]. apply IHleft; [lia|]. rewrite bad_step by lra.
    replace (Nat.ltb 1 it) with true by (symmetry; apply Nat.ltb_lt; lia). apply Rle_trans with (x / 2); [lra|].
    assert (0 < x ^ 3) by (apply pow_lt; lra). assert (0 < x ^ 4) by (apply pow_lt; lra). apply Rmult_le_reg_r with (2 * x + 4 * x ^ 3); [lra|]. unfold Rdiv. rewrite (Rmult_assoc (1 + x ^ 2 + 3 * x ^ 4)), Rinv_l by lra.
    replace (x * / 2 * (2 * x + 4 * x ^ 3)) with (x ^ 2 + 2 * x ^ 4) by field. lra.
Qed.
Lemma jump y a b : 0 < y <= / 10 ^ 6 -> 1 <= a -> 0 < b <= 3 * y -> / (3 * y) <= a / b.
Proof. intros Hy Ha Hb. unfold Rdiv. apply Rle_trans with (/ b); [apply Rinv_le_contravar; lra|]. assert (0 < / b) by (apply Rinv_0_lt_compat; lra). nra. Qed.

Lemma bad_pwl M d : iso_pwl (vin_d (bad_v M) d) = 1.
Proof.
  unfold iso_pwl, bad_v, vin_d. cbn. replace (1 / 2 - 1) with (- / 2) by field. rewrite Rpower_Ropp. replace (1 / 2) with (/ 2) by field.
  rewrite Rpower_sqrt by lra. rewrite sqrt_inv. rewrite Rinv_inv. apply Rinv_l. apply Rgt_not_eq. apply sqrt_lt_R0. lra.
Qed.
Lemma bad_guess M : 0 < M -> guess_d (bad_v M) bad_z 1 = Rpower (/ (M * M)) (1 / 3).
Proof.
  intros M0. unfold guess_d. change (iso_pwl (bad_v M)) with (iso_pwl (vin_d (bad_v M) 1)). rewrite bad_pwl. unfold bad_v, bad_z, Rpower. cbn. f_equal.
  replace (1 * 1 / (1 * (1 / 1) * (2 * M * (1 / 2)) * (2 * M * (1 / 2) / 2 / 1) * 2)) with (/ (M * M)) by (field; lra). field.
Qed.
Lemma bad_lin M : 0 < M -> iso_lin (vin_d (bad_v M) (Rpower (/ (M * M)) (1 / 3))) = / (M * M).
Proof.
  intros M0. assert (0 < / (M * M)) by (apply Rinv_0_lt_compat; now apply Rmult_lt_0_compat). unfold iso_lin, vin_d, bad_v. cbn. replace (1 / 1 - 1) with 0 by field. rewrite Rpower_O by lra.
  rewrite Rpower_mult. replace (1 / 3 * (3 / 1)) with 1 by field. rewrite Rpower_1 by lra. ring.
Qed.

(** For any shear modulus times time step of at least 10^4 the run stops (with exit status 0, reporting
    success) although the rock has exactly one viscosity with a steady grain size. *)
Theorem C114_iteration_fails_refuted : forall M cap, 10 ^ 4 <= M -> 1 <= cap ->
  (exists e d, solution (bad_v M) bad_z 1 1 e d) /\ gs_ok 3 (bad_v M) bad_z 1 1 /\ gs_viscosity cap (bad_v M) bad_z 1 1 = GExit.
Proof.
  intros M cap HM Hc. split; [|split; [apply bad_ok|]].
  - destruct (C114_effective_viscosity _ _ _ _ _ (bad_ok M)) as (e & d & S & _). now exists e, d.
  - unfold gs_viscosity. unfold bad_z at 1. cbn [z_c]. destruct (Req_EM_T 1 0); [lra|]. unfold bad_v at 1. cbn [v_dis].
    replace (z_K bad_z * exp (- z_Q bad_z / 1 / 1)) with 1 by (cbn; replace (- 0 / 1 / 1) with 0 by field; rewrite exp_0; ring).
    assert (M0 : 0 < M) by lra.
    pose proof (bad_guess M M0) as GD. pose proof (fun d => bad_pwl M d) as I1.
    set (d0 := guess_d (bad_v M) bad_z 1) in *. assert (M2 : 10 ^ 8 <= M * M) by nra. assert (IM : 0 < / (M * M) <= / 10 ^ 8) by (split; [apply Rinv_0_lt_compat; nra|apply Rinv_le_contravar; lra]).
    assert (I2 : iso_lin (vin_d (bad_v M) d0) = / (M * M)) by (rewrite GD; now apply bad_lin).
    assert (UP : eta_up cap (vin_d (bad_v M) d0) = / (M * M)).
    { unfold eta_up. rewrite I1, I2. unfold vin_d, bad_v. cbn [upd_min v_cst v_dis v_el v_pei v_dif v_gbs]. cbv zeta. unfold minv. destruct (Rle_dec cap 1); [assert (cap = 1) by lra; subst cap|]; destruct (Rle_dec 1 (/ (M * M))); lra. }
    rewrite UP. set (x := / (M * M)) in *. clearbody x. clear GD I1 I2 UP. change (Gsp (lip_of (vin_d (bad_v M) d0)) (z_L bad_z) (z_c bad_z) (z_G bad_z) (z_p bad_z) 1) with (bad_g M d0 1).
    unfold local_gs. change (g_cg (bad_g M d0 1) * g_gam (bad_g M d0 1)) with (1 * 1). destruct (Req_EM_T (1 * 1) 0); [lra|]. change (dis (g_lip (bad_g M d0 1))) with true. cbv iota.
    change nitmax with 20%nat. rewrite big_out; [|lia|apply near; lra]. rewrite bad_step by lra. cbn [Nat.ltb Nat.leb].
    assert (X3 : 0 < x ^ 3 <= x) by (split; [apply pow_lt; lra|]; assert (x ^ 2 <= 1) by nra; replace (x ^ 3) with (x * x ^ 2) by ring; nra).
    assert (X1 : / (3 * x) <= (1 + x ^ 2) / (2 * x + x ^ 3)) by (apply jump; nra). set (x1 := (1 + x ^ 2) / (2 * x + x ^ 3)) in *. clearbody x1.
    assert (B1 : 10 ^ 7 <= x1). { apply Rle_trans with (/ (3 * x)); [|exact X1]. replace (10 ^ 7) with (/ / 10 ^ 7) by (apply Rinv_inv). apply Rinv_le_contravar; lra. }
    rewrite big_out; [|lia|apply Rle_trans with 1; [lra|apply far; lra]]. rewrite bad_step by lra. cbn [Nat.ltb Nat.leb].
    assert (X2 : 0 < (1 + x1 ^ 2) / (2 * x1 + x1 ^ 3) <= / x1).
    { assert (0 < x1 ^ 2) by (apply pow_lt; lra). assert (0 < x1 ^ 3) by (apply pow_lt; lra). split; [apply Rdiv_lt_0_compat; lra|].
      apply Rmult_le_reg_r with (2 * x1 + x1 ^ 3); [lra|]. unfold Rdiv. rewrite Rmult_assoc, Rinv_l by lra. replace (/ x1 * (2 * x1 + x1 ^ 3)) with (2 + x1 ^ 2) by (field; lra). lra. }
    assert (I1 : / x1 <= / 10 ^ 7) by (apply Rinv_le_contravar; lra). set (y := (1 + x1 ^ 2) / (2 * x1 + x1 ^ 3)) in *. clearbody y.
    rewrite big_out; [|lia|apply near; lra]. rewrite bad_step by lra. cbn [Nat.ltb Nat.leb].
    assert (Y3 : 0 < y ^ 3 <= y / 4) by (split; [apply pow_lt; lra|]; assert (y ^ 2 <= 1 / 4) by nra; replace (y ^ 3) with (y * y ^ 2) by ring; nra).
    assert (Y4 : 0 < y ^ 4) by (apply pow_lt; lra). assert (Z : / (3 * y) <= (1 + y ^ 2 + 3 * y ^ 4) / (2 * y + 4 * y ^ 3)) by (apply jump; nra).
    apply crawl; [lia|]. apply Rle_trans with (/ (3 * y)); [|exact Z]. apply Rle_trans with (10 ^ 6); [lra|]. replace (10 ^ 6) with (/ / 10 ^ 6) by (apply Rinv_inv). apply Rinv_le_contravar; lra.
Qed.
Print Assumptions C114_iteration_fails_refuted.


(** The same rock where the first guess happens to be the solution: viscosity, grain size and stress. *)
Example C114_ex : let e := sqrt ((sqrt 5 - 1) / 2) in let M := / sqrt e in gs_ok 3 (bad_v M) bad_z 1 1 /\ gs_viscosity 1 (bad_v M) bad_z 1 1 = GRet e (/ e) e /\ solution (bad_v M) bad_z 1 1 e (/ e).
Proof.
  intros e M. assert (S5 : sqrt 5 * sqrt 5 = 5) by (apply sqrt_sqrt; lra). assert (P5 : 2 < sqrt 5 < 3).
  { pose proof (sqrt_pos 5). split; [apply Rnot_le_lt|apply Rnot_le_lt]; intros Q; nra. }
  assert (E2 : e * e = (sqrt 5 - 1) / 2) by (apply sqrt_sqrt; lra). assert (E0 : 0 < e) by (apply sqrt_lt_R0; lra). assert (E4 : 1 - e ^ 2 - e ^ 4 = 0).
  { replace (e ^ 4) with ((e * e) * (e * e)) by ring. replace (e ^ 2) with (e * e) by ring. rewrite E2. nra. }
  assert (E1 : e <= 1) by nra. clearbody e. assert (QE : 0 < sqrt e) by now apply sqrt_lt_R0. assert (M0 : 0 < M) by now apply Rinv_0_lt_compat.
  assert (MM : / (M * M) = e). { unfold M. rewrite <- Rinv_mult, Rinv_inv, sqrt_sqrt by lra. reflexivity. }
  assert (GR : grain (bad_g M (Rpower e (1 / 3)) 1) e = / e).
  { assert (K1 := bad_gok M (Rpower e (1 / 3))). rewrite grain_eq by assumption. rewrite bad_kappa. replace (Rpower 1 _) with 1 by (unfold Rpower; now rewrite ln_1, Rmult_0_r, exp_0).
    unfold bad_g, gof, bad_v, bad_z, vin_d, lip_of. cbn. replace (- (2 + 1) / (2 + 1)) with (Ropp 1) by field. rewrite Rpower_Ropp, Rpower_1 by assumption. ring. }
  split; [apply bad_ok|]. split.
  - unfold gs_viscosity. unfold bad_z at 1. cbn [z_c]. destruct (Req_EM_T 1 0); [lra|]. unfold bad_v at 1. cbn [v_dis].
    replace (z_K bad_z * exp (- z_Q bad_z / 1 / 1)) with 1 by (cbn; replace (- 0 / 1 / 1) with 0 by field; rewrite exp_0; ring).
    pose proof (bad_lin M M0) as BL. rewrite bad_guess by exact M0. rewrite MM in BL |- *. set (d0 := Rpower e (1 / 3)) in *.
    assert (UP : eta_up 1 (vin_d (bad_v M) d0) = e).
    { unfold eta_up. rewrite bad_pwl, BL. unfold vin_d, bad_v. cbn [upd_min v_cst v_dis v_el v_pei v_dif v_gbs]. cbv zeta. unfold minv. destruct (Rle_dec 1 1); destruct (Rle_dec 1 e); lra. }
    rewrite UP. change (Gsp (lip_of (vin_d (bad_v M) d0)) (z_L bad_z) (z_c bad_z) (z_G bad_z) (z_p bad_z) 1) with (bad_g M d0 1).
    unfold local_gs. change (g_cg (bad_g M d0 1) * g_gam (bad_g M d0 1)) with (1 * 1). destruct (Req_EM_T (1 * 1) 0); [lra|]. change (dis (g_lip (bad_g M d0 1))) with true. cbv iota.
    change nitmax with 20%nat. cbn [gs_loop]. rewrite bad_resid by exact E0. rewrite E4, Rabs_R0. pose proof tol_pos. replace (Rltb 0 (ve_tol / 100)) with true by (symmetry; apply Rltb_true; lra).
    rewrite GR. f_equal. unfold stress. change (Eii (g_lip (bad_g M d0 1))) with (1 / 2). field.
  - apply (solution_iff 3 (bad_v M) bad_z 1 1 (Rpower e (1 / 3)) (bad_ok M)). replace (z_K bad_z * exp (- z_Q bad_z / 1 / 1)) with 1 by (cbn; replace (- 0 / 1 / 1) with 0 by field; rewrite exp_0; ring).
    split; [exact E0|]. split; [|now symmetry]. destruct (bad_terms M (Rpower e (1 / 3)) e E0) as (Q & _). unfold bad_g in Q. rewrite Q. cbn [v_E bad_v]. lra.
Qed.

(** ** C115: kinetics *)

(** Characteristic time of the law 9: time after which all but 1/3 (0.3333334) of the volume of a mineral
    with [2 S] grain boundary per volume has transformed at growth rate [V]: [exp(-2 S V tau)] = 0.3333334. *)
Definition transformed (S V tau : R) : Prop := exp (-2 * S * V * tau) = 3333334 / 10 ^ 7.
(** Growth rate of an interface with driving force [dG] per mole. *)
Definition interface_rate (k Q Rgas T dG : R) : R := k * T * exp (- (Q / (Rgas * T))) * (1 - exp (- (dG / (Rgas * T)))).

Lemma rate_is k Q Rg T dG : 0 < Rg -> 0 < T -> growth_rate k Q Rg T dG = interface_rate k Q Rg T dG.
Proof. intros H1 H2. unfold growth_rate, interface_rate. replace (- Q / Rg / T) with (- (Q / (Rg * T))) by (field; lra). replace (- dG / Rg / T) with (- (dG / (Rg * T))) by (field; lra). ring. Qed.
Lemma rate_pos k Q Rg T dG : 0 < k -> 0 < Rg -> 0 < T -> 0 < dG -> 0 < interface_rate k Q Rg T dG.
Proof.
  intros Hk HR HT HG. unfold interface_rate. assert (0 < dG / (Rg * T)) by (apply Rdiv_lt_0_compat; [assumption|now apply Rmult_lt_0_compat]).
  assert (exp (- (dG / (Rg * T))) < 1) by (rewrite <- exp_0; apply exp_increasing; lra). repeat apply Rmult_lt_0_compat; try assumption; [apply exp_pos|lra].
Qed.
(** With a driving force, the characteristic time is positive and is the time of transformation. *)
Theorem C115_time : forall S k Q Rgas T dG, 0 < S -> 0 < k -> 0 < Rgas -> 0 < T -> 0 < dG ->
  let tau := kin_time S k Q Rgas T dG in
  0 < tau /\ forall t, transformed S (interface_rate k Q Rgas T dG) t <-> t = tau.
Proof.
  intros S k Q Rg T dG HS Hk HR HT HG tau. pose proof (rate_pos k Q Rg T dG Hk HR HT HG) as V. assert (SV : 0 < 2 * S * interface_rate k Q Rg T dG) by (apply Rmult_lt_0_compat; lra).
  assert (TE : tau = - ln (3333334 / 10 ^ 7) / (2 * S * interface_rate k Q Rg T dG)).
  { unfold tau, kin_time. rewrite rate_is by assumption. replace (1 - 6666666 / 10 ^ 7) with (3333334 / 10 ^ 7) by (field; lra). field. split; lra. }
  assert (LN : ln (3333334 / 10 ^ 7) < 0) by (rewrite <- ln_1; apply ln_increasing; lra).
  split; [rewrite TE; apply Rdiv_lt_0_compat; lra|]. intros t. unfold transformed. split.
  - intros E. rewrite TE, <- E, ln_exp. field. split; lra.
  - intros ->. rewrite TE. replace (-2 * S * interface_rate k Q Rg T dG * _) with (ln (3333334 / 10 ^ 7)) by (field; split; lra). apply exp_ln. lra.
Qed.
Print Assumptions C115_time.
(** A larger driving force transforms faster. *)
Theorem C115_driving_force : forall S k Q Rgas T dG dG', 0 < S -> 0 < k -> 0 < Rgas -> 0 < T -> 0 < dG < dG' ->
  kin_time S k Q Rgas T dG' < kin_time S k Q Rgas T dG.
Proof.
  intros S k Q Rg T dG dG' HS Hk HR HT [HG HG']. unfold kin_time. rewrite !rate_is by assumption. pose proof (rate_pos k Q Rg T dG Hk HR HT HG) as V.
  assert (V' : interface_rate k Q Rg T dG < interface_rate k Q Rg T dG').
  { unfold interface_rate. apply Rmult_lt_compat_l; [repeat apply Rmult_lt_0_compat; try assumption; apply exp_pos|].
    assert (RT : 0 < / (Rg * T)) by (apply Rinv_0_lt_compat; now apply Rmult_lt_0_compat). assert (dG / (Rg * T) < dG' / (Rg * T)) by (unfold Rdiv; nra). assert (exp (- (dG' / (Rg * T))) < exp (- (dG / (Rg * T)))) by (apply exp_increasing; lra). lra. }
  assert (LN : ln (1 - 6666666 / 10 ^ 7) < 0) by (rewrite <- ln_1; apply ln_increasing; lra). set (V1 := interface_rate k Q Rg T dG) in *. set (V2 := interface_rate k Q Rg T dG') in *. clearbody V1 V2.
  assert (P1 : 0 < 2 * S * V1) by (apply Rmult_lt_0_compat; lra). assert (P2 : 2 * S * V1 < 2 * S * V2) by (apply Rmult_lt_compat_l; lra).
  assert (J : / (2 * S * V2) < / (2 * S * V1)) by (apply Rinv_lt_contravar; [apply Rmult_lt_0_compat; lra|exact P2]).
  replace (-2 * S * V2) with (- (2 * S * V2)) by ring. replace (-2 * S * V1) with (- (2 * S * V1)) by ring. rewrite !Rinv_opp. nra.
Qed.
Print Assumptions C115_driving_force.

(** One step: the density lies between the one before and the one in equilibrium, and its distance to equilibrium
    shrinks by the factor [tau / (tau + dt)]; without a driving force it is the equilibrium density at once. *)
Theorem C115_density : forall number tau S k Q Rgas T dG dt rho0 rhoeq, In number [1; 9]%Z -> 0 <= tau -> 0 < S -> 0 < k -> 0 < Rgas -> 0 < T -> 0 < dt ->
  let rho := kin_density number tau S k Q Rgas T dG dt rho0 rhoeq in
  Rmin rho0 rhoeq <= rho <= Rmax rho0 rhoeq /\
  (number = 1%Z -> (rho - rhoeq) * (tau + dt) = (rho0 - rhoeq) * tau) /\
  (number = 9%Z -> 0 < dG -> forall t, transformed S (interface_rate k Q Rgas T dG) t -> (rho - rhoeq) * (t + dt) = (rho0 - rhoeq) * t) /\
  (number = 9%Z -> dG <= 0 -> rho = rhoeq).
Proof.
  intros number tau S k Q Rg T dG dt r0 req I Ht HS Hk HR HT Hd rho.
  set (tk := if (number =? 9)%Z then (if Rltb 0 dG then kin_time S k Q Rg T dG else 0) else tau).
  assert (TK : 0 <= tk). { unfold tk. destruct (number =? 9)%Z; [|exact Ht]. destruct (Rltb 0 dG) eqn:B; [|lra]. apply Rltb_true in B. left. now apply C115_time. }
  assert (RE : rho = kin_rho tk dt r0 req). { unfold rho, kin_density. fold tk. cbn [In] in I. destruct I as [<-|[<-|[]]]; reflexivity. }
  assert (E : rho * (tk + dt) = tk * r0 + dt * req) by (rewrite RE; unfold kin_rho; field; lra).
  split; [|split; [|split]].
  - clearbody rho tk. pose proof (Rmin_l r0 req). pose proof (Rmin_r r0 req). pose proof (Rmax_l r0 req). pose proof (Rmax_r r0 req).
    split; apply Rmult_le_reg_r with (tk + dt); try lra; rewrite E; nra.
  - intros ->. unfold tk in E. cbn [Z.eqb Pos.eqb] in E. clearbody rho. lra.
  - intros -> HG t Tr. unfold tk in E. cbn [Z.eqb Pos.eqb] in E. replace (Rltb 0 dG) with true in E by (symmetry; now apply Rltb_true).
    apply (proj2 (C115_time S k Q Rg T dG HS Hk HR HT HG)) in Tr. rewrite <- Tr in E. clearbody rho. lra.
  - intros -> HG. unfold tk in E. cbn [Z.eqb Pos.eqb] in E. replace (Rltb 0 dG) with false in E by (symmetry; now apply Rltb_false). apply Rmult_eq_reg_r with dt; [|lra]. clearbody rho. lra.
Qed.
Print Assumptions C115_density.

(** The characteristic time in seconds does not depend on the units of the run. *)
Theorem C115_units : forall number eta L V Tc Rgas T dG, In (Z.abs number) [9]%Z -> 0 < eta -> 0 < L -> 0 < V -> 0 < Tc -> 0 < Rgas -> 0 < T -> 0 < dG ->
  let s := ScaleMe eta L V Tc in
  exists S k Q, read_kinetics s number = Some (KinGrowth S k Q) /\
  kin_time S k Q (Rgas / (s_J s / s_T s)) (T / s_T s) (dG / s_J s) * s_t s = kin_time 33500 (185 / 1000) (243 * 10 ^ 3) Rgas T dG.
Proof.
  intros number eta L V Tc Rg T dG I HE HL HV HT HR HT' HG s. unfold read_kinetics. cbn [In] in I. destruct I as [I|[]]. rewrite <- I. do 3 eexists. split; [reflexivity|].
  assert (SL : s_L s = L) by reflexivity. assert (ST : s_t s = L / V) by reflexivity. assert (STc : s_T s = Tc) by reflexivity.
  assert (SJ : 0 < s_J s). { replace (s_J s) with (eta * V * L ^ 2) by (unfold s, ScaleMe; cbn [s_J]; field; lra). repeat apply Rmult_lt_0_compat; try assumption. lra. }
  rewrite SL, ST, STc. set (J := s_J s) in *. clearbody J. clear SL ST STc s. unfold kin_time, growth_rate.
  replace (- (243 * 10 ^ 3 / J) / (Rg / (J / Tc)) / (T / Tc)) with (- (243 * 10 ^ 3) / Rg / T) by (field; lra). replace (- (dG / J) / (Rg / (J / Tc)) / (T / Tc)) with (- dG / Rg / T) by (field; lra).
  assert (N1 : exp (- dG / Rg / T) < 1). { rewrite <- exp_0. apply exp_increasing. replace (- dG / Rg / T) with (- (dG / (Rg * T))) by (field; lra). assert (0 < dG / (Rg * T)) by (apply Rdiv_lt_0_compat; [assumption|now apply Rmult_lt_0_compat]). lra. }
  pose proof (exp_pos (- (243 * 10 ^ 3) / Rg / T)) as N2. set (a := exp (- dG / Rg / T)) in *. set (b := exp (- (243 * 10 ^ 3) / Rg / T)) in *. clearbody a b.
  field. repeat split; lra.
Qed.
Print Assumptions C115_units.

(** Which numbers the reader accepts: 1 and 9 with either sign. *)
Theorem C115_reader : forall s number, read_kinetics s number <> None <-> In (Z.abs number) [1; 9]%Z.
Proof.
  intros s number. unfold read_kinetics. cbn [In]. split.
  - destruct (Z.abs number) as [|q|q]; try congruence. intros N. repeat (destruct q; try (exfalso; apply N; reflexivity); try tauto).
  - intros [<-|[<-|[]]]; discriminate.
Qed.
Print Assumptions C115_reader.
(** With the sign changed the law is read without complaint but not applied. *)
Theorem C115_negative_numbers_refuted : forall s number tau S k Q Rgas T dG dt rho0 rhoeq, In number [-1; -9]%Z ->
  read_kinetics s number <> None /\ kin_density number tau S k Q Rgas T dG dt rho0 rhoeq = rhoeq.
Proof. intros s number tau S k Q Rg T dG dt r0 req I. cbn [In] in I. destruct I as [<-|[<-|[]]]; (split; [discriminate|reflexivity]). Qed.
Print Assumptions C115_negative_numbers_refuted.

Example C115_ex : kin_density 1 3 1 1 1 1 1 1 1 2700 3100 = 2800 /\ kin_density (-1) 3 1 1 1 1 1 1 1 2700 3100 = 3100 /\ kin_density 9 3 1 1 1 1 1 0 1 2700 3100 = 3100.
Proof. unfold kin_density. cbn [Z.eqb Pos.eqb orb]. replace (Rltb 0 0) with false by (symmetry; apply Rltb_false; lra). unfold kin_rho. repeat split; field. Qed.
