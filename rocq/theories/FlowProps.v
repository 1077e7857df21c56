(** * Flow laws reproduce the published laboratory laws in any system of units; mixtures *)
From Coq Require Import Reals ZArith List Bool Lra Lia.
From Verif Require Import OptionsModel RheoModel FlowModel.
Import ListNotations.
Local Open Scope R_scope.

(** ** Specification *)

(** Strain rate measured in an experiment at differential stress [sigma], everything in SI units. *)
Definition lab_rate (l : law) (T P d phi sigma : R) : R :=
  l_A l * Rpower sigma (l_n l) * Rpower d (- l_m l) * Rpower (l_f l) (l_r l) * exp (l_a l * phi)
  * exp (- (l_Q l + P * l_V l) / (Rgas * T)).
(** Relation between the invariants [E] (strain rate) and [tau] (stress) of a material that obeys the law.
    Axial compression measures [2/sqrt 3] times the strain-rate invariant and [sqrt 3] times the stress
    invariant; simple shear measures the shear strain rate [2 E] and is stated with [sigma = 2 tau]; a law
    without experiment is stated for [E] and [tau/2]. *)
Definition obeys (l : law) (T P d phi E tau : R) : Prop :=
  match l_t l with
  | 0%Z => E = lab_rate l T P d phi (tau / 2)
  | 1%Z => 2 / sqrt 3 * E = lab_rate l T P d phi (sqrt 3 * tau)
  | 2%Z => 2 * E = lab_rate l T P d phi (2 * tau)
  | _ => False
  end.
(** A meaningful law. *)
Definition proper (l : law) : Prop :=
  0 < l_n l /\ 0 < l_A l /\ (0 < l_f l \/ l_r l = 0) /\ (l_t l = 0 \/ l_t l = 1 \/ l_t l = 2)%Z.

(** Viscosity (in Pa s) that the code computes for a law in the units [s], from SI temperature, pressure, grain
    size, melt fraction and strain rate. *)
Definition creep_eta (s : scale) (p : slaw) (pre T P d phi E : R) : R :=
  s_eta s * (Bfull p pre (scaled_R s) (floor_T s (T / s_T s)) (P / s_S s) (d / s_L s) phi
             * Rpower (E / s_E s) (1 / l_n (s_law p) - 1)).

(** ** Logarithms *)
Lemma ln_Rp : forall x y, ln (Rpower x y) = y * ln x.
Proof. intros. unfold Rpower. apply ln_exp. Qed.
Lemma Rp_pos : forall x y, 0 < Rpower x y.
Proof. intros. unfold Rpower. apply exp_pos. Qed.
Lemma ln_div : forall x y, 0 < x -> 0 < y -> ln (x / y) = ln x - ln y.
Proof. intros. unfold Rdiv. rewrite ln_mult, ln_Rinv; try apply Rinv_0_lt_compat; try lra; auto. Qed.
Lemma Rp_zero : forall x, Rpower x 0 = 1.
Proof. intros. unfold Rpower. rewrite Rmult_0_l. apply exp_0. Qed.

Record pos_units (s : scale) : Prop := {
  pu_is : s = ScaleMe (s_eta s) (s_L s) (s_V s) (s_T s);
  pu_eta : 0 < s_eta s; pu_L : 0 < s_L s; pu_V : 0 < s_V s; pu_T : 0 < s_T s }.

Lemma units : forall s, pos_units s -> 0 < s_t s /\ 0 < s_S s /\ s_E s = / s_t s /\ s_eta s = s_S s * s_t s /\
  s_J s = s_S s * s_L s ^ 3.
Proof.
  intros s [H He HL HV HT]. assert (Ht : 0 < s_L s / s_V s) by (apply Rdiv_lt_0_compat; lra).
  rewrite H. unfold ScaleMe. cbn [s_t s_S s_E s_eta s_J s_L]. set (t := s_L s / s_V s) in *. clearbody t.
  split; [exact Ht|]. split; [now apply Rdiv_lt_0_compat|]. split; [unfold Rdiv; ring|]. split; field; lra.
Qed.

(** Main computation: the scaled prefactor is the SI one divided by its unit, whatever the units. *)
Definition SI : scale := ScaleMe 1 1 1 1.
Definition B_SI (l : law) (F pre T P d phi : R) : R :=
  pre * F * Rpower (l_A l) (-1 / l_n l) * exp ((l_Q l + P * l_V l) / Rgas / l_n l / T)
  * Rpower d (l_m l / l_n l) * Rpower (l_f l) (- l_r l / l_n l) * exp (- l_a l * phi / l_n l).

Lemma fpow : forall l y c, proper l -> 0 < c -> Rpower (l_f l / c) (- l_r l / y) = Rpower (l_f l) (- l_r l / y) * Rpower c (l_r l / y).
Proof.
  intros l y c (_ & _ & Hf & _) Hc. unfold Rpower. rewrite <- exp_plus. f_equal. destruct Hf as [Hf|Hf].
  - rewrite ln_div by assumption. unfold Rdiv. ring.
  - rewrite Hf. unfold Rdiv. ring.
Qed.

Lemma scaled_B : forall s l F pre T P d phi, pos_units s -> proper l -> 0 < d -> zeroC <= T ->
  Bfull (Slaw (scale_law s l) F) pre (scaled_R s) (floor_T s (T / s_T s)) (P / s_S s) (d / s_L s) phi
  = B_SI l F pre T P d phi / (s_S s * Rpower (s_t s) (1 / l_n l)).
Proof.
  intros s l F pre T P d phi Hs Hl Hd HT. destruct (units s Hs) as (Ht & HS & HE & Heta & HJ).
  pose proof (pu_L s Hs) as HL. pose proof (pu_T s Hs) as HTs. pose proof Hl as (Hn & HA & Hf & _).
  assert (Z : 0 < zeroC) by (unfold zeroC; lra).
  assert (G : floor_T s (T / s_T s) = T / s_T s).
  { unfold floor_T. destruct (Rlt_dec _ _) as [C|C]; [|reflexivity]. exfalso. revert C. apply Rle_not_lt.
    apply Rmult_le_compat_r; [left; now apply Rinv_0_lt_compat|exact HT]. }
  rewrite G. unfold Bfull, B_SI, scale_law. cbn [s_law s_F l_t l_n l_m l_r l_Q l_V l_A l_f l_a]. rewrite fpow by assumption.
  replace ((l_Q l / s_J s + P / s_S s * (l_V l / s_L s ^ 3)) / scaled_R s / l_n l / (T / s_T s))
    with ((l_Q l + P * l_V l) / Rgas / l_n l / T).
  2: { unfold scaled_R. rewrite HJ. assert (Rgas <> 0) by (unfold Rgas; lra). field. repeat split; try lra. }
  replace (Rpower (l_A l / (Rpower (s_S s) (- l_n l) * Rpower (s_S s) (- l_r l) * Rpower (s_L s) (l_m l) / s_t s)) (-1 / l_n l))
    with (Rpower (l_A l) (-1 / l_n l) * (/ s_S s * Rpower (s_S s) (- l_r l / l_n l) * Rpower (s_L s) (l_m l / l_n l) * / Rpower (s_t s) (1 / l_n l))).
  2: { apply ln_inv; [repeat apply Rmult_lt_0_compat; try apply Rinv_0_lt_compat; try apply Rp_pos; assumption|apply Rp_pos|].
       rewrite ln_Rp. rewrite ln_div, ln_div, !ln_mult, !ln_Rinv, !ln_Rp;
         try (repeat apply Rmult_lt_0_compat; try apply Rdiv_lt_0_compat; try apply Rinv_0_lt_compat; repeat apply Rmult_lt_0_compat; try apply Rp_pos; assumption).
       field. lra. }
  replace (Rpower (d / s_L s) (l_m l / l_n l)) with (Rpower d (l_m l / l_n l) * / Rpower (s_L s) (l_m l / l_n l)).
  2: { rewrite <- Rpower_Ropp. unfold Rpower. rewrite <- exp_plus. f_equal. rewrite ln_div by assumption. ring. }
  replace (Rpower (s_S s) (- l_r l / l_n l)) with (/ Rpower (s_S s) (l_r l / l_n l)).
  2: { rewrite <- Rpower_Ropp. f_equal. unfold Rdiv. ring. }
  pose proof (Rp_pos (s_S s) (l_r l / l_n l)). pose proof (Rp_pos (s_L s) (l_m l / l_n l)). pose proof (Rp_pos (s_t s) (1 / l_n l)).
  field. repeat split; lra.
Qed.

Lemma creep_SI : forall s l F pre T P d phi E, pos_units s -> proper l -> 0 < d -> zeroC <= T -> 0 < E ->
  creep_eta s (Slaw (scale_law s l) F) pre T P d phi E = B_SI l F pre T P d phi * Rpower E (1 / l_n l - 1).
Proof.
  intros s l F pre T P d phi E Hs Hl Hd HT HE. unfold creep_eta. rewrite scaled_B by assumption.
  destruct (units s Hs) as (Ht & HS & HEs & Heta & _). cbn [s_law scale_law l_n].
  replace (Rpower (E / s_E s) (1 / l_n l - 1)) with (Rpower E (1 / l_n l - 1) * Rpower (s_t s) (1 / l_n l - 1)).
  2: { replace (E / s_E s) with (E * s_t s) by (rewrite HEs; field; lra). apply Rpower_mult_distr; assumption. }
  replace (Rpower (s_t s) (1 / l_n l)) with (Rpower (s_t s) (1 / l_n l - 1) * s_t s)
    by (rewrite <- (Rpower_1 (s_t s)) at 2 by assumption; rewrite <- Rpower_plus; f_equal; ring).
  pose proof (Rp_pos (s_t s) (1 / l_n l - 1)). rewrite Heta. field. lra.
Qed.

Lemma B_pos : forall l F T P d phi, 0 < F -> 0 < B_SI l F 1 T P d phi.
Proof. intros. unfold B_SI. repeat apply Rmult_lt_0_compat; try apply Rp_pos; try apply exp_pos; lra. Qed.

(** Stress from the viscosity, and back to the law. *)
Lemma rate_of_stress : forall l F T P d phi E, proper l -> 0 < d -> 0 < T -> 0 < E -> 0 < F ->
  lab_rate l T P d phi (2 * (B_SI l F 1 T P d phi * Rpower E (1 / l_n l - 1)) * E) = E * Rpower (2 * F) (l_n l).
Proof.
  intros l F T P d phi E Hl Hd HT HE HF. pose proof Hl as (Hn & HA & _). pose proof (B_pos l F T P d phi HF) as HB.
  assert (HR : 0 < Rgas) by (unfold Rgas; lra).
  assert (P1 : 0 < 2 * (B_SI l F 1 T P d phi * Rpower E (1 / l_n l - 1)) * E)
    by (revert HB; generalize (B_SI l F 1 T P d phi); intros b HB; repeat apply Rmult_lt_0_compat; try apply Rp_pos; lra).
  unfold lab_rate. apply ln_inv.
  - repeat apply Rmult_lt_0_compat; try apply Rp_pos; try apply exp_pos; assumption.
  - apply Rmult_lt_0_compat; [assumption|apply Rp_pos].
  - assert (LB : ln (B_SI l F 1 T P d phi) = ln F + (-1 / l_n l) * ln (l_A l) + (l_Q l + P * l_V l) / Rgas / l_n l / T
        + l_m l / l_n l * ln d + - l_r l / l_n l * ln (l_f l) + - l_a l * phi / l_n l).
    { unfold B_SI. rewrite Rmult_1_l. rewrite !ln_mult, !ln_Rp, !ln_exp; try reflexivity;
        repeat apply Rmult_lt_0_compat; try apply Rp_pos; try apply exp_pos; assumption. }
    assert (LT : ln (2 * (B_SI l F 1 T P d phi * Rpower E (1 / l_n l - 1)) * E) = ln 2 + ln (B_SI l F 1 T P d phi) + (1 / l_n l - 1) * ln E + ln E).
    { revert HB. generalize (B_SI l F 1 T P d phi). intros b HB.
      rewrite !ln_mult, ln_Rp by (repeat apply Rmult_lt_0_compat; try apply Rp_pos; lra). ring. }
    revert P1 LT. generalize (2 * (B_SI l F 1 T P d phi * Rpower E (1 / l_n l - 1)) * E). intros tau P1 LT.
    rewrite !ln_mult, !ln_Rp, !ln_exp, LT, LB, (ln_mult 2 F);
      try (repeat apply Rmult_lt_0_compat; try apply Rp_pos; try apply exp_pos; try lra; assumption).
    field. lra.
Qed.

Lemma lab_scale : forall l T P d phi c t, 0 < c -> 0 < t -> lab_rate l T P d phi (c * t) = Rpower c (l_n l) * lab_rate l T P d phi t.
Proof. intros. unfold lab_rate. rewrite <- (Rpower_mult_distr c t) by assumption. ring. Qed.

Lemma corr_pos : forall number t n F, corr_num number t n = Some F -> 0 < F.
Proof.
  intros number t n F H. unfold corr_num, corr in H. destruct (Z.ltb number 0); [injection H as <-; lra|].
  destruct (Z.eqb t 0); [injection H as <-; lra|]. destruct (Z.eqb t 1).
  - injection H as <-. repeat apply Rmult_lt_0_compat; try apply Rp_pos; lra.
  - destruct (Z.eqb t 2); [|discriminate]. injection H as <-. repeat apply Rmult_lt_0_compat; try apply Rp_pos; lra.
Qed.

(** ** C65: stress and strain rate obey the published law, in SI units, whatever the units of the run *)
Theorem C65_law_obeyed : forall s l number p T P d phi E, pos_units s -> proper l -> (0 < number)%Z -> 0 < d -> zeroC <= T -> 0 < E ->
  finish_law s number l = Some p ->
  obeys l T P d phi E (2 * creep_eta s p 1 T P d phi E * E).
Proof.
  intros s l number p T P d phi E Hs Hl Hnum Hd HT HE Hp. unfold finish_law in Hp.
  destruct (corr_num number (l_t l) (l_n l)) as [F|] eqn:HF; [|discriminate]. injection Hp as <-.
  pose proof (corr_pos _ _ _ _ HF) as FP. rewrite creep_SI by assumption.
  pose proof Hl as (Hn & HA & _ & Ht). assert (HT0 : 0 < T) by (unfold zeroC in HT; lra).
  pose proof (rate_of_stress l F T P d phi E Hl Hd HT0 HE FP) as HR.
  assert (P1 : 0 < 2 * (B_SI l F 1 T P d phi * Rpower E (1 / l_n l - 1)) * E).
  { pose proof (B_pos l F T P d phi FP) as HB. revert HB. generalize (B_SI l F 1 T P d phi). intros b HB. repeat apply Rmult_lt_0_compat; try apply Rp_pos; lra. }
  set (tau := 2 * (B_SI l F 1 T P d phi * Rpower E (1 / l_n l - 1)) * E) in *. clearbody tau.
  unfold corr_num in HF. assert (Nn : Z.ltb number 0 = false) by (apply Z.ltb_ge; lia). rewrite Nn in HF. unfold corr in HF.
  assert (S3 : 0 < sqrt 3) by (apply sqrt_lt_R0; lra).
  unfold obeys. destruct Ht as [Ht|[Ht|Ht]]; rewrite Ht in *; cbn [Z.eqb] in HF; injection HF as HF.
  - replace (tau / 2) with (/ 2 * tau) by lra. rewrite lab_scale, HR, <- HF by lra. rewrite Rmult_1_r.
    rewrite (Rmult_comm E), <- Rmult_assoc, Rpower_mult_distr by lra. replace (/ 2 * 2) with 1 by lra. unfold Rpower. rewrite ln_1, Rmult_0_r, exp_0. ring.
  - rewrite lab_scale, HR by lra.
    assert (K : Rpower (sqrt 3) (l_n l) * Rpower (2 * F) (l_n l) = 2 / sqrt 3).
    { apply ln_inv; [apply Rmult_lt_0_compat; apply Rp_pos|apply Rdiv_lt_0_compat; lra|].
      rewrite ln_div, ln_mult, !ln_Rp, <- HF by (try apply Rp_pos; lra). rewrite !ln_mult, !ln_Rp by (repeat apply Rmult_lt_0_compat; try apply Rp_pos; lra).
      replace (ln (1 / 6)) with (- (ln 2 + ln 3)).
      2: { rewrite <- ln_mult by lra. replace (1 / 6) with (/ (2 * 3)) by lra. rewrite ln_Rinv by lra. reflexivity. }
      replace (ln (sqrt 3)) with (ln 3 / 2).
      2: { rewrite <- (sqrt_sqrt 3) at 1 by lra. rewrite ln_mult by assumption. lra. }
      field. lra. }
    rewrite <- K. ring.
  - rewrite lab_scale, HR by lra.
    assert (K : Rpower 2 (l_n l) * Rpower (2 * F) (l_n l) = 2).
    { apply ln_inv; [apply Rmult_lt_0_compat; apply Rp_pos|lra|].
      rewrite ln_mult, !ln_Rp, <- HF by apply Rp_pos. rewrite !ln_mult, !ln_Rp by (repeat apply Rmult_lt_0_compat; try apply Rp_pos; lra).
      replace (ln (1 / 4)) with (- (ln 2 + ln 2)).
      2: { rewrite <- ln_mult by lra. replace (1 / 4) with (/ (2 * 2)) by lra. rewrite ln_Rinv by lra. reflexivity. }
      field. lra. }
    rewrite <- K at 1. ring.
Qed.
Print Assumptions C65_law_obeyed.

(** Two runs in different units give the same viscosity in Pa s (also with weakening factor and cancelled
    correction). *)
Theorem C65_units_irrelevant : forall s s' l number p p' pre T P d phi E, pos_units s -> pos_units s' -> proper l ->
  0 < d -> zeroC <= T -> 0 < E -> finish_law s number l = Some p -> finish_law s' number l = Some p' ->
  creep_eta s p pre T P d phi E = creep_eta s' p' pre T P d phi E.
Proof.
  intros s s' l number p p' pre T P d phi E Hs Hs' Hl Hd HT HE Hp Hp'. unfold finish_law in *.
  destruct (corr_num number (l_t l) (l_n l)) as [F|] eqn:HF; [|discriminate]. injection Hp as <-. injection Hp' as <-.
  rewrite !creep_SI by assumption. reflexivity.
Qed.
Print Assumptions C65_units_irrelevant.

(** Below 0 C every law is evaluated at 0 C. *)
Theorem C65_frozen_below_zero : forall s p pre T P d phi E, 0 < s_T s -> T <= zeroC ->
  creep_eta s p pre T P d phi E = creep_eta s p pre zeroC P d phi E.
Proof.
  intros s p pre T P d phi E Hs HT. unfold creep_eta. replace (floor_T s (T / s_T s)) with (floor_T s (zeroC / s_T s)); [reflexivity|].
  unfold floor_T. assert (K : T / s_T s <= zeroC / s_T s) by (apply Rmult_le_compat_r; [left; now apply Rinv_0_lt_compat|exact HT]).
  destruct (Rlt_dec (zeroC / s_T s) (zeroC / s_T s)); [lra|]. destruct (Rlt_dec (T / s_T s) (zeroC / s_T s)); lra.
Qed.
Print Assumptions C65_frozen_below_zero.

(** Hotter is not stronger, deeper is not weaker, wider grains are not weaker, more melt is not stronger, faster is
    not more viscous. *)
Theorem C65_monotone : forall s l number p T P d phi E, pos_units s -> proper l -> 1 <= l_n l -> 0 <= l_m l -> 0 <= l_Q l -> 0 <= l_V l -> 0 <= l_a l ->
  0 < d -> zeroC <= T -> 0 <= P -> 0 < E -> finish_law s number l = Some p ->
  let eta T P d phi E := creep_eta s p 1 T P d phi E in
  (forall T', T <= T' -> eta T' P d phi E <= eta T P d phi E) /\
  (forall P', P <= P' -> eta T P d phi E <= eta T P' d phi E) /\
  (forall d', d <= d' -> eta T P d phi E <= eta T P d' phi E) /\
  (forall phi', phi <= phi' -> eta T P d phi' E <= eta T P d phi E) /\
  (forall E', E <= E' -> eta T P d phi E' <= eta T P d phi E).
Proof.
  intros s l number p T P d phi E Hs Hl Hn1 Hm HQ HV Ha Hd HT HP HE Hp eta. unfold finish_law in Hp.
  destruct (corr_num number (l_t l) (l_n l)) as [F|] eqn:HF; [|discriminate]. injection Hp as <-. pose proof (corr_pos _ _ _ _ HF) as FP.
  assert (HR : 0 < Rgas) by (unfold Rgas; lra). assert (Hz : 0 < zeroC) by (unfold zeroC; lra).
  assert (EX : forall a b, a <= b -> exp a <= exp b) by (intros a b [K| ->]; [left; now apply exp_increasing|lra]).
  assert (G : forall T P d phi E, 0 < d -> zeroC <= T -> 0 < E -> eta T P d phi E =
    (F * Rpower (l_A l) (-1 / l_n l) * Rpower (l_f l) (- l_r l / l_n l)) *
    exp ((l_Q l + P * l_V l) / Rgas / l_n l / T + l_m l / l_n l * ln d - l_a l * phi / l_n l + (1 / l_n l - 1) * ln E)).
  { intros. unfold eta. rewrite creep_SI by assumption. unfold B_SI. unfold Rminus. rewrite !exp_plus. unfold Rpower.
    replace (- (l_a l * phi0 / l_n l)) with (- l_a l * phi0 / l_n l) by (unfold Rdiv; ring). ring. }
  assert (C : 0 < F * Rpower (l_A l) (-1 / l_n l) * Rpower (l_f l) (- l_r l / l_n l)) by (repeat apply Rmult_lt_0_compat; try apply Rp_pos; assumption).
  assert (In : 0 < / l_n l) by (apply Rinv_0_lt_compat; lra).
  assert (LN : forall a b, 0 < a -> a <= b -> ln a <= ln b) by (intros a b H0 [K| ->]; [left; now apply ln_increasing|lra]).
  split; [|split; [|split; [|split]]].
  - intros T' H. rewrite !G by (assumption || lra). apply Rmult_le_compat_l; [lra|]. apply EX. repeat apply Rplus_le_compat_r.
    unfold Rdiv. apply Rmult_le_compat_l; [|apply Rinv_le_contravar; lra].
    repeat apply Rmult_le_pos; try nra; left; now apply Rinv_0_lt_compat.
  - intros P' H. rewrite !G by (assumption || lra). apply Rmult_le_compat_l; [lra|]. apply EX. repeat apply Rplus_le_compat_r.
    unfold Rdiv. apply Rmult_le_compat_r; [left; apply Rinv_0_lt_compat; lra|]. repeat (apply Rmult_le_compat_r; [left; apply Rinv_0_lt_compat; lra|]). nra.
  - intros d' H. rewrite !G by (assumption || lra). apply Rmult_le_compat_l; [lra|]. apply EX. repeat apply Rplus_le_compat_r. apply Rplus_le_compat_l.
    apply Rmult_le_compat_l; [apply Rmult_le_pos; lra|]. now apply LN.
  - intros phi' H. rewrite !G by (assumption || lra). apply Rmult_le_compat_l; [lra|]. apply EX. repeat apply Rplus_le_compat_r. apply Rplus_le_compat_l.
    apply Ropp_le_contravar. unfold Rdiv. apply Rmult_le_compat_r; [lra|]. now apply Rmult_le_compat_l.
  - intros E' H. rewrite !G by (assumption || lra). apply Rmult_le_compat_l; [lra|]. apply EX. apply Rplus_le_compat_l.
    assert (/ l_n l <= 1) by (rewrite <- Rinv_1; apply Rinv_le_contravar; lra). specialize (LN E E' HE H). unfold Rdiv. nra.
Qed.
Print Assumptions C65_monotone.

(** Every law of the data base is meaningful and meets the hypotheses above, and numbers not in the data base are
    rejected. *)
Theorem C65_data_base : forall k l, db_pwl k = Some l \/ db_lin k = Some l \/ db_gbs k = Some l ->
  proper l /\ 1 <= l_n l <= 18 /\ (k <> 24%Z -> l_n l <= 8) /\ 0 <= l_m l /\ 0 <= l_Q l /\ 0 <= l_V l /\ 0 <= l_a l.
Proof.
  intros k l H.
  assert (PW : forall a b, (0 < a)%Z -> (0 < b)%Z -> 0 < IZR a / IZR b) by (intros; apply Rdiv_lt_0_compat; now apply IZR_lt).
  assert (D : forall k l, db_pwl k = Some l -> (10 <= k <= 46)%Z).
  { clear. intros k l H. destruct (Z_le_gt_dec 10 k) as [A|A]; [destruct (Z_le_gt_dec k 46) as [B|B]; [lia|]|]; exfalso.
    - destruct k as [|k|k]; try lia. do 6 (destruct k as [k|k|]; try discriminate H; try lia).
    - destruct k as [|k|k]; try discriminate H. do 4 (destruct k as [k|k|]; try discriminate H; try lia). }
  destruct H as [H|[H|H]].
  - pose proof (D k l H) as K. clear D.
    assert (E : In k (map Z.of_nat (seq 10 37))).
    { apply in_map_iff. exists (Z.to_nat k). split; [lia|]. apply in_seq. lia. }
    change (map Z.of_nat (seq 10 37)) with [10;11;12;13;14;15;16;17;18;19;20;21;22;23;24;25;26;27;28;29;30;31;32;33;34;35;36;37;38;39;40;41;42;43;44;45;46]%Z in E.
    cbn [In] in E. clear K.
    repeat match type of E with _ \/ _ => destruct E as [<-|E] end; try contradiction;
      cbn [db_pwl] in H; try discriminate H; injection H as <-; unfold proper; cbn [l_t l_n l_m l_r l_Q l_V l_A l_f l_a]; repeat split; first [apply PW; reflexivity | lra | intros _; lra | intros K; exfalso; apply K; reflexivity | right; lra | left; lra | tauto].
  - destruct k as [|k|k]; try discriminate. cbn [db_lin] in H. do 7 (try (destruct k as [k|k|]; try discriminate H)); injection H as <-; unfold proper; cbn [l_t l_n l_m l_r l_Q l_V l_A l_f l_a]; repeat split; first [apply PW; reflexivity | lra | intros _; lra | intros K; exfalso; apply K; reflexivity | right; lra | left; lra | tauto].
  - destruct k as [|k|k]; try discriminate. cbn [db_gbs] in H. do 7 (try (destruct k as [k|k|]; try discriminate H)); injection H as <-; unfold proper; cbn [l_t l_n l_m l_r l_Q l_V l_A l_f l_a]; repeat split; first [apply PW; reflexivity | lra | intros _; lra | intros K; exfalso; apply K; reflexivity | right; lra | left; lra | tauto].
Qed.
Print Assumptions C65_data_base.

(** The user-defined law 1: viscosity [eta0 exp(Q/nRT) E^(1/n-1)], everything in SI units. *)
Theorem C65_user_law : forall s i p T P d phi E, pos_units s -> 0 < i_n i -> 0 < i_eta0 i -> i_forcea i = false -> 0 < d -> zeroC <= T -> 0 < E ->
  read_pwl s i 1 = Some p ->
  creep_eta s p 1 T P d phi E = (i_eta0 i * s_eta s) * exp (i_Q i / (i_n i * Rgas * T)) * Rpower E (1 / i_n i - 1).
Proof.
  intros s i p T P d phi E Hs Hn He Hf Hd HT HE H. unfold read_pwl in H. cbn [Z.abs raw_pwl Z.eqb Pos.eqb] in H. rewrite Hf in H.
  unfold finish_law, corr_num in H. cbn [Z.ltb Z.compare l_t corr Z.eqb] in H. injection H as <-.
  pose proof (pu_eta s Hs) as Hse. assert (Z : 0 < zeroC) by (unfold zeroC; lra). assert (HR : 0 < Rgas) by (unfold Rgas; lra).
  assert (Pe : 0 < i_eta0 i * s_eta s) by now apply Rmult_lt_0_compat.
  rewrite creep_SI; try assumption.
  - unfold B_SI. cbn [l_t l_n l_m l_r l_Q l_V l_A l_f l_a]. rewrite Rpower_mult.
    replace (- i_n i * (-1 / i_n i)) with 1 by (field; lra). rewrite Rpower_1 by assumption.
    replace (0 / i_n i) with 0 by (unfold Rdiv; ring). replace (- 0 / i_n i) with 0 by (unfold Rdiv; ring).
    replace (- 0 * phi / i_n i) with 0 by (unfold Rdiv; ring). rewrite !Rp_zero, exp_0.
    replace ((i_Q i + P * 0) / Rgas / i_n i / T) with (i_Q i / (i_n i * Rgas * T)) by (field; lra). ring.
  - unfold proper. cbn [l_n l_A l_f l_r l_t]. repeat split; auto. apply Rp_pos.
Qed.
Print Assumptions C65_user_law.

(** Refuted: the user-defined law 2 has stress [tau0] at strain rate [eps0]. Already for [n = 1], [Q = 0] the viscosity
    is the reciprocal of the intended one times the viscosity unit of the run, so it depends on the units. *)
Theorem C65_reference_stress_refuted : forall s i p T P d phi E eps0 tau0, pos_units s -> i_n i = 1 -> i_Q i = 0 -> i_forcea i = false ->
  0 < eps0 -> 0 < tau0 -> i_eps0 i = eps0 / s_E s -> i_tau0 i = tau0 / s_S s -> 0 < d -> zeroC <= T -> 0 < E ->
  read_pwl s i 2 = Some p ->
  creep_eta s p 1 T P d phi E = s_eta s / (tau0 / (2 * eps0)).
Proof.
  intros s i p T P d phi E eps0 tau0 Hs Hn HQ Hf He Ht Ee Et Hd HT HE H. unfold read_pwl in H. cbn [Z.abs raw_pwl Z.eqb Pos.eqb] in H. rewrite Hf in H.
  unfold finish_law, corr_num in H. cbn [Z.ltb Z.compare l_t corr Z.eqb] in H. injection H as <-.
  destruct (units s Hs) as (Hst & HS & HEs & Heta & _). assert (HE0 : 0 < s_E s) by (rewrite HEs; now apply Rinv_0_lt_compat).
  assert (Z : 0 < zeroC) by (unfold zeroC; lra). assert (HR : 0 < Rgas) by (unfold Rgas; lra).
  assert (P0 : 0 < i_eps0 i) by (rewrite Ee; now apply Rdiv_lt_0_compat). assert (P1 : 0 < i_tau0 i) by (rewrite Et; now apply Rdiv_lt_0_compat).
  rewrite Hn, HQ. rewrite creep_SI; try assumption.
  - unfold B_SI. cbn [l_t l_n l_m l_r l_Q l_V l_A l_f l_a]. rewrite Rpower_mult.
    replace (- (1) * (-1 / 1)) with 1 by field.
    assert (Q0 : 0 < 2 * i_eps0 i / i_tau0 i) by (apply Rdiv_lt_0_compat; lra).
    rewrite (Rpower_1 2), (Rpower_1 (i_tau0 i)), (Rpower_1 (2 * i_eps0 i / i_tau0 i)) by lra.
    replace (0 / 1) with 0 by (unfold Rdiv; ring). replace (- 0 / 1) with 0 by (unfold Rdiv; ring).
    replace (- 0 * phi / 1) with 0 by (unfold Rdiv; ring). replace (1 / 1 - 1) with 0 by lra. rewrite !Rp_zero, exp_0.
    replace ((0 + P * 0) / Rgas / 1 / T) with 0 by (field; lra). rewrite exp_0, Ee, Et, Heta, HEs. field. lra.
  - unfold proper. cbn [l_n l_A l_f l_r l_t]. repeat split; auto; try lra. apply Rp_pos.
Qed.
Print Assumptions C65_reference_stress_refuted.

(** Refuted: linear law 1 sets the linear law. It leaves it unset and replaces the power law of the phase by unscaled
    numbers. *)
Theorem C65_linear_law_1_refuted : forall s i st st', read_lin s i 1 st = Some st' ->
  st_lin st' = st_lin st /\ (exists F, st_pwl st' = Some (Slaw siltstone F)).
Proof. intros s i st st' H. unfold read_lin in H. cbn [Z.abs Z.eqb Pos.eqb] in H. injection H as <-. cbn [st_lin st_pwl]. eauto. Qed.
Print Assumptions C65_linear_law_1_refuted.

(** ** Peierls creep *)

(** The published law and the regularised one (Kameyama et al.), for differential stress. *)
Definition peierls (p : plaw) (T sigma : R) : R :=
  p_E p * Rpower sigma (p_n p) * exp (- (p_Q p / (Rgas * T)) * (1 - sigma / p_S p) ^ 2).
Definition peierls_reg (p : plaw) (T sigma : R) : R :=
  p_E p * Rpower sigma (p_n p) * Rpower (sigma / (p_G p * p_S p)) (2 * p_G p * (1 - p_G p) * (p_Q p / (Rgas * T)))
  * exp (- (p_Q p / (Rgas * T)) * (1 - p_G p) ^ 2).
Record pproper (p : plaw) : Prop := { pp_G : 0 < p_G p < 1; pp_S : 0 < p_S p; pp_Q : 0 < p_Q p; pp_E : 0 < p_E p; pp_n : 0 <= p_n p }.

Definition peierls_eta (s : scale) (p : plaw) (T E : R) : R :=
  let Rg := scaled_R s in let T' := floor_T s (T / s_T s) in
  s_eta s * (Bexp p Rg T' * Rpower (E / s_E s) (1 / (ST p Rg T' + p_n p) - 1)).

Theorem C65_peierls_obeyed : forall s number p0 p T E, pos_units s -> db_exp (Z.abs number) = Some p0 -> read_exp s number = Some p -> zeroC <= T -> 0 < E ->
  2 / sqrt 3 * E = peierls_reg p0 T (sqrt 3 * (2 * peierls_eta s p T E * E)).
Proof.
  intros s number p0 p T E Hs Hdb Hr HT HE.
  assert (PP : pproper p0).
  { destruct (Z.abs number) as [|k|k]; try discriminate. cbn [db_exp] in Hdb. do 6 (try (destruct k as [k|k|]; try discriminate Hdb)); injection Hdb as <-;
      constructor; cbn [p_G p_S p_Q p_E p_n]; lra. }
  destruct PP as [[G1 G2] HSp HQ HEp Hn]. unfold read_exp in Hr. rewrite Hdb in Hr. cbn [option_map] in Hr. injection Hr as <-.
  destruct (units s Hs) as (Ht & HS & HEs & Heta & HJ). pose proof (pu_T s Hs) as HTs. pose proof (pu_L s Hs) as HL.
  assert (Z : 0 < zeroC) by (unfold zeroC; lra). assert (HR : 0 < Rgas) by (unfold Rgas; lra). assert (HT0 : 0 < T) by lra.
  assert (G : floor_T s (T / s_T s) = T / s_T s).
  { unfold floor_T. destruct (Rlt_dec _ _) as [C|C]; [|reflexivity]. exfalso. revert C. apply Rle_not_lt.
    apply Rmult_le_compat_r; [left; now apply Rinv_0_lt_compat|exact HT]. }
  assert (HL3 : 0 < s_L s ^ 3) by now apply pow_lt.
  assert (HJ0 : 0 < s_J s) by (rewrite HJ; now apply Rmult_lt_0_compat).
  set (h := p_Q p0 / (Rgas * T)). assert (H0 : 0 < h) by (apply Rdiv_lt_0_compat; [lra|now apply Rmult_lt_0_compat]).
  assert (QRT : p_Q p0 / s_J s / scaled_R s / (T / s_T s) = h) by (unfold h, scaled_R; field; lra).
  set (st := 2 * p_G p0 * (1 - p_G p0) * h). assert (S0 : 0 < st) by (unfold st; apply Rmult_lt_0_compat; [apply Rmult_lt_0_compat; lra|exact H0]).
  unfold peierls_eta, peierls_reg, Bexp, ST. cbn [p_t p_G p_S p_Q p_E p_n]. rewrite G, QRT. fold h. fold st.
  replace (h * 2 * p_G p0 * (1 - p_G p0)) with st by (unfold st; ring).
  replace (- (p_Q p0 / s_J s) / scaled_R s / (T / s_T s)) with (- h) by (rewrite <- QRT; unfold Rdiv; ring).
  set (n := st + p_n p0). assert (N0 : 0 < n) by (unfold n; lra).
  set (arr := exp (- h * (1 - p_G p0) ^ 2)). assert (A0 : 0 < arr) by apply exp_pos.
  assert (S3 : 0 < sqrt 3) by (apply sqrt_lt_R0; lra).
  assert (SE0 : 0 < s_E s) by (rewrite HEs; now apply Rinv_0_lt_compat).
  assert (GS : 0 < p_G p0 * (p_S p0 / s_S s)) by (apply Rmult_lt_0_compat; [lra|now apply Rdiv_lt_0_compat]).
  assert (EA : 0 < p_E p0 / (s_E s * Rpower (s_S s) (- p_n p0)) * arr)
    by (apply Rmult_lt_0_compat; [apply Rdiv_lt_0_compat; [assumption|apply Rmult_lt_0_compat; [assumption|apply Rp_pos]]|assumption]).
  set (b := Rpower (Rpower 2 (1 - st - p_n p0) / Rpower (sqrt 3) (n + 1)) (1 / n)
            * (Rpower (p_G p0 * (p_S p0 / s_S s)) (st / n) / Rpower (p_E p0 / (s_E s * Rpower (s_S s) (- p_n p0)) * arr) (1 / n))).
  assert (B0 : 0 < b) by (unfold b; apply Rmult_lt_0_compat; [apply Rp_pos|apply Rdiv_lt_0_compat; apply Rp_pos]).
  assert (LEs : ln (s_E s) = - ln (s_t s)) by (rewrite HEs; now apply ln_Rinv).
  assert (L3 : ln (sqrt 3) = ln 3 / 2).
  { rewrite <- (sqrt_sqrt 3) at 2 by lra. rewrite ln_mult by assumption. lra. }
  assert (LB : ln b = 1 / n * ((1 - st - p_n p0) * ln 2 - (n + 1) * (ln 3 / 2)) + st / n * (ln (p_G p0) + (ln (p_S p0) - ln (s_S s)))
     - 1 / n * (ln (p_E p0) + ln (s_t s) + p_n p0 * ln (s_S s) + ln arr)).
  { unfold b. rewrite ln_mult by (try apply Rp_pos; apply Rdiv_lt_0_compat; apply Rp_pos).
    rewrite (ln_div (Rpower (p_G p0 * (p_S p0 / s_S s)) (st / n))) by apply Rp_pos. rewrite !ln_Rp.
    rewrite (ln_div (Rpower 2 _)), !ln_Rp, L3 by apply Rp_pos. rewrite (ln_mult (p_G p0)), (ln_div (p_S p0)) by (try apply Rdiv_lt_0_compat; lra).
    rewrite (ln_mult (p_E p0 / _)), (ln_div (p_E p0)), (ln_mult (s_E s)), ln_Rp, LEs
      by (try apply Rdiv_lt_0_compat; try apply Rmult_lt_0_compat; try apply Rp_pos; assumption). field. lra. }
  set (tau := 2 * (s_eta s * (b * Rpower (E / s_E s) (1 / n - 1))) * E).
  assert (T0 : 0 < tau) by (unfold tau; pose proof (pu_eta s Hs); clear LB; clearbody b; repeat apply Rmult_lt_0_compat; try apply Rp_pos; lra).
  assert (LT : ln tau = ln 2 + ln (s_S s) + ln (s_t s) + ln b + (1 / n - 1) * (ln E + ln (s_t s)) + ln E).
  { unfold tau. pose proof (pu_eta s Hs). clearbody b.
    rewrite !ln_mult, ln_Rp, ln_div, LEs by (repeat apply Rmult_lt_0_compat; try apply Rp_pos; lra).
    rewrite Heta, ln_mult by assumption. ring. }
  change (2 / sqrt 3 * E = p_E p0 * Rpower (sqrt 3 * tau) (p_n p0) * Rpower (sqrt 3 * tau / (p_G p0 * p_S p0)) st * arr).
  clearbody tau b arr. assert (ST0 : 0 < sqrt 3 * tau) by now apply Rmult_lt_0_compat.
  assert (GS' : 0 < p_G p0 * p_S p0) by (apply Rmult_lt_0_compat; lra).
  apply ln_inv.
  - apply Rmult_lt_0_compat; [apply Rdiv_lt_0_compat; lra|assumption].
  - repeat apply Rmult_lt_0_compat; try apply Rp_pos; assumption.
  - rewrite !(ln_mult _ arr), !(ln_mult (_ * _) (Rpower _ _)), !(ln_mult (p_E p0)), !ln_Rp, (ln_div (sqrt 3 * tau)), (ln_mult (sqrt 3) tau),
      (ln_mult (p_G p0)), (ln_mult (2 / sqrt 3)), (ln_div 2), L3, LT, LB;
      try (repeat apply Rmult_lt_0_compat; try apply Rp_pos; try apply Rdiv_lt_0_compat; lra).
    unfold n. field. unfold n in N0. lra. all: apply Rdiv_lt_0_compat; lra.
Qed.
Print Assumptions C65_peierls_obeyed.

(** The regularised law agrees with the published one at the stress [gamma S], value and slope. *)
Theorem C65_peierls_tangent : forall p T, pproper p -> 0 < T -> let s0 := p_G p * p_S p in
  peierls_reg p T s0 = peierls p T s0 /\
  exists dv, derivable_pt_lim (peierls_reg p T) s0 dv /\ derivable_pt_lim (peierls p T) s0 dv.
Proof.
  intros p T [[G1 G2] HS HQ HE Hn] HT s0. assert (S0 : 0 < s0) by (unfold s0; apply Rmult_lt_0_compat; lra).
  set (h := p_Q p / (Rgas * T)). set (st := 2 * p_G p * (1 - p_G p) * h).
  assert (V : peierls_reg p T s0 = peierls p T s0).
  { unfold peierls_reg, peierls. fold h. fold st. fold s0. replace (s0 / s0) with 1 by (field; lra). replace (s0 / p_S p) with (p_G p) by (unfold s0; field; lra).
    unfold Rpower at 2. rewrite ln_1, Rmult_0_r, exp_0. ring. }
  split; [exact V|]. exists (peierls p T s0 * ((p_n p + st) / s0)). split.
  - rewrite <- V.
    assert (D : derivable_pt_lim (fun x => exp ((p_n p + st) * ln x)) s0 (exp ((p_n p + st) * ln s0) * ((p_n p + st) / s0))).
    { apply derivable_pt_lim_comp with (f1 := fun x => (p_n p + st) * ln x) (f2 := exp).
      - unfold Rdiv. apply derivable_pt_lim_scal with (f := ln). now apply derivable_pt_lim_ln.
      - apply derivable_pt_lim_exp. }
    set (c := p_E p * exp (- h * (1 - p_G p) ^ 2) * exp (- st * ln s0)).
    assert (EQ : forall x, 0 < x -> peierls_reg p T x = c * exp ((p_n p + st) * ln x)).
    { intros x Hx. unfold peierls_reg, c, Rpower. fold h. fold st. fold s0. rewrite ln_div by assumption.
      replace (st * (ln x - ln s0)) with (- st * ln s0 + st * ln x) by ring. replace ((p_n p + st) * ln x) with (p_n p * ln x + st * ln x) by ring.
      rewrite !exp_plus. ring. }
    rewrite EQ by assumption. replace (c * exp ((p_n p + st) * ln s0) * ((p_n p + st) / s0)) with (c * (exp ((p_n p + st) * ln s0) * ((p_n p + st) / s0))) by ring.
    intros e He. destruct (derivable_pt_lim_scal _ c _ _ D e He) as [d Hd].
    exists (mkposreal (Rmin d (s0 / 2)) ltac:(apply Rmin_pos; [apply cond_pos|lra])). intros k Hk Hl. cbn [pos] in Hl.
    pose proof (Rmin_l d (s0 / 2)). pose proof (Rmin_r d (s0 / 2)).
    assert (0 < s0 + k) by (assert (Rabs k < s0 / 2) as K by lra; apply Rabs_def2 in K; lra).
    rewrite !EQ by assumption. apply Hd; [exact Hk|lra].
  - assert (D : derivable_pt_lim (fun x => exp (p_n p * ln x + - h * ((1 - x / p_S p) * (1 - x / p_S p)))) s0
       (exp (p_n p * ln s0 + - h * ((1 - s0 / p_S p) * (1 - s0 / p_S p))) * ((p_n p + st) / s0))).
    { apply derivable_pt_lim_comp with (f1 := fun x => p_n p * ln x + - h * ((1 - x / p_S p) * (1 - x / p_S p))) (f2 := exp); [|apply derivable_pt_lim_exp].
      replace ((p_n p + st) / s0) with (p_n p * / s0 + - h * ((- / p_S p) * (1 - s0 / p_S p) + (1 - s0 / p_S p) * (- / p_S p))).
      2: { unfold st, s0. field. split; lra. }
      assert (L : derivable_pt_lim (fun x => 1 - x / p_S p) s0 (- / p_S p)).
      { replace (- / p_S p) with (0 - 1 * / p_S p) by ring. apply derivable_pt_lim_minus with (f1 := fun _ => 1) (f2 := fun x => x / p_S p).
        - apply derivable_pt_lim_const.
        - unfold Rdiv. intros e He. exists (mkposreal 1 Rlt_0_1). intros k Hk _. replace (((s0 + k) * / p_S p - s0 * / p_S p) / k - 1 * / p_S p) with 0 by (field; lra).
          now rewrite Rabs_R0. }
      apply derivable_pt_lim_plus with (f1 := fun x => p_n p * ln x) (f2 := fun x => - h * ((1 - x / p_S p) * (1 - x / p_S p))).
      - apply derivable_pt_lim_scal with (f := ln). now apply derivable_pt_lim_ln.
      - apply derivable_pt_lim_scal with (f := fun x => (1 - x / p_S p) * (1 - x / p_S p)).
        apply derivable_pt_lim_mult with (f1 := fun x => 1 - x / p_S p) (f2 := fun x => 1 - x / p_S p); exact L. }
    assert (EQ : forall x, peierls p T x = p_E p * exp (p_n p * ln x + - h * ((1 - x / p_S p) * (1 - x / p_S p)))).
    { intros x. unfold peierls, Rpower. fold h. rewrite exp_plus. replace ((1 - x / p_S p) ^ 2) with ((1 - x / p_S p) * (1 - x / p_S p)) by ring. ring. }
    intros e He. destruct (derivable_pt_lim_scal _ (p_E p) _ _ D e He) as [d Hd]. exists d. intros k Hk Hl. rewrite !EQ.
    rewrite Rmult_assoc. exact (Hd k Hk Hl).
Qed.
Print Assumptions C65_peierls_tangent.

(** Refuted: a negative Peierls number cancels the correction for axial experiments. The result is the same. *)
Theorem C65_peierls_cancel_refuted : forall s k p p' T E, (0 < k)%Z -> read_exp s k = Some p -> read_exp s (- k) = Some p' ->
  peierls_eta s p T E = peierls_eta s p' T E.
Proof.
  intros s k p p' T E Hk H H'. unfold read_exp in *. rewrite Z.abs_opp in H'. destruct (db_exp (Z.abs k)) as [q|]; [|discriminate].
  cbn [option_map] in *. injection H as <-. injection H' as <-. reflexivity.
Qed.
Print Assumptions C65_peierls_cancel_refuted.

(** Non-vacuity: dry olivine in the units of a lithosphere model and in SI units; the wet law with water. *)
Definition litho : scale := ScaleMe 1e22 1e4 1e-9 100.
Example C65_ex : pos_units litho /\ pos_units SI /\
  (exists l p, db_pwl 41 = Some l /\ proper l /\ finish_law litho 41 l = Some p /\ l_n (s_law p) = 3.5) /\
  (exists p, read_exp litho 40 = Some p) /\ db_pwl 39 = None /\
  (exists st, read_lin litho (Linput 1 0 1 1 1 false 0 0 false 0) 1 (Lstate None None) = Some st /\ st_lin st = None).
Proof.
  split; [|split; [|split; [|split; [|split]]]].
  - constructor; [reflexivity|cbn [litho ScaleMe s_eta]; lra|cbn [litho ScaleMe s_L]; lra|cbn [litho ScaleMe s_V]; lra|cbn [litho ScaleMe s_T]; lra].
  - constructor; [reflexivity|cbn [SI ScaleMe s_eta]; lra|cbn [SI ScaleMe s_L]; lra|cbn [SI ScaleMe s_V]; lra|cbn [SI ScaleMe s_T]; lra].
  - eexists. eexists. split; [reflexivity|]. split; [|split; [reflexivity|reflexivity]].
    unfold proper. cbn [l_t l_n l_m l_r l_Q l_V l_A l_f l_a]. repeat split; first [lra | (left; lra) | auto].
  - eexists. reflexivity.
  - reflexivity.
  - eexists. split; reflexivity.
Qed.

(** ** C66: mixtures of a phase and its reaction product *)
Record hproper (l : law) : Prop := { hp_n : 0 < l_n l; hp_A : 0 < l_A l }.

Lemma huet_dn : forall l1 l2 X, hproper l1 -> hproper l2 -> 0 <= X <= 1 -> 0 < (1 - X) * (l_n l2 + 1) + X * (l_n l1 + 1).
Proof. intros l1 l2 X [H1 _] [H2 _] HX. destruct (Rle_lt_dec X (1 / 2)); nra. Qed.

(** Without reaction product the exponent, activation energy and prefactor are those of the phase, with
    complete reaction those of the product. *)
Theorem C66_end_members : forall l1 l2, hproper l1 -> hproper l2 ->
  (huet_n l1 l2 0 = l_n l1 /\ huet_Q l1 l2 0 = l_Q l1 /\ huet_A l1 l2 0 = l_A l1) /\
  (huet_n l1 l2 1 = l_n l2 /\ huet_Q l1 l2 1 = l_Q l2 /\ huet_A l1 l2 1 = l_A l2).
Proof.
  intros l1 l2 [H1 HA1] [H2 HA2].
  assert (N0 : huet_n l1 l2 0 = l_n l1) by (unfold huet_n; field; lra). assert (N1 : huet_n l1 l2 1 = l_n l2) by (unfold huet_n; field; lra).
  assert (R1 : 0 < l_n l1 / (l_n l1 + 1)) by (apply Rdiv_lt_0_compat; lra). assert (R2 : 0 < l_n l2 / (l_n l2 + 1)) by (apply Rdiv_lt_0_compat; lra).
  split; (split; [assumption|]; split; [unfold huet_Q; field; lra|]).
  - unfold huet_A. rewrite N0. cbv zeta.
    replace ((1 - 0) * (l_n l2 + 1) / ((1 - 0) * (l_n l2 + 1) + 0 * (l_n l1 + 1))) with 1 by (field; lra).
    replace (0 * (l_n l1 + 1) / ((1 - 0) * (l_n l2 + 1) + 0 * (l_n l1 + 1))) with 0 by (field; lra).
    replace (0 * (l_n l1 + 1) * l_n l2 / ((1 - 0) * (l_n l2 + 1) + 0 * (l_n l1 + 1))) with 0 by (field; lra).
    replace ((1 - 0) * (l_n l2 + 1) * l_n l1 / ((1 - 0) * (l_n l2 + 1) + 0 * (l_n l1 + 1))) with (l_n l1) by (field; lra).
    replace ((1 - 0) * l_n l1 / (l_n l1 + 1) + 0 * l_n l2 / (l_n l2 + 1)) with (l_n l1 / (l_n l1 + 1)) by (field; lra).
    rewrite !Rp_zero, Rpower_1 by assumption. rewrite Rpower_Ropp. pose proof (Rp_pos (l_n l1 / (l_n l1 + 1)) (l_n l1)). field. lra.
  - unfold huet_A. rewrite N1. cbv zeta.
    replace ((1 - 1) * (l_n l2 + 1) / ((1 - 1) * (l_n l2 + 1) + 1 * (l_n l1 + 1))) with 0 by (field; lra).
    replace (1 * (l_n l1 + 1) / ((1 - 1) * (l_n l2 + 1) + 1 * (l_n l1 + 1))) with 1 by (field; lra).
    replace (1 * (l_n l1 + 1) * l_n l2 / ((1 - 1) * (l_n l2 + 1) + 1 * (l_n l1 + 1))) with (l_n l2) by (field; lra).
    replace ((1 - 1) * (l_n l2 + 1) * l_n l1 / ((1 - 1) * (l_n l2 + 1) + 1 * (l_n l1 + 1))) with 0 by (field; lra).
    replace ((1 - 1) * l_n l1 / (l_n l1 + 1) + 1 * l_n l2 / (l_n l2 + 1)) with (l_n l2 / (l_n l2 + 1)) by (field; lra).
    rewrite !Rp_zero, Rpower_1 by assumption. rewrite Rpower_Ropp. pose proof (Rp_pos (l_n l2 / (l_n l2 + 1)) (l_n l2)). field. lra.
Qed.
Print Assumptions C66_end_members.

(** In between, exponent and activation energy are between those of the end members, and move monotonically. *)
Theorem C66_between : forall l1 l2 X, hproper l1 -> hproper l2 -> 0 <= X <= 1 ->
  Rmin (l_n l1) (l_n l2) <= huet_n l1 l2 X <= Rmax (l_n l1) (l_n l2) /\
  Rmin (l_Q l1) (l_Q l2) <= huet_Q l1 l2 X <= Rmax (l_Q l1) (l_Q l2) /\ 0 < huet_A l1 l2 X.
Proof.
  intros l1 l2 X H1 H2 HX. pose proof (huet_dn l1 l2 X H1 H2 HX) as D. destruct H1 as [N1 A1], H2 as [N2 A2].
  assert (G : forall p q, let w := ((1 - X) * (l_n l2 + 1) * p + X * (l_n l1 + 1) * q) / ((1 - X) * (l_n l2 + 1) + X * (l_n l1 + 1)) in Rmin p q <= w <= Rmax p q).
  { intros p q w. assert (E : w * ((1 - X) * (l_n l2 + 1) + X * (l_n l1 + 1)) = (1 - X) * (l_n l2 + 1) * p + X * (l_n l1 + 1) * q) by (unfold w; field; lra).
    clearbody w. pose proof (Rmin_l p q). pose proof (Rmin_r p q). pose proof (Rmax_l p q). pose proof (Rmax_r p q).
    assert (0 <= (1 - X) * (l_n l2 + 1)) by (apply Rmult_le_pos; lra). assert (0 <= X * (l_n l1 + 1)) by (apply Rmult_le_pos; lra).
    set (a := (1 - X) * (l_n l2 + 1)) in *. set (b := X * (l_n l1 + 1)) in *. clearbody a b.
    split; apply Rmult_le_reg_r with (a + b); try lra; rewrite E; nra. }
  split; [apply G|]. split; [apply G|]. unfold huet_A. repeat apply Rmult_lt_0_compat; apply Rp_pos.
Qed.
Print Assumptions C66_between.

(** Phases with the same exponent and type: the viscosity of the mixture is the weighted geometric mean of the
    viscosities of its members, so it lies between them. *)
Definition eta_of (B n E : R) : R := B * Rpower E (1 / n - 1).
Theorem C66_geometric : forall l1 l2 X Rg T E b b1 b2, hproper l1 -> hproper l2 -> l_n l1 = l_n l2 -> l_t l1 = l_t l2 -> 0 <= X <= 1 -> 0 < Rg -> 0 < T -> 0 < E ->
  huet_B l1 l2 X 1 Rg T = Some b -> huet_B l1 l2 0 1 Rg T = Some b1 -> huet_B l1 l2 1 1 Rg T = Some b2 ->
  let e1 := eta_of b1 (l_n l1) E in let e2 := eta_of b2 (l_n l2) E in
  eta_of b (huet_n l1 l2 X) E = Rpower e1 (1 - X) * Rpower e2 X /\ Rmin e1 e2 <= eta_of b (huet_n l1 l2 X) E <= Rmax e1 e2.
Proof.
  intros l1 l2 X Rg T E b b1 b2 H1 H2 En Et HX HR HT HE Hb Hb1 Hb2 e1 e2.
  destruct (C66_end_members l1 l2 H1 H2) as [(N0 & Q0 & A0) (N1 & Q1 & A1)].
  destruct H1 as [n1 a1], H2 as [n2 a2]. set (n := l_n l1) in *. assert (Nn : l_n l2 = n) by (symmetry; exact En).
  assert (NX : huet_n l1 l2 X = n) by (unfold huet_n; fold n; rewrite Nn; field; lra).
  assert (QX : huet_Q l1 l2 X = (1 - X) * l_Q l1 + X * l_Q l2) by (unfold huet_Q; fold n; rewrite Nn; field; lra).
  assert (R1 : 0 < n / (n + 1)) by (apply Rdiv_lt_0_compat; lra).
  assert (AX : huet_A l1 l2 X = Rpower (l_A l1) (1 - X) * Rpower (l_A l2) X).
  { unfold huet_A. rewrite NX. fold n. rewrite Nn. cbv zeta.
    replace ((1 - X) * (n + 1) / ((1 - X) * (n + 1) + X * (n + 1))) with (1 - X) by (field; lra).
    replace (X * (n + 1) / ((1 - X) * (n + 1) + X * (n + 1))) with X by (field; lra).
    replace (X * (n + 1) * n / ((1 - X) * (n + 1) + X * (n + 1))) with (X * n) by (field; lra).
    replace ((1 - X) * (n + 1) * n / ((1 - X) * (n + 1) + X * (n + 1))) with ((1 - X) * n) by (field; lra).
    replace ((1 - X) * n / (n + 1) + X * n / (n + 1)) with (n / (n + 1)) by (field; lra).
    rewrite <- Rpower_plus. rewrite Rmult_assoc, <- Rpower_plus. replace (- n + ((1 - X) * n + X * n)) with 0 by ring. rewrite Rp_zero. ring. }
  unfold huet_B in Hb, Hb1, Hb2. cbv zeta in Hb, Hb1, Hb2. rewrite NX in Hb. rewrite N0 in Hb1. rewrite N1, Nn in Hb2.
  destruct (corr (l_t l1) n) as [F|] eqn:HF; [|discriminate]. cbn [option_map] in *. injection Hb as <-. injection Hb1 as <-. injection Hb2 as <-.
  assert (F0 : 0 < F) by (apply (corr_pos 1 (l_t l1) n); exact HF).
  assert (GM : eta_of (1 * F * Rpower (huet_A l1 l2 X) (-1 / n) * exp (huet_Q l1 l2 X / Rg / n / T)) (huet_n l1 l2 X) E = Rpower e1 (1 - X) * Rpower e2 X).
  { unfold e1, e2, eta_of. rewrite NX, Nn, QX, AX, Q0, Q1, A0, A1.
    apply ln_inv.
    - repeat apply Rmult_lt_0_compat; try apply Rp_pos; try apply exp_pos; lra.
    - apply Rmult_lt_0_compat; apply Rp_pos.
    - rewrite !ln_mult, !ln_Rp, !ln_mult, !ln_Rp, !ln_exp, ?ln_mult, ?ln_Rp;
        try (repeat apply Rmult_lt_0_compat; try apply Rp_pos; try apply exp_pos; lra).
  }
  split; [exact GM|]. rewrite GM.
  assert (P1 : 0 < e1) by (unfold e1, eta_of; repeat apply Rmult_lt_0_compat; try apply Rp_pos; try apply exp_pos; lra).
  assert (P2 : 0 < e2) by (unfold e2, eta_of; repeat apply Rmult_lt_0_compat; try apply Rp_pos; try apply exp_pos; lra).
  clear - HX P1 P2. clearbody e1 e2.
  assert (MO : forall x y k, 0 <= k -> 0 < x -> x <= y -> Rpower x k <= Rpower y k) by (intros; apply Rle_Rpower_l; [assumption|lra]).
  assert (ID : forall m, 0 < m -> Rpower m (1 - X) * Rpower m X = m).
  { intros m Hm. rewrite <- Rpower_plus. replace (1 - X + X) with 1 by ring. now apply Rpower_1. }
  pose proof (Rmin_l e1 e2). pose proof (Rmin_r e1 e2). pose proof (Rmax_l e1 e2). pose proof (Rmax_r e1 e2).
  assert (M0 : 0 < Rmin e1 e2) by now apply Rmin_pos.
  split; [rewrite <- (ID (Rmin e1 e2)) by assumption|rewrite <- (ID (Rmax e1 e2)) by lra];
    apply Rmult_le_compat; try (left; apply Rp_pos); apply MO; lra.
Qed.
Print Assumptions C66_geometric.

(** Refuted: before any reaction ([X = 0]) the phase behaves as without reaction. The effects of pressure, grain
    size, water and melt on its strength are dropped, for every law that has them. *)
Theorem C66_pressure_dropped_refuted : forall l1 l2 pre Rg T P d F b, hproper l1 -> hproper l2 -> 0 < pre -> 0 < Rg -> 0 < T ->
  corr (l_t l1) (l_n l1) = Some F -> l_m l1 = 0 -> l_r l1 = 0 -> l_a l1 = 0 -> 0 < l_V l1 -> 0 < P ->
  huet_B l1 l2 0 pre Rg T = Some b ->
  b < Bfull (Slaw l1 F) pre Rg T P d 0.
Proof.
  intros l1 l2 pre Rg T P d F b H1 H2 Hp HR HT HF Hm Hr Ha HV HP Hb. destruct (C66_end_members l1 l2 H1 H2) as [(N0 & Q0 & A0) _]. destruct H1 as [n1 a1].
  unfold huet_B in Hb. cbv zeta in Hb. rewrite N0, Q0, A0, HF in Hb. cbn [option_map] in Hb. injection Hb as <-.
  unfold Bfull. cbn [s_law s_F]. rewrite Hm, Hr, Ha. assert (F0 : 0 < F) by (apply (corr_pos 1 (l_t l1) (l_n l1)); exact HF).
  replace (0 / l_n l1) with 0 by (unfold Rdiv; ring). replace (- 0 / l_n l1) with 0 by (unfold Rdiv; ring). replace (- 0 * 0 / l_n l1) with 0 by (unfold Rdiv; ring).
  rewrite !Rp_zero, exp_0, !Rmult_1_r. apply Rmult_lt_compat_l; [repeat apply Rmult_lt_0_compat; try apply Rp_pos; assumption|].
  apply exp_increasing. unfold Rdiv. repeat (apply Rmult_lt_compat_r; [now apply Rinv_0_lt_compat|]). pose proof (Rmult_lt_0_compat P (l_V l1) HP HV). lra.
Qed.
Print Assumptions C66_pressure_dropped_refuted.

Example C66_ex : exists l1 l2 F b, db_pwl 40 = Some l1 /\ db_pwl 41 = Some l2 /\ hproper l1 /\ hproper l2 /\ corr (l_t l1) (l_n l1) = Some F /\
  l_m l1 = 0 /\ l_r l1 = 0 /\ l_a l1 = 0 /\ 0 < l_V l1 /\ l_n l1 = l_n l2 /\ l_t l1 = l_t l2 /\ huet_B l1 l2 (1 / 2) 1 1 1 = Some b.
Proof.
  eexists. eexists. eexists. eexists. split; [reflexivity|]. split; [reflexivity|]. cbn [l_t l_n l_m l_r l_Q l_V l_A l_f l_a].
  split; [constructor; cbn [l_n l_A]; lra|]. split; [constructor; cbn [l_n l_A]; lra|]. split; [reflexivity|].
  repeat split; try lra.
Qed.
