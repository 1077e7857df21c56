(** * Proofs about the viscosity of an anisotropic material *)
From Coq Require Import ZArith Reals List Bool Lra Lia Psatz.
From Verif Require Import RheoModel RheoProofs RheoProps AnisoModel AnisoProofs AnisoProps MatGridModel AnisoViscModel.
Import ListNotations.
Local Open Scope R_scope.

(** ** Specification: the flow laws, written as strain rate for a given stress *)

(** Second invariant of a plane deviatoric tensor with out-of-plane part, [f] weighting the shear part. *)
Definition invariant (f : R) (t : ten) : R :=
  sqrt (/ 2 * (txx t ^ 2 + tzz t ^ 2 + (txx t + tzz t) ^ 2) + (f * txz t) ^ 2).
(** Power-law creep: A (t/2F)^n d^-m f^r exp(a phi) exp(-(Q+PV)/RT). *)
Definition power_law (A n d m f r a phi Q P V Rg T t : R) : R :=
  A * Rpower t n * Rpower d (- m) * Rpower f r * exp (a * phi) * exp (- (Q + P * V) / (Rg * T)).
(** Peierls creep as a power law of exponent [s + n]. *)
Definition peierls_law (E Q g S n s F Rg T t : R) : R :=
  E * exp (- Q / (Rg * T) * (1 - g) ^ 2) * Rpower (t / (2 * F)) (s + n) * Rpower (g * S) (- s).
Definition rate_sum (m : amodel) (a : amat) (q : apoint) (t : R) : R :=
  let T := if Rlt_dec (p_T q) (m_T0 m) then m_T0 m else p_T q in
  let dc := a_pwl a in let lc := a_lin a in
  (if a_cst a then t / (2 * a_eta0 a) else 0)
  + (if c_on dc then power_law (c_A dc) (c_n dc) (p_d0 q) (c_m dc) (c_f dc) (c_r dc) (c_a dc) (p_phi q) (c_Q dc) (p_P q) (c_V dc) (m_R m) T
                       (t / (2 * (c_pref dc * c_F dc))) else 0)
  + (if m_elastic m && negb (m_step0 m) then t / (2 * (p_G q * m_dt m)) else 0)
  + (if a_exp a then if Rlt_dec (p_T q) (m_Tp m) then
       let s := a_Qexp a / (m_R m * T) * 2 * a_Gexp a * (1 - a_Gexp a) in
       let N := s + a_nexp a in
       peierls_law (a_Eexp a) (a_Qexp a) (a_Gexp a) (a_Sexp a) (a_nexp a) s
         (Rpower (Rpower 2 (1 - N) / Rpower (sqrt 3) (N + 1)) (1 / N)) (m_R m) T t else 0 else 0)
  + (if c_on lc then power_law (c_A lc) (c_n lc) (p_d0 q) (c_m lc) (c_f lc) (c_r lc) (c_a lc) (p_phi q) (c_Q lc) (p_P q) (c_V lc) (m_R m) T
                       (t / (2 * c_F lc)) else 0).
(** Viscosity at which all mechanisms together accommodate the imposed rate. *)
Definition point_viscosity (m : amodel) (a : amat) (q : apoint) (e : R) : Prop :=
  0 < e /\ rate_sum m a q (2 * e * invariant 1 (p_E q)) = invariant 1 (p_E q).

Definition good_creep (nmax : R) (c : creep) : Prop :=
  c_on c = true -> 0 < c_A c /\ 1 <= c_n c <= nmax /\ 0 < c_F c /\ 0 < c_pref c /\ 0 < c_f c.
(** Admissible input: positive strengths, exponents between 1 and [nmax], a deforming point. *)
Definition good_input (nmax : R) (m : amodel) (a : amat) (q : apoint) : Prop :=
  0 < invariant 1 (p_E q) /\ 0 < m_R m /\ 0 < m_T0 m /\ 0 < p_d0 q /\ 0 < m_dt m /\ 0 < p_G q /\
  (a_cst a = true -> 0 < a_eta0 a) /\ good_creep nmax (a_pwl a) /\ good_creep nmax (a_lin a) /\
  (a_exp a = true -> p_T q < m_Tp m -> 0 < a_Eexp a /\ 0 < a_Gexp a < 1 /\ 0 < a_Sexp a /\
     1 <= a_Qexp a / m_R m / floor_T m (p_T q) * 2 * a_Gexp a * (1 - a_Gexp a) + a_nexp a <= nmax).

(** ** Invariants do not depend on the orientation *)
Lemma layer_trig : forall w, (cos w * cos w) * (1 - cos w * cos w) = (cos w * sin w) * (cos w * sin w).
Proof. intros w. pose proof (sin2_cos2 w) as H. unfold Rsqr in H. replace (1 - cos w * cos w) with (sin w * sin w) by lra. ring. Qed.

Lemma I2_rotated : forall l k e, k * (1 - k) = l * l -> I2 (rotated_strain l k e) = I2 e.
Proof.
  intros l k [x z y] H. unfold I2, rotated_strain. cbn [txx tzz txz].
  replace (k * x + (1 - k) * z + 2 * l * y) with ((x + z) / 2 + (2 * k - 1) * (x - z) / 2 + 2 * l * y) by field.
  replace ((1 - k) * x + k * z - 2 * l * y) with ((x + z) / 2 - ((2 * k - 1) * (x - z) / 2 + 2 * l * y)) by field.
  replace (- l * x + l * z + (k - (1 - k)) * y) with (- l * (x - z) + (2 * k - 1) * y) by ring.
  assert (E : (2 * k - 1) ^ 2 = 1 - 4 * (l * l)) by (rewrite <- H; ring).
  set (c := 2 * k - 1) in *. set (s := x + z). set (d := x - z).
  transitivity (s ^ 2 * 3 / 4 + c ^ 2 * (d ^ 2 / 4 + y ^ 2) + (l * l) * (4 * y ^ 2 + d ^ 2)).
  { field. }
  rewrite E. unfold s, d. field.
Qed.

Lemma I2_invariant : forall e, sqrt (I2 e) = invariant 1 e.
Proof. intros [x z y]. unfold I2, invariant. cbn [txx tzz txz]. f_equal. field. Qed.
Lemma local_invariant : forall w e, local_Eii w e = invariant 1 e.
Proof.
  intros w e. unfold local_Eii. rewrite I2_rotated; [apply I2_invariant|]. unfold layer_lx2, layer_lxlz. apply layer_trig.
Qed.

(** The stress seen in the layer frame: shear divided by the factor. *)
Lemma local_stress_layer : forall w fac eta e, fac <> 0 ->
  let l := layer_lxlz w in let k := layer_lx2 w in
  invariant fac (rotated_strain l k (local_stress w fac eta e)) = 2 * Rabs eta * invariant 1 e.
Proof.
  intros w fac eta e Hf l k.
  assert (H : k * (1 - k) = l * l) by (apply layer_trig).
  assert (E : rotated_strain l k (local_stress w fac eta e) =
    let r := rotated_strain l k e in Ten (2 * eta * txx r) (2 * eta * tzz r) (2 * eta * txz r / fac)).
  { unfold local_stress. fold l k. cbn zeta.
    set (r := rotated_strain l k e). set (X := 2 * eta * txx r). set (Z := 2 * eta * tzz r). set (Y := 2 * eta * txz r / fac).
    unfold rotated_strain. cbn [txx tzz txz]. f_equal.
    - transitivity (X * (k * k + (1 - k) * (1 - k) + 2 * (l * l)) + Z * (2 * (k * (1 - k)) - 2 * (l * l)) + Y * (- 2 * l * k + 2 * l * (1 - k) + 2 * l * (k - (1 - k)))); [ring|].
      rewrite <- H. ring.
    - transitivity (Z * (k * k + (1 - k) * (1 - k) + 2 * (l * l)) + X * (2 * (k * (1 - k)) - 2 * (l * l)) + Y * (- 2 * l * (1 - k) + 2 * l * k - 2 * l * (k - (1 - k)))); [ring|].
      rewrite <- H. ring.
    - transitivity (Y * (4 * (l * l) + (k - (1 - k)) * (k - (1 - k)))); [ring|]. rewrite <- H. ring. }
  rewrite E. cbn zeta. unfold invariant. cbn [txx tzz txz].
  set (r := rotated_strain l k e).
  replace (fac * (2 * eta * txz r / fac)) with (2 * eta * txz r) by (field; exact Hf).
  transitivity (sqrt ((2 * eta) ^ 2 * I2 r)).
  { f_equal. unfold I2. field. }
  unfold r. rewrite I2_rotated by exact H. rewrite sqrt_mult_alt by nra. rewrite I2_invariant.
  replace ((2 * eta) ^ 2) with ((2 * eta)²) by (unfold Rsqr; ring). rewrite sqrt_Rsqr_abs, Rabs_mult, (Rabs_pos_eq 2) by lra.
  f_equal.
Qed.

(** ** The prefactors are those of the flow laws *)
Lemma Rpower_exp : forall x y, Rpower (exp x) y = exp (y * x).
Proof. intros. unfold Rpower. now rewrite ln_exp. Qed.

Lemma creep_B : forall pf A n dm f r a phi Q P V Rg T t,
  0 < pf -> 0 < A -> 1 <= n -> 0 < Rg -> 0 < T -> 0 < t ->
  let B := pf * Rpower A (-1 / n) * exp ((Q + P * V) / Rg / n / T) * dm * Rpower f (- r / n) * exp (- a * phi / n) in
  0 < dm -> Rpower (t / (2 * B)) n = A * Rpower (t / (2 * pf)) n * Rpower dm (- n) * Rpower f r * exp (a * phi) * exp (- (Q + P * V) / (Rg * T)).
Proof.
  intros pf A n dm f r a phi Q P V Rg T t Hp HA Hn HR HT Ht B Hd.
  assert (E : t / (2 * B) = (t / (2 * pf)) * Rpower A (1 / n) * exp (- (Q + P * V) / Rg / n / T) * Rpower dm (-1) * Rpower f (r / n) * exp (a * phi / n)).
  { unfold B. replace (-1 / n) with (- (1 / n)) by (field; lra). replace (- r / n) with (- (r / n)) by (field; lra).
    rewrite !Rpower_Ropp. replace (Rpower dm (-1)) with (/ dm) by (replace (-1) with (Ropp 1) by lra; rewrite Rpower_Ropp, Rpower_1 by lra; reflexivity).
    replace (- (Q + P * V) / Rg / n / T) with (- ((Q + P * V) / Rg / n / T)) by (field; lra).
    replace (- a * phi / n) with (- (a * phi / n)) by (field; lra). rewrite !exp_Ropp.
    pose proof (Rpower_pos A (1 / n)). pose proof (Rpower_pos f (r / n)). pose proof (exp_pos ((Q + P * V) / Rg / n / T)). pose proof (exp_pos (a * phi / n)).
    field. repeat split; lra. }
  rewrite E. clear E B.
  assert (Ht2 : 0 < t / (2 * pf)) by (apply Rdiv_lt_0_compat; lra).
  pose proof (Rpower_pos A (1 / n)) as P1. pose proof (Rpower_pos f (r / n)) as P2. pose proof (Rpower_pos dm (-1)) as P3.
  pose proof (exp_pos (- (Q + P * V) / Rg / n / T)) as P4. pose proof (exp_pos (a * phi / n)) as P5.
  set (x1 := t / (2 * pf)) in *. set (x2 := Rpower A (1 / n)) in *. set (x3 := exp (- (Q + P * V) / Rg / n / T)) in *.
  set (x4 := Rpower dm (-1)) in *. set (x5 := Rpower f (r / n)) in *. set (x6 := exp (a * phi / n)) in *.
  assert (M1 : 0 < x1 * x2) by nra. assert (M2 : 0 < x1 * x2 * x3) by nra. assert (M3 : 0 < x1 * x2 * x3 * x4) by nra.
  assert (M4 : 0 < x1 * x2 * x3 * x4 * x5) by nra.
  rewrite <- (Rpower_mult_distr (x1 * x2 * x3 * x4 * x5) x6) by assumption.
  rewrite <- (Rpower_mult_distr (x1 * x2 * x3 * x4) x5) by assumption.
  rewrite <- (Rpower_mult_distr (x1 * x2 * x3) x4) by assumption.
  rewrite <- (Rpower_mult_distr (x1 * x2) x3) by assumption.
  rewrite <- (Rpower_mult_distr x1 x2) by assumption.
  unfold x2, x3, x4, x5, x6. rewrite !Rpower_mult, !Rpower_exp.
  replace (1 / n * n) with 1 by (field; lra). rewrite Rpower_1 by lra.
  replace (-1 * n) with (- n) by ring. replace (r / n * n) with r by (field; lra).
  replace (n * (a * phi / n)) with (a * phi) by (field; lra).
  replace (n * (- (Q + P * V) / Rg / n / T)) with (- (Q + P * V) / (Rg * T)) by (field; lra). ring.
Qed.

Lemma floor_pos : forall m T, 0 < m_T0 m -> 0 < floor_T m T.
Proof. intros m T H. unfold floor_T, Rltb. destruct (Rlt_dec T (m_T0 m)); lra. Qed.

Lemma exp_B : forall E Q g S n s F Rg T t, 0 < E -> 0 < g -> 0 < S -> 1 <= s + n -> 0 < F -> 0 < Rg -> 0 < T -> 0 < t ->
  let arr := exp (- Q / Rg / T * (1 - g) ^ 2) in
  let B := F * (Rpower (g * S) (s / (s + n)) / Rpower (E * arr) (1 / (s + n))) in
  Rpower (t / (2 * B)) (s + n) = peierls_law E Q g S n s F Rg T t.
Proof.
  intros E Q g S n s F Rg T t HE Hg HS HN HF HR HT Ht arr B. set (N := s + n) in *.
  assert (Ha : 0 < arr) by apply exp_pos. assert (HEa : 0 < E * arr) by (now apply Rmult_lt_0_compat).
  pose proof (Rpower_pos (g * S) (s / N)) as P1. pose proof (Rpower_pos (E * arr) (1 / N)) as P2.
  assert (Eq : t / (2 * B) = t / (2 * F) * Rpower (E * arr) (1 / N) * Rpower (g * S) (- (s / N))).
  { unfold B. rewrite Rpower_Ropp. field. repeat split; lra. }
  rewrite Eq. clear Eq. pose proof (Rpower_pos (g * S) (- (s / N))) as P3.
  assert (H1 : 0 < t / (2 * F)) by (apply Rdiv_lt_0_compat; lra).
  assert (H2 : 0 < t / (2 * F) * Rpower (E * arr) (1 / N)) by (now apply Rmult_lt_0_compat).
  rewrite <- (Rpower_mult_distr (t / (2 * F) * Rpower (E * arr) (1 / N))) by assumption.
  rewrite <- (Rpower_mult_distr (t / (2 * F))) by assumption.
  rewrite !Rpower_mult. replace (1 / N * N) with 1 by (field; lra). rewrite Rpower_1 by lra.
  replace (- (s / N) * N) with (- s) by (field; lra). unfold peierls_law, arr.
  replace (- Q / Rg / T) with (- Q / (Rg * T)) by (field; lra). unfold N. ring.
Qed.

Lemma good_ok : forall nmax m a q, good_input nmax m a q -> ok nmax (vin_of m a q).
Proof.
  intros nmax m a q [H1 [H2 [H3 [H4 [H5 [H6 [H7 [H8 [H9 H10]]]]]]]]].
  unfold ok, vin_of. cbn [v_E v_el v_etael v_cst v_etacst v_dis v_Bpwl v_npwl v_pei v_Bexp v_nexp v_dif v_Blin v_nlin v_d v_mlin].
  rewrite local_invariant. split; [exact H1|]. split; [exact H7|]. split.
  { intros b. destruct (H8 b) as [A1 [A2 [A3 [A4 A5]]]]. split; [|exact A2]. unfold B_pwl.
    repeat apply Rmult_lt_0_compat; try apply Rpower_pos; try apply exp_pos; assumption. }
  split.
  { intros b. unfold el_eta. rewrite b. now apply Rmult_lt_0_compat. }
  split.
  { unfold peierls_on. intros b. apply andb_prop in b. destruct b as [b1 b2]. apply Rltb_true in b2.
    destruct (H10 b1 b2) as [A1 [A2 [A3 A4]]]. split; [|exact A4]. unfold B_exp.
    apply Rmult_lt_0_compat; [apply Rpower_pos|]. apply Rdiv_lt_0_compat; apply Rpower_pos. }
  intros b. destruct (H9 b) as [A1 [A2 [A3 [A4 A5]]]]. split; [|split; [exact A2|exact H4]]. unfold B_lin.
  repeat apply Rmult_lt_0_compat; try apply Rpower_pos; try apply exp_pos; assumption.
Qed.

Lemma rate_total : forall nmax m a q t, good_input nmax m a q -> 0 < t ->
  total_rate (vin_of m a q) t = rate_sum m a q t.
Proof.
  intros nmax m a q t [H1 [H2 [H3 [H4 [H5 [H6 [H7 [H8 [H9 H10]]]]]]]]] Ht.
  pose proof (floor_pos m (p_T q) H3) as HT.
  assert (ET : (if Rlt_dec (p_T q) (m_T0 m) then m_T0 m else p_T q) = floor_T m (p_T q)).
  { unfold floor_T, Rltb. destruct (Rlt_dec (p_T q) (m_T0 m)); reflexivity. }
  unfold total_rate, rate_sum. rewrite ET. cbn zeta. set (T := floor_T m (p_T q)) in *.
  unfold vin_of. cbn [v_E v_el v_etael v_cst v_etacst v_dis v_Bpwl v_npwl v_pei v_Bexp v_nexp v_dif v_Blin v_nlin v_d v_mlin].
  f_equal; [f_equal; [f_equal; [f_equal|]|]|].
  - unfold pick. destruct (c_on (a_pwl a)) eqn:b; [|reflexivity]. destruct (H8 b) as [A1 [A2 [A3 [A4 A5]]]].
    unfold B_pwl. fold T. set (c := a_pwl a) in *.
    rewrite (creep_B (c_pref c * c_F c) (c_A c) (c_n c) (Rpower (p_d0 q) (c_m c / c_n c)) (c_f c) (c_r c) (c_a c) (p_phi q) (c_Q c) (p_P q) (c_V c) (m_R m) T t)
      by (try assumption; try lra; try apply Rpower_pos; now apply Rmult_lt_0_compat). unfold power_law. rewrite Rpower_mult. replace (c_m c / c_n c * - c_n c) with (- c_m c) by (field; lra). reflexivity.
  - unfold pick, elastic_on, el_eta, elastic_on. destruct (m_elastic m && negb (m_step0 m)); reflexivity.
  - unfold pick, peierls_on. destruct (a_exp a) eqn:b1; cbn [andb]; [|reflexivity]. unfold Rltb.
    destruct (Rlt_dec (p_T q) (m_Tp m)) as [b2|]; [|reflexivity]. destruct (H10 eq_refl b2) as [A1 [A2 [A3 A4]]]. fold T in A4.
    unfold B_exp, F_exp, ST_exp. fold T.
    replace (a_Qexp a / (m_R m * T) * 2 * a_Gexp a * (1 - a_Gexp a)) with (a_Qexp a / m_R m / T * 2 * a_Gexp a * (1 - a_Gexp a)) by (field; lra).
    set (s := a_Qexp a / m_R m / T * 2 * a_Gexp a * (1 - a_Gexp a)) in *.
    replace (1 - s - a_nexp a) with (1 - (s + a_nexp a)) by ring.
    apply exp_B; try lra. apply Rpower_pos.
  - unfold pick. destruct (c_on (a_lin a)) eqn:b; [|reflexivity]. destruct (H9 b) as [A1 [A2 [A3 [A4 A5]]]].
    unfold B_lin. fold T. set (c := a_lin a) in *.
        replace (c_F c * Rpower (c_A c) (-1 / c_n c) * exp ((c_Q c + p_P q * c_V c) / m_R m / c_n c / T) * Rpower (c_f c) (- c_r c / c_n c) * exp (- c_a c * p_phi q / c_n c))
      with (c_F c * Rpower (c_A c) (-1 / c_n c) * exp ((c_Q c + p_P q * c_V c) / m_R m / c_n c / T) * 1 * Rpower (c_f c) (- c_r c / c_n c) * exp (- c_a c * p_phi q / c_n c)) by ring.
    rewrite (creep_B (c_F c) (c_A c) (c_n c) 1 (c_f c) (c_r c) (c_a c) (p_phi q) (c_Q c) (p_P q) (c_V c) (m_R m) T t) by (try assumption; lra).
    unfold power_law.
    replace (Rpower 1 (- c_n c)) with 1 by (unfold Rpower; rewrite ln_1, Rmult_0_r, exp_0; reflexivity). ring.
Qed.

(** ** The iteration *)
Section AvFacts.
  Variable p : lip.
  Let l := terms p.
  Hypothesis Hg : no_gbs p.
  Hypothesis HE : 0 < Eii p.
  Hypothesis Hc : cst p = true -> eta_cst p <> 0.
  Hypothesis Hl : el p = true -> eta_el p <> 0.
  Hypothesis G : good l.
  Hypothesis Hne : l <> [].
  Variable es : R.
  Hypothesis Hes : 0 < es.
  Hypothesis Es : S_ l es = Eii p.

  Lemma dfd_nonzero : forall e, 0 < e -> dfdeta p e <> 0.
  Proof. intros e He. rewrite dfdeta_D by assumption. pose proof (D_pos l e G Hne He). fold l. lra. Qed.

  Lemma nN : forall e, 0 < e -> newton p e = N_ l (Eii p) e.
  Proof. intros e He. now apply newton_N. Qed.

  Lemma av_step : forall k e, av_loop p (S (S k)) e =
    if Req_EM_T (Eii p) 0 then AvStop 1 else if Req_EM_T (dfdeta p e) 0 then AvStop 1
    else if Rltb (Rabs (resid p e / Eii p)) (ve_tol / 100) then AvRet (newton p e) (stress p e)
    else av_loop p (S k) (newton p e).
  Proof. reflexivity. Qed.
  Lemma li_step : forall k e, li_loop p (S (S k)) e =
    if Rltb (Rabs (resid p e / Eii p)) (ve_tol / 100) then Ret e (stress p e) else li_loop p (S k) (newton p e).
  Proof. reflexivity. Qed.

  (** the last viscosity tested and the one returned *)
  Lemma av_ret : forall left e r t, 0 < e -> Eii p <= S_ l e -> av_loop p (S left) e = AvRet r t ->
    exists x, t = stress p x /\ r = newton p x /\ es <= r <= x /\ x <= (1 + ve_tol) * es /\ x <= e /\
      Rabs (resid p x / Eii p) <= ve_tol.
  Proof.
    assert (Ht : 0 < ve_tol) by (unfold ve_tol; apply Rinv_0_lt_compat, pow_lt; lra).
    induction left as [|left IH]; intros e r t He Hs H.
    - cbn [av_loop] in H. destruct (Req_EM_T (Eii p) 0) as [Z|_]; [discriminate|].
      destruct (Req_EM_T (dfdeta p e) 0) as [Z|_]; [discriminate|].
      assert (K : Rabs (resid p e / Eii p) <= ve_tol -> r = newton p e -> t = stress p e ->
        exists x, t = stress p x /\ r = newton p x /\ es <= r <= x /\ x <= (1 + ve_tol) * es /\ x <= e /\ Rabs (resid p x / Eii p) <= ve_tol).
      { intros Hr Er Et. exists e. pose proof (above_root p Hg HE Hc Hl G es Hes Es e ve_tol He Hs ltac:(lra) Hr) as A.
        destruct (newton_bracket l (Eii p) e es G Hne He Hes Es Hs) as [B _].
        rewrite <- (nN e He) in B. rewrite <- Er in B.
        split; [exact Et|]. split; [exact Er|]. split; [exact B|]. split; [lra|]. split; [lra|exact Hr]. }
      destruct (Rltb (Rabs (resid p e / Eii p)) (ve_tol / 100)) eqn:E1.
      + injection H; intros; subst. apply Rltb_true in E1. apply K; [lra|reflexivity|reflexivity].
      + destruct (Rltb ve_tol (Rabs (resid p e / Eii p))) eqn:E2; [discriminate|].
        injection H; intros; subst. apply Rltb_false in E2. apply K; [lra|reflexivity|reflexivity].
    - rewrite av_step in H. destruct (Req_EM_T (Eii p) 0) as [Z|_]; [discriminate|].
      destruct (Req_EM_T (dfdeta p e) 0) as [Z|_]; [discriminate|].
      destruct (newton_bracket l (Eii p) e es G Hne He Hes Es Hs) as [B B3].
      rewrite <- (nN e He) in B, B3.
      destruct (Rltb (Rabs (resid p e / Eii p)) (ve_tol / 100)) eqn:E1.
      + injection H; intros; subst. apply Rltb_true in E1.
        pose proof (above_root p Hg HE Hc Hl G es Hes Es e ve_tol He Hs ltac:(lra) ltac:(lra)) as A.
        exists e. split; [reflexivity|]. split; [reflexivity|]. split; [exact B|]. split; [lra|]. split; lra.
      + destruct (IH (newton p e) r t ltac:(lra) B3 H) as [x [X1 [X2 [X3 [X4 [X5 X6]]]]]].
        exists x. split; [exact X1|]. split; [exact X2|]. split; [exact X3|]. split; [exact X4|]. split; [lra|exact X6].
  Qed.

  (** whenever LocalIterationViscoElastic returns a converged viscosity so does this iteration *)
  Lemma av_of_li : forall left e r, 0 < e -> Eii p <= S_ l e ->
    li_loop p (S left) e = Ret r (stress p r) -> Rabs (resid p r / Eii p) < ve_tol / 100 ->
    av_loop p (S left) e = AvRet (newton p r) (stress p r).
  Proof.
    induction left as [|left IH]; intros e r He Hs H Hr;
      [cbn [li_loop av_loop] in *|rewrite av_step; rewrite li_step in H];
      destruct (Req_EM_T (Eii p) 0) as [Z|_]; try lra;
      destruct (Req_EM_T (dfdeta p e) 0) as [Z|_]; try (exfalso; now apply (dfd_nonzero e He)).
    - destruct (Rltb (Rabs (resid p e / Eii p)) (ve_tol / 100)).
      + injection H; intros; subst. reflexivity.
      + destruct (Rltb ve_tol (Rabs (resid p e / Eii p))); [discriminate|]. injection H; intros Hst Hn.
        unfold stress in Hst. assert (X : e = r) by nra. rewrite <- X. reflexivity.
    - destruct (Rltb (Rabs (resid p e / Eii p)) (ve_tol / 100)).
      + injection H; intros; subst. reflexivity.
      + destruct (newton_bracket l (Eii p) e es G Hne He Hes Es Hs) as [B B3].
        rewrite <- (nN e He) in B, B3.
        apply (IH (newton p e) r); [lra|exact B3|exact H|exact Hr].
  Qed.
End AvFacts.
