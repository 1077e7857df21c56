(** * The complete local viscoelastic solve gives the same physical result in any system of units

    Joins [FlowModel] (reading and scaling of the laws, prefactors) and [RheoModel] (starting viscosity,
    Newton iteration, failure exit). *)
From Coq Require Import Reals ZArith List Bool Lra Lia.
From Verif Require Import OptionsModel RheoModel RheoProofs RheoProps FlowModel FlowProps.
Import ListNotations.
Local Open Scope R_scope.

(** ** Specification *)

(** One material point, in SI units: strain rate, temperature, pressure, grain size, melt fraction, shear
    modulus times time step, constant viscosity, and the laws of the material as published. *)
Record point : Type := Point {
  x_E : R; x_T : R; x_P : R; x_d : R; x_phi : R; x_pre : R;
  x_el : option R; x_cst : option R; x_pwl : option (law * Z); x_exp : option Z; x_lin : option (law * Z) }.
Definition meaningful (m : point) : Prop :=
  0 < x_E m /\ zeroC <= x_T m <= 10000 /\ 0 < x_d m /\ 0 < x_pre m /\
  (forall x, x_el m = Some x -> 0 < x) /\ (forall x, x_cst m = Some x -> 0 < x) /\
  (forall l k, x_pwl m = Some (l, k) -> proper l /\ 1 <= l_n l) /\
  (forall l k, x_lin m = Some (l, k) -> proper l /\ 1 <= l_n l) /\
  (forall k, x_exp m = Some k -> exists p, db_exp (Z.abs k) = Some p) /\
  (x_el m <> None \/ x_cst m <> None \/ x_pwl m <> None \/ x_lin m <> None \/ x_exp m <> None).

(** Physical outcome of a run in units [s]: failure, or viscosity in Pa s and stress in Pa. *)
Definition physical (s : scale) (r : li_result) : option (R * R) :=
  match r with Exit0 => None | Ret e t => Some (s_eta s * e, s_S s * t) end.

(** ** What the code is given in units [s] (RheologyDensity.c 448-500, 535-565 after FlowLaws.c) *)
Definition bool_of {A} (o : option A) : bool := match o with Some _ => true | None => false end.
Definition get (o : option R) : R := match o with Some x => x | None => 0 end.
(** Prefactor and exponent of each mechanism that the material has; nothing reads those of the others. *)
Definition in_pwl (s : scale) (m : point) : R * R :=
  match x_pwl m with
  | Some (l, k) => match finish_law s k l with
      | Some p => (Bfull p (x_pre m) (scaled_R s) (floor_T s (x_T m / s_T s)) (x_P m / s_S s) (x_d m / s_L s) (x_phi m), l_n (s_law p))
      | None => (0, 1) end
  | None => (0, 1) end.
Definition in_exp (s : scale) (m : point) : R * R :=
  match x_exp m with
  | Some k => match read_exp s k with
      | Some p => (Bexp p (scaled_R s) (floor_T s (x_T m / s_T s)), ST p (scaled_R s) (floor_T s (x_T m / s_T s)) + p_n p)
      | None => (0, 1) end
  | None => (0, 1) end.
Definition in_lin (s : scale) (m : point) : R * R * R :=
  match x_lin m with
  | Some (l, k) => match finish_law s k l with
      | Some p => (Bnod p 1 (scaled_R s) (floor_T s (x_T m / s_T s)) (x_P m / s_S s) (x_phi m), l_n (s_law p), l_m (s_law p))
      | None => (0, 1, 0) end
  | None => (0, 1, 0) end.
Definition vin_at (s : scale) (m : point) : vin :=
  Vin (x_E m / s_E s) (bool_of (x_el m)) (get (x_el m) / s_eta s) (bool_of (x_cst m)) (get (x_cst m) / s_eta s)
      (bool_of (x_pwl m)) (fst (in_pwl s m)) (snd (in_pwl s m))
      (bool_of (x_exp m)) (fst (in_exp s m)) (snd (in_exp s m))
      (bool_of (x_lin m)) (fst (fst (in_lin s m))) (snd (fst (in_lin s m))) (x_d m / s_L s) (snd (in_lin s m))
      false 0 1.
Definition cap_at (s : scale) : R := 10 ^ 100 / s_eta s.

(** ** Change of units of the solve *)
Definition rescale (S t L : R) (v : vin) : vin :=
  Vin (v_E v * t) (v_el v) (v_etael v / (S * t)) (v_cst v) (v_etacst v / (S * t))
      (v_dis v) (v_Bpwl v / (S * Rpower t (1 / v_npwl v))) (v_npwl v)
      (v_pei v) (v_Bexp v / (S * Rpower t (1 / v_nexp v))) (v_nexp v)
      (v_dif v) (v_Blin v / (S * Rpower t (1 / v_nlin v)) * Rpower L (v_mlin v / v_nlin v)) (v_nlin v) (v_d v / L) (v_mlin v)
      (v_gbs v) (v_Bgbs v) (v_ngbs v).

Lemma pow_term : forall S t B E e n, 0 < S -> 0 < t -> 0 < B -> 0 < E -> 0 < e -> 1 <= n ->
  Rpower (2 * (B / (S * Rpower t (1 / n)))) (- n) * Rpower (2 * (E * t)) n * Rpower (e / (S * t)) n
  = t * (Rpower (2 * B) (- n) * Rpower (2 * E) n * Rpower e n).
Proof.
  intros S t B E e n HS Ht HB HE He Hn. pose proof (Rp_pos t (1 / n)) as Hp.
  assert (HSp : 0 < S * Rpower t (1 / n)) by now apply Rmult_lt_0_compat.
  assert (HSt : 0 < S * t) by now apply Rmult_lt_0_compat.
  apply ln_inv.
  - repeat apply Rmult_lt_0_compat; apply Rp_pos.
  - repeat apply Rmult_lt_0_compat; try apply Rp_pos; assumption.
  - rewrite !ln_mult, !ln_Rp, !ln_mult, !ln_div, !ln_mult, !ln_Rp;
      try (repeat apply Rmult_lt_0_compat; try apply Rp_pos; lra); try (apply Rdiv_lt_0_compat; assumption).
    field. lra.
Qed.
Lemma grain_term : forall S t L B d e n m, 0 < S -> 0 < t -> 0 < L -> 0 < B -> 0 < d -> 1 <= n ->
  Rpower (2 * (B / (S * Rpower t (1 / n)) * Rpower L (m / n))) (- n) * e * Rpower (d / L) (- m)
  = Rpower (2 * (B / (S * Rpower t (1 / n)))) (- n) * e * Rpower d (- m).
Proof.
  intros S t L B d e n m HS Ht HL HB Hd Hn. pose proof (Rp_pos t (1 / n)) as Hp.
  assert (HSp : 0 < S * Rpower t (1 / n)) by now apply Rmult_lt_0_compat.
  assert (HB' : 0 < B / (S * Rpower t (1 / n))) by now apply Rdiv_lt_0_compat.
  revert HB'. generalize (B / (S * Rpower t (1 / n))). intros b Hb.
  replace (2 * (b * Rpower L (m / n))) with (2 * b * Rpower L (m / n)) by ring.
  rewrite <- (Rpower_mult_distr (2 * b)) by (try apply Rp_pos; lra). rewrite Rpower_mult.
  replace (m / n * - n) with (- m) by (field; lra).
  replace (Rpower d (- m)) with (Rpower L (- m) * Rpower (d / L) (- m)).
  2: { rewrite Rpower_mult_distr by (try apply Rdiv_lt_0_compat; assumption). f_equal. field. lra. }
  ring.
Qed.

(** Relation of the two lists of terms. *)
Definition trel (S t : R) (a b : term) : Prop :=
  snd a = snd b /\ forall e, 0 < e -> fst a * Rpower (e / (S * t)) (snd a) = t * (fst b * Rpower e (snd b)).
Lemma rel_S : forall S t l l', Forall2 (trel S t) l l' -> forall e, 0 < e -> S_ l (e / (S * t)) = t * S_ l' e.
Proof.
  intros S t l l' H e He. induction H as [|[a n] [b k] l l' [H1 H2] H IH]; [cbn; ring|].
  rewrite !S_cons, IH. specialize (H2 e He). cbn [fst snd] in *. rewrite H2. ring.
Qed.
Lemma rel_D : forall S t l l', 0 < S -> 0 < t -> Forall2 (trel S t) l l' -> forall e, 0 < e ->
  D_ l (e / (S * t)) = t * (S * t) * D_ l' e.
Proof.
  intros S t l l' HS Ht H e He. assert (HSt : 0 < S * t) by now apply Rmult_lt_0_compat.
  induction H as [|[a n] [b k] l l' [H1 H2] H IH]; [cbn; ring|].
  rewrite !D_cons, IH. specialize (H2 e He). cbn [fst snd] in *. rewrite H1 in *.
  replace (a * k * Rpower (e / (S * t)) k) with (k * (a * Rpower (e / (S * t)) k)) by ring. rewrite H2. field. lra.
Qed.

Lemma rel_terms : forall nmax S t L v, 0 < S -> 0 < t -> 0 < L -> ok nmax v ->
  Forall2 (trel S t) (terms (lip_of (rescale S t L v))) (terms (lip_of v)).
Proof.
  intros nmax S t L v HS Ht HL [HE [H1 [H2 [H3 [H4 H5]]]]]. unfold terms, rescale, lip_of.
  cbn [Eii cst eta_cst dis C_pwl n_pwl el eta_el pei C_exp n_exp dif C_lin n_lin d_gs m_lin
       v_E v_el v_etael v_cst v_etacst v_dis v_Bpwl v_npwl v_pei v_Bexp v_nexp v_dif v_Blin v_nlin v_d v_mlin v_gbs v_Bgbs v_ngbs].
  assert (HSt : 0 < S * t) by now apply Rmult_lt_0_compat.
  assert (Hone : forall (b : bool) c c' n, (b = true -> forall e, 0 < e -> c * Rpower (e / (S * t)) n = t * (c' * Rpower e n)) ->
     Forall2 (trel S t) (one b c n) (one b c' n)).
  { intros [] c c' n H; cbn; constructor; [split; [reflexivity|intros e He; now apply H]|constructor]. }
  repeat apply Forall2_app; apply Hone; intros b e He.
  - specialize (H1 b). rewrite !Rpower_1 by (try apply Rdiv_lt_0_compat; assumption). field. lra.
  - destruct (H2 b). apply pow_term; lra.
  - specialize (H3 b). rewrite !Rpower_1 by (try apply Rdiv_lt_0_compat; assumption). field. lra.
  - destruct (H4 b). apply pow_term; lra.
  - destruct (H5 b) as [A1 [A2 A3]]. rewrite grain_term by lra.
    pose proof (pow_term S t (v_Blin v) (v_E v) e (v_nlin v) HS Ht A1 HE He ltac:(lra)) as Q.
    transitivity (Rpower (2 * (v_Blin v / (S * Rpower t (1 / v_nlin v)))) (- v_nlin v) * Rpower (2 * (v_E v * t)) (v_nlin v) * Rpower (e / (S * t)) (v_nlin v) * Rpower (v_d v) (- v_mlin v)); [ring|].
    rewrite Q. ring.
Qed.

Lemma ok_rescale : forall nmax S t L v, 0 < S -> 0 < t -> 0 < L -> ok nmax v -> ok nmax (rescale S t L v).
Proof.
  intros nmax S t L v HS Ht HL [HE [H1 [H2 [H3 [H4 H5]]]]]. unfold ok, rescale.
  cbn [v_E v_el v_etael v_cst v_etacst v_dis v_Bpwl v_npwl v_pei v_Bexp v_nexp v_dif v_Blin v_nlin v_d v_mlin].
  assert (HSt : 0 < S * t) by now apply Rmult_lt_0_compat.
  assert (Q : forall n, 0 < S * Rpower t (1 / n)) by (intros; apply Rmult_lt_0_compat; [assumption|apply Rp_pos]).
  split; [now apply Rmult_lt_0_compat|]. split; [intros b; apply Rdiv_lt_0_compat; auto|].
  split; [intros b; split; [apply Rdiv_lt_0_compat; [apply H2; exact b|apply Q]|apply H2; exact b]|].
  split; [intros b; apply Rdiv_lt_0_compat; auto|].
  split; [intros b; split; [apply Rdiv_lt_0_compat; [apply H4; exact b|apply Q]|apply H4; exact b]|].
  intros b. destruct (H5 b) as [A1 [A2 A3]]. split; [apply Rmult_lt_0_compat; [now apply Rdiv_lt_0_compat|apply Rp_pos]|].
  split; [exact A2|now apply Rdiv_lt_0_compat].
Qed.

Lemma minv_div : forall a b k, 0 < k -> minv (a / k) (b / k) = minv a b / k.
Proof.
  intros a b k Hk. assert (0 < / k) by now apply Rinv_0_lt_compat. unfold minv, Rdiv.
  destruct (Rle_dec a b), (Rle_dec (a * / k) (b * / k)); try reflexivity; exfalso; nra.
Qed.
Lemma iso_rescale : forall S t B E n, 0 < S -> 0 < t -> 0 < E -> 1 <= n ->
  B / (S * Rpower t (1 / n)) * Rpower (E * t) (1 / n - 1) = B * Rpower E (1 / n - 1) / (S * t).
Proof.
  intros S t B E n HS Ht HE Hn. rewrite <- Rpower_mult_distr by assumption.
  replace (Rpower t (1 / n)) with (Rpower t (1 / n - 1) * t)
    by (rewrite <- (Rpower_1 t) at 2 by assumption; rewrite <- Rpower_plus; f_equal; ring).
  pose proof (Rp_pos t (1 / n - 1)). field. lra.
Qed.
Lemma up_rescale : forall nmax cap S t L v, 0 < S -> 0 < t -> 0 < L -> ok nmax v -> v_gbs v = false ->
  eta_up (cap / (S * t)) (rescale S t L v) = eta_up cap v / (S * t).
Proof.
  intros nmax cap S t L v HS Ht HL [HE [H1 [H2 [H3 [H4 H5]]]]] Hg. unfold eta_up, upd_min, rescale, iso_pwl, iso_exp, iso_lin.
  cbn [v_E v_el v_etael v_cst v_etacst v_dis v_Bpwl v_npwl v_pei v_Bexp v_nexp v_dif v_Blin v_nlin v_d v_mlin v_gbs v_Bgbs v_ngbs].
  rewrite Hg. assert (HSt : 0 < S * t) by now apply Rmult_lt_0_compat.
  assert (A2 : v_dis v = true -> v_Bpwl v / (S * Rpower t (1 / v_npwl v)) * Rpower (v_E v * t) (1 / v_npwl v - 1) = iso_pwl v / (S * t)).
  { intros b. destruct (H2 b). apply iso_rescale; lra. }
  assert (A4 : v_pei v = true -> v_Bexp v / (S * Rpower t (1 / v_nexp v)) * Rpower (v_E v * t) (1 / v_nexp v - 1) = iso_exp v / (S * t)).
  { intros b. destruct (H4 b). apply iso_rescale; lra. }
  assert (A5 : v_dif v = true -> v_Blin v / (S * Rpower t (1 / v_nlin v)) * Rpower L (v_mlin v / v_nlin v) * Rpower (v_E v * t) (1 / v_nlin v - 1)
      * Rpower (v_d v / L) (v_mlin v / v_nlin v) = iso_lin v / (S * t)).
  { intros b. destruct (H5 b) as [B1 [B2 B3]]. unfold iso_lin.
    transitivity (v_Blin v / (S * Rpower t (1 / v_nlin v)) * Rpower (v_E v * t) (1 / v_nlin v - 1)
      * (Rpower L (v_mlin v / v_nlin v) * Rpower (v_d v / L) (v_mlin v / v_nlin v))); [ring|].
    rewrite iso_rescale, Rpower_mult_distr by (try apply Rdiv_lt_0_compat; lra).
    replace (L * (v_d v / L)) with (v_d v) by (field; lra). field. lra. }
  unfold iso_pwl, iso_exp, iso_lin in *.
  destruct (v_cst v), (v_dis v), (v_el v), (v_pei v), (v_dif v);
    rewrite ?A2, ?A4, ?A5 by reflexivity; rewrite ?minv_div by exact HSt; reflexivity.
Qed.

Definition in_units (S t : R) (r : li_result) : li_result :=
  match r with Exit0 => Exit0 | Ret e x => Ret (e / (S * t)) (x / S) end.

Lemma loop_rescale : forall nmax S t L v, 0 < S -> 0 < t -> 0 < L -> ok nmax v -> terms (lip_of v) <> [] ->
  forall es, 0 < es -> S_ (terms (lip_of v)) es = v_E v -> forall left e, 0 < e -> v_E v <= S_ (terms (lip_of v)) e ->
  li_loop (lip_of (rescale S t L v)) left (e / (S * t)) = in_units S t (li_loop (lip_of v) left e).
Proof.
  intros nmax S t L v HS Ht HL Hok Hne es Hes Ees. pose proof (ok_rescale nmax S t L v HS Ht HL Hok) as Hok'.
  pose proof (rel_terms nmax S t L v HS Ht HL Hok) as F. set (w := rescale S t L v) in *.
  assert (HE : 0 < v_E v) by apply Hok. assert (HE' : 0 < v_E w) by apply Hok'.
  assert (EE : v_E w = v_E v * t) by reflexivity.
  pose proof (terms_good nmax v Hok) as G. pose proof (terms_good nmax w Hok') as G'.
  assert (HSt : 0 < S * t) by now apply Rmult_lt_0_compat.
  assert (Hne' : terms (lip_of w) <> []) by (intros C; rewrite C in F; inversion F as [Q|]; congruence).
  assert (RS : forall e, 0 < e -> resid (lip_of w) (e / (S * t)) / v_E w = resid (lip_of v) e / v_E v).
  { intros e He. assert (0 < e / (S * t)) by now apply Rdiv_lt_0_compat.
    rewrite (resid_S (lip_of w)) by first [exact (lip_no_gbs w)|exact HE'|assumption|exact (ok_cst nmax w Hok')|exact (ok_el nmax w Hok')].
    rewrite (resid_S (lip_of v)) by first [exact (lip_no_gbs v)|exact HE|assumption|exact (ok_cst nmax v Hok)|exact (ok_el nmax v Hok)].
    rewrite (rel_S S t _ _ F e He). cbn [lip_of Eii]. rewrite EE. field. lra. }
  assert (ST : forall e, stress (lip_of w) (e / (S * t)) = stress (lip_of v) e / S).
  { intros e. unfold stress. cbn [lip_of Eii]. rewrite EE. field. lra. }
  assert (NW : forall e, 0 < e -> newton (lip_of w) (e / (S * t)) = newton (lip_of v) e / (S * t)).
  { intros e He. assert (0 < e / (S * t)) by now apply Rdiv_lt_0_compat.
    rewrite (newton_N (lip_of w) (lip_no_gbs w) HE' (ok_cst nmax w Hok') (ok_el nmax w Hok') G' Hne') by assumption.
    rewrite (newton_N (lip_of v) (lip_no_gbs v) HE (ok_cst nmax v Hok) (ok_el nmax v Hok) G Hne) by assumption.
    unfold N_. rewrite (rel_S S t _ _ F e He), (rel_D S t _ _ HS Ht F e He). cbn [lip_of Eii]. rewrite EE.
    pose proof (D_pos _ e G Hne He). field. lra. }
  induction left as [|left IH]; intros e He Hge.
  - cbn [li_loop in_units]. rewrite ST. reflexivity.
  - cbn [li_loop]. cbn zeta. change (Eii (lip_of w)) with (v_E w). change (Eii (lip_of v)) with (v_E v). rewrite RS, NW, ST by exact He.
    destruct (Rltb (Rabs (resid (lip_of v) e / v_E v)) (ve_tol / 100)); [reflexivity|].
    destruct left as [|left]; [destruct (Rltb ve_tol _); reflexivity|].
    rewrite (newton_N (lip_of v) (lip_no_gbs v) HE (ok_cst nmax v Hok) (ok_el nmax v Hok) G Hne) by assumption.
    destruct (newton_bracket _ (v_E v) e es G Hne He Hes Ees Hge) as [B1 B2]. apply IH; [cbn [lip_of Eii]; lra|exact B2].
Qed.

Lemma solve_rescale : forall nmax cap S t L v, 0 < S -> 0 < t -> 0 < L -> ok nmax v -> v_gbs v = false ->
  (exists i, alone v i /\ i <= cap) ->
  ve_viscosity (cap / (S * t)) (rescale S t L v) = in_units S t (ve_viscosity cap v).
Proof.
  intros nmax cap S t L v HS Ht HL Hok Hg Hi. destruct (start_ok nmax cap v Hok Hg Hi) as [S1 [S2 [_ [_ S5]]]].
  unfold ve_viscosity, local_iteration. rewrite (up_rescale nmax) by assumption.
  pose proof (terms_good nmax v Hok) as G.
  destruct (S_root _ (v_E v) _ G ltac:(apply Hok) S1 S2) as [es [[Hes _] Ees]].
  apply (loop_rescale nmax S t L v HS Ht HL Hok S5 es Hes Ees); assumption.
Qed.

(** ** The inputs of the two runs are related by [rescale] *)
Lemma SI_units : pos_units SI.
Proof. constructor; unfold SI, ScaleMe; cbn [s_eta s_L s_V s_T]; try lra. reflexivity. Qed.
Lemma SI_one : s_S SI = 1 /\ s_t SI = 1 /\ s_L SI = 1 /\ s_eta SI = 1 /\ s_E SI = 1 /\ s_T SI = 1.
Proof. unfold SI, ScaleMe. cbn [s_S s_t s_L s_eta s_E s_T]. repeat split; field. Qed.
Lemma floor_id : forall s T, 0 < s_T s -> zeroC <= T -> floor_T s (T / s_T s) = T / s_T s.
Proof.
  intros s T Hs HT. unfold floor_T. destruct (Rlt_dec _ _) as [C|C]; [|reflexivity]. exfalso. revert C. apply Rle_not_lt.
  apply Rmult_le_compat_r; [left; now apply Rinv_0_lt_compat|exact HT].
Qed.
Lemma Rp_one : forall y, Rpower 1 y = 1.
Proof. intros. unfold Rpower. now rewrite ln_1, Rmult_0_r, exp_0. Qed.

Lemma B_units : forall s l F pre T P d phi, pos_units s -> proper l -> 0 < d -> zeroC <= T ->
  Bfull (Slaw (scale_law s l) F) pre (scaled_R s) (floor_T s (T / s_T s)) (P / s_S s) (d / s_L s) phi
  = Bfull (Slaw (scale_law SI l) F) pre (scaled_R SI) (floor_T SI (T / s_T SI)) (P / s_S SI) (d / s_L SI) phi
    / (s_S s * Rpower (s_t s) (1 / l_n l)).
Proof.
  intros s l F pre T P d phi Hs Hl Hd HT. rewrite (scaled_B s), (scaled_B SI) by (try assumption; apply SI_units).
  destruct SI_one as (E1 & E2 & _). rewrite E1, E2, Rp_one. f_equal. field.
Qed.
Lemma Bnod_full : forall p pre Rg T P d phi, Bfull p pre Rg T P d phi = Bnod p pre Rg T P phi * Rpower d (l_m (s_law p) / l_n (s_law p)).
Proof. intros. unfold Bfull, Bnod. ring. Qed.
Lemma Bn_units : forall s l F pre T P d phi, pos_units s -> proper l -> 0 < d -> zeroC <= T ->
  Bnod (Slaw (scale_law s l) F) pre (scaled_R s) (floor_T s (T / s_T s)) (P / s_S s) phi
  = Bnod (Slaw (scale_law SI l) F) pre (scaled_R SI) (floor_T SI (T / s_T SI)) (P / s_S SI) phi
    / (s_S s * Rpower (s_t s) (1 / l_n l)) * Rpower (s_L s) (l_m l / l_n l).
Proof.
  intros s l F pre T P d phi Hs Hl Hd HT. pose proof (B_units s l F pre T P d phi Hs Hl Hd HT) as Q.
  rewrite !Bnod_full in Q. cbn [s_law scale_law l_m l_n] in Q.
  destruct SI_one as (_ & _ & E3 & _). rewrite E3 in Q. replace (d / 1) with d in Q by field.
  destruct (units s Hs) as (Ht & HS & _). pose proof (pu_L s Hs) as HL.
  pose proof (Rp_pos (d / s_L s) (l_m l / l_n l)) as P1. pose proof (Rp_pos (s_t s) (1 / l_n l)) as P2.
  replace (Rpower d (l_m l / l_n l)) with (Rpower (s_L s) (l_m l / l_n l) * Rpower (d / s_L s) (l_m l / l_n l)) in Q.
  2: { rewrite Rpower_mult_distr by (try apply Rdiv_lt_0_compat; assumption). f_equal. field. lra. }
  apply Rmult_eq_reg_r with (Rpower (d / s_L s) (l_m l / l_n l)); [|lra]. rewrite Q. field. lra.
Qed.


Lemma db_exp_proper : forall k p, db_exp k = Some p -> pproper p.
Proof.
  intros k p H. destruct k as [|k|k]; try discriminate. cbn [db_exp] in H. do 6 (try (destruct k as [k|k|]; try discriminate H)); injection H as <-;
    constructor; cbn [p_G p_S p_Q p_E p_n]; lra.
Qed.
Lemma db_exp_n : forall k p T, db_exp k = Some p -> zeroC <= T <= 10000 -> 1 <= p_Q p / (Rgas * T) * (2 * p_G p * (1 - p_G p)) + p_n p.
Proof.
  intros k p T H HT. assert (T0 : 0 < T) by (unfold zeroC in HT; lra). assert (0 < Rgas * T) by (unfold Rgas; lra).
  assert (Q : forall x, 1e5 <= x -> 1.2 <= x / (Rgas * T)).
  { intros x Hx. apply Rmult_le_reg_r with (Rgas * T); [assumption|]. unfold Rdiv. rewrite Rmult_assoc, Rinv_l, Rmult_1_r by lra. unfold Rgas. lra. }
  destruct k as [|k|k]; try discriminate. cbn [db_exp] in H. do 6 (try (destruct k as [k|k|]; try discriminate H)); injection H as <-;
    cbn [p_G p_S p_Q p_E p_n].
  - specialize (Q 431.0e3 ltac:(lra)). nra.
  - assert (Q2 : 6.4 <= 5.4e5 / (Rgas * T)).
    { apply Rmult_le_reg_r with (Rgas * T); [assumption|]. unfold Rdiv. rewrite Rmult_assoc, Rinv_l, Rmult_1_r by lra. unfold Rgas. lra. }
    nra.
Qed.
Lemma exp_units : forall s k p T, db_exp (Z.abs k) = Some p -> pos_units s -> zeroC <= T ->
  exists q, read_exp s k = Some q /\
    let n := p_Q p / (Rgas * T) * (2 * p_G p * (1 - p_G p)) + p_n p in
    ST q (scaled_R s) (floor_T s (T / s_T s)) + p_n q = n /\
    exists b, 0 < b /\ (forall s', s' = s -> Bexp q (scaled_R s) (floor_T s (T / s_T s)) = b / (s_S s' * Rpower (s_t s') (1 / n))) /\
      b = Bexp p Rgas T.
Proof.
  intros s k p T Hk Hs HT. pose proof (db_exp_proper _ _ Hk) as [[G1 G2] HSp HQ HEp Hn].
  destruct (units s Hs) as (Ht & HS & HEs & Heta & HJ). pose proof (pu_T s Hs) as HTs. pose proof (pu_L s Hs) as HL.
  unfold read_exp. rewrite Hk. eexists. split; [reflexivity|]. cbn zeta. rewrite floor_id by assumption.
  assert (HR : 0 < Rgas) by (unfold Rgas; lra). assert (HT0 : 0 < T) by (unfold zeroC in HT; lra).
  assert (HL3 : 0 < s_L s ^ 3) by now apply pow_lt.
  assert (HJ0 : 0 < s_J s) by (rewrite HJ; now apply Rmult_lt_0_compat).
  set (h := p_Q p / (Rgas * T)). assert (H0 : 0 < h) by (apply Rdiv_lt_0_compat; [lra|now apply Rmult_lt_0_compat]).
  assert (QRT : p_Q p / s_J s / scaled_R s / (T / s_T s) = h) by (unfold h, scaled_R; field; lra).
  assert (QRT0 : p_Q p / Rgas / T = h) by (unfold h; field; lra).
  unfold ST. cbn [p_t p_G p_S p_Q p_E p_n]. rewrite QRT. split; [ring|].
  eexists. split; [|split; [|reflexivity]].
  { unfold Bexp. cbn zeta. apply Rmult_lt_0_compat; [apply Rp_pos|apply Rdiv_lt_0_compat; apply Rp_pos]. }
  intros s' ->. unfold Bexp, ST. cbn zeta. cbn [p_t p_G p_S p_Q p_E p_n]. rewrite QRT, QRT0.
  replace (- (p_Q p / s_J s) / scaled_R s / (T / s_T s)) with (- h) by (rewrite <- QRT; unfold Rdiv; ring).
  replace (- p_Q p / Rgas / T) with (- h) by (rewrite <- QRT0; unfold Rdiv; ring).
  set (arr := exp (- h * (1 - p_G p) ^ 2)). assert (A0 : 0 < arr) by apply exp_pos. clearbody arr.
  replace (h * (2 * p_G p * (1 - p_G p))) with (h * 2 * p_G p * (1 - p_G p)) by ring.
  clearbody h. set (st := h * 2 * p_G p * (1 - p_G p)). assert (S0 : 0 < st) by (unfold st; repeat apply Rmult_lt_0_compat; lra). clearbody st.
  set (n := st + p_n p). assert (N0 : 0 < n) by (unfold n; lra).
  assert (SE0 : 0 < s_E s) by (rewrite HEs; now apply Rinv_0_lt_compat).
  assert (LEs : ln (s_E s) = - ln (s_t s)) by (rewrite HEs; now apply ln_Rinv).
  set (c := Rpower (Rpower 2 (1 - st - p_n p) / Rpower (sqrt 3) (n + 1)) (1 / n)). assert (C0 : 0 < c) by apply Rp_pos. clearbody c.
  assert (K : Rpower (p_G p * (p_S p / s_S s)) (st / n) / Rpower (p_E p / (s_E s * Rpower (s_S s) (- p_n p)) * arr) (1 / n)
    = Rpower (p_G p * p_S p) (st / n) / Rpower (p_E p * arr) (1 / n) / (s_S s * Rpower (s_t s) (1 / n))).
  { apply ln_inv; [apply Rdiv_lt_0_compat; apply Rp_pos|apply Rdiv_lt_0_compat; [apply Rdiv_lt_0_compat; apply Rp_pos|apply Rmult_lt_0_compat; [assumption|apply Rp_pos]]|].
    assert (P1 : 0 < s_S s * Rpower (s_t s) (1 / n)) by (apply Rmult_lt_0_compat; [assumption|apply Rp_pos]).
    assert (P2 : 0 < s_E s * Rpower (s_S s) (- p_n p)) by (apply Rmult_lt_0_compat; [assumption|apply Rp_pos]).
    rewrite (ln_div (Rpower (p_G p * p_S p) (st / n) / Rpower (p_E p * arr) (1 / n))) by (try exact P1; apply Rdiv_lt_0_compat; apply Rp_pos).
    rewrite !(ln_div (Rpower _ _)), !ln_Rp by apply Rp_pos.
    rewrite (ln_mult (s_S s)), ln_Rp by (try assumption; apply Rp_pos).
    rewrite (ln_mult (p_E p / _)) by (try assumption; apply Rdiv_lt_0_compat; assumption).
    rewrite (ln_div (p_E p)) by assumption. rewrite (ln_mult (s_E s)), ln_Rp, LEs by (try assumption; apply Rp_pos).
    assert (P3 : 0 < p_S p / s_S s) by now apply Rdiv_lt_0_compat.
    rewrite !ln_mult, (ln_div (p_S p)) by assumption. unfold n. field. unfold n in N0. lra. }
  rewrite K. unfold Rdiv. ring.
Qed.

(** The inputs in units [s] are those of the SI run, rescaled; only the enabled mechanisms matter. *)
Lemma read_law_eq : forall s l k, exists F, 0 < F /\ (corr_num k (l_t l) (l_n l) <> None ->
  finish_law s k l = Some (Slaw (scale_law s l) F) /\ finish_law SI k l = Some (Slaw (scale_law SI l) F)).
Proof.
  intros s l k. unfold finish_law. destruct (corr_num k (l_t l) (l_n l)) as [F|] eqn:E.
  - exists F. split; [exact (corr_pos _ _ _ _ E)|]. intros _. split; reflexivity.
  - exists 1. split; [lra|]. congruence.
Qed.
Lemma proper_corr : forall l k, proper l -> corr_num k (l_t l) (l_n l) <> None.
Proof.
  intros l k (_ & _ & _ & H). unfold corr_num, corr. destruct (Z.ltb k 0); [discriminate|].
  destruct H as [H|[H|H]]; rewrite H; discriminate.
Qed.

Lemma vin_units : forall s m, pos_units s -> meaningful m ->
  vin_at s m = rescale (s_S s) (s_t s) (s_L s) (vin_at SI m).
Proof.
  intros s m Hs (HE & [HT _] & Hd & Hpre & Hel & Hcst & Hpwl & Hlin & Hexp & _).
  destruct (units s Hs) as (Ht & HS & HEs & Heta & HJ). pose proof (pu_L s Hs) as HL.
  destruct SI_one as (E1 & E2 & E3 & E4 & E5 & E6).
  assert (P0 : forall n, 0 < Rpower (s_t s) (1 / n)) by (intros; apply Rp_pos).
  unfold vin_at, rescale. cbn [v_E v_el v_etael v_cst v_etacst v_dis v_Bpwl v_npwl v_pei v_Bexp v_nexp v_dif v_Blin v_nlin v_d v_mlin v_gbs v_Bgbs v_ngbs].
  assert (A1 : x_E m / s_E s = x_E m / s_E SI * s_t s) by (rewrite HEs, E5; field; lra).
  assert (A2 : forall x, x / s_eta s = x / s_eta SI / (s_S s * s_t s)) by (intros; rewrite Heta, E4; field; lra).
  assert (A3 : x_d m / s_L s = x_d m / s_L SI / s_L s) by (rewrite E3; field; lra).
  assert (A4 : fst (in_pwl s m) = fst (in_pwl SI m) / (s_S s * Rpower (s_t s) (1 / snd (in_pwl SI m))) /\ snd (in_pwl s m) = snd (in_pwl SI m)).
  { unfold in_pwl. destruct (x_pwl m) as [[l k]|]; [|cbn [fst snd]; split; [unfold Rdiv; ring|reflexivity]].
    destruct (Hpwl l k eq_refl) as [Hl Hn]. destruct (read_law_eq s l k) as [F [F0 HF]].
    destruct (HF (proper_corr l k Hl)) as [F1 F2]. rewrite F1, F2. cbn [fst snd]. split; [|reflexivity].
    cbn [s_law scale_law l_n]. now apply B_units. }
  assert (A5 : fst (in_exp s m) = fst (in_exp SI m) / (s_S s * Rpower (s_t s) (1 / snd (in_exp SI m))) /\ snd (in_exp s m) = snd (in_exp SI m)).
  { unfold in_exp. destruct (x_exp m) as [k|]; [|cbn [fst snd]; split; [unfold Rdiv; ring|reflexivity]].
    destruct (Hexp k eq_refl) as [p Hp].
    destruct (exp_units s k p (x_T m) Hp Hs HT) as (q & R1 & N1 & b1 & _ & B1 & C1).
    destruct (exp_units SI k p (x_T m) Hp SI_units HT) as (q' & R2 & N2 & b2 & _ & B2 & C2).
    rewrite R1, R2. cbn [fst snd]. rewrite N1, N2, (B1 s eq_refl), (B2 SI eq_refl), C1, C2, E1, E2, Rp_one. split; [|reflexivity].
    pose proof (P0 (p_Q p / (Rgas * x_T m) * (2 * p_G p * (1 - p_G p)) + p_n p)). field. split; lra. }
  assert (A6 : fst (fst (in_lin s m)) = fst (fst (in_lin SI m)) / (s_S s * Rpower (s_t s) (1 / snd (fst (in_lin SI m)))) * Rpower (s_L s) (snd (in_lin SI m) / snd (fst (in_lin SI m)))
     /\ snd (fst (in_lin s m)) = snd (fst (in_lin SI m)) /\ snd (in_lin s m) = snd (in_lin SI m)).
  { unfold in_lin. destruct (x_lin m) as [[l k]|]; [|cbn [fst snd]; split; [unfold Rdiv; ring|split; reflexivity]].
    destruct (Hlin l k eq_refl) as [Hl Hn]. destruct (read_law_eq s l k) as [F [F0 HF]].
    destruct (HF (proper_corr l k Hl)) as [F1 F2]. rewrite F1, F2. cbn [fst snd]. split; [|split; reflexivity].
    cbn [s_law scale_law l_n l_m]. now apply Bn_units with (d := x_d m). }
  destruct A4 as [A4 A4']. destruct A5 as [A5 A5']. destruct A6 as [A6 [A6' A6'']].
  rewrite <- A1, <- !A2, <- A3, <- A4, <- A5, <- A6, <- A4', <- A5', <- A6', <- A6''. reflexivity.
Qed.

Lemma vin_ok : forall m, meaningful m -> exists nmax, ok nmax (vin_at SI m).
Proof.
  intros m (HE & [HT HT'] & Hd & Hpre & Hel & Hcst & Hpwl & Hlin & Hexp & _).
  destruct SI_one as (E1 & E2 & E3 & E4 & E5 & E6).
  set (v := vin_at SI m). exists (Rmax (v_npwl v) (Rmax (v_nexp v) (v_nlin v))).
  assert (M1 : v_npwl v <= Rmax (v_npwl v) (Rmax (v_nexp v) (v_nlin v))) by apply Rmax_l.
  assert (M2 : v_nexp v <= Rmax (v_npwl v) (Rmax (v_nexp v) (v_nlin v))) by (eapply Rle_trans; [apply Rmax_l|apply Rmax_r]).
  assert (M3 : v_nlin v <= Rmax (v_npwl v) (Rmax (v_nexp v) (v_nlin v))) by (eapply Rle_trans; [apply Rmax_r|apply Rmax_r]).
  unfold ok. set (mx := Rmax (v_npwl v) (Rmax (v_nexp v) (v_nlin v))) in *. clearbody mx.
  subst v. unfold vin_at in *. cbn [v_E v_el v_etael v_cst v_etacst v_dis v_Bpwl v_npwl v_pei v_Bexp v_nexp v_dif v_Blin v_nlin v_d v_mlin v_gbs v_Bgbs v_ngbs] in *.
  rewrite E3, E4, E5 in *. split; [lra|]. split; [|split; [|split; [|split]]].
  - intros b. destruct (x_cst m) as [x|]; [|discriminate]. specialize (Hcst x eq_refl). cbn [get]. lra.
  - unfold in_pwl in *. destruct (x_pwl m) as [[l k]|]; [intros _|discriminate].
    destruct (Hpwl l k eq_refl) as [Hl Hn]. destruct (read_law_eq SI l k) as [F [F0 HF]].
    destruct (HF (proper_corr l k Hl)) as [F1 _]. rewrite F1 in *. cbn [fst snd] in *. cbn [s_law scale_law l_n] in *. split; [|lra].
    unfold Bfull. repeat apply Rmult_lt_0_compat; try apply Rp_pos; try apply exp_pos; assumption.
  - intros b. destruct (x_el m) as [x|]; [|discriminate]. specialize (Hel x eq_refl). cbn [get]. lra.
  - unfold in_exp in *. destruct (x_exp m) as [k|]; [intros _|discriminate].
    destruct (Hexp k eq_refl) as [p Hp].
    destruct (exp_units SI k p (x_T m) Hp SI_units HT) as (q & R1 & N1 & b1 & B0 & B1 & C1).
    rewrite R1 in *. cbn [fst snd] in *. rewrite N1 in *. rewrite (B1 SI eq_refl), E1, E2, Rp_one. split; [lra|].
    pose proof (db_exp_n _ _ (x_T m) Hp (conj HT HT')). lra.
  - unfold in_lin in *. destruct (x_lin m) as [[l k]|]; [intros _|discriminate].
    destruct (Hlin l k eq_refl) as [Hl Hn]. destruct (read_law_eq SI l k) as [F [F0 HF]].
    destruct (HF (proper_corr l k Hl)) as [F1 _]. rewrite F1 in *. cbn [fst snd] in *. cbn [s_law scale_law l_n] in *. split; [|lra].
    unfold Bnod. cbn [s_F]. repeat apply Rmult_lt_0_compat; try apply Rp_pos; try apply exp_pos; lra.
Qed.

(** ** C67: the run reports the same viscosity in Pa s and the same stress in Pa in every system of units, and
    takes its failure exit in all of them or in none. *)
Theorem C67_units_irrelevant : forall s s' m, pos_units s -> pos_units s' -> meaningful m ->
  (exists i, alone (vin_at SI m) i /\ i <= 10 ^ 100) ->
  physical s (ve_viscosity (cap_at s) (vin_at s m)) = physical s' (ve_viscosity (cap_at s') (vin_at s' m)).
Proof.
  assert (H : forall s m, pos_units s -> meaningful m -> (exists i, alone (vin_at SI m) i /\ i <= 10 ^ 100) ->
    physical s (ve_viscosity (cap_at s) (vin_at s m)) = physical SI (ve_viscosity (10 ^ 100) (vin_at SI m))).
  { intros s m Hs Hm Hi. destruct (vin_ok m Hm) as [nmax Hok]. rewrite vin_units by assumption.
    destruct (units s Hs) as (Ht & HS & HEs & Heta & HJ). pose proof (pu_L s Hs) as HL.
    unfold cap_at. rewrite Heta. rewrite (solve_rescale nmax) by first [assumption|reflexivity].
    destruct (ve_viscosity (10 ^ 100) (vin_at SI m)) as [|e t]; [reflexivity|]. cbn [physical in_units].
    destruct SI_one as (E1 & E2 & E3 & E4 & E5 & E6). rewrite E1, E4, Heta. do 2 f_equal; field; lra. }
  intros s s' m Hs Hs' Hm Hi. rewrite (H s), (H s') by assumption. reflexivity.
Qed.
Print Assumptions C67_units_irrelevant.

(** Dry olivine with dislocation, diffusion and Peierls creep and elasticity at 1000 K, 1 GPa. *)
Definition olivine : point :=
  match db_pwl 40, db_lin 40 with
  | Some l, Some k => Point 1e-14 1000 1e9 2e-3 0 1 (Some 1e21) None (Some (l, 40%Z)) (Some 40%Z) (Some (k, 40%Z))
  | _, _ => Point 0 0 0 0 0 0 None None None None None
  end.
Example C67_ex : pos_units litho /\ pos_units SI /\ meaningful olivine /\ (exists i, alone (vin_at SI olivine) i /\ i <= 10 ^ 100) /\
  x_pwl olivine <> None /\ x_lin olivine <> None.
Proof.
  split; [apply C65_ex|]. split; [apply SI_units|]. unfold olivine. cbn [db_pwl db_lin].
  split; [|split; [|split; discriminate]].
  - unfold meaningful. cbn [x_E x_T x_P x_d x_phi x_pre x_el x_cst x_pwl x_exp x_lin].
    split; [lra|]. split; [unfold zeroC; lra|]. split; [lra|]. split; [lra|].
    split; [intros x H; injection H as <-; lra|]. split; [discriminate|].
    split; [|split].
    + intros l k H. injection H as <- <-. unfold proper. cbn [l_t l_n l_A l_f l_r]. repeat split; try lra; auto.
    + intros l k H. injection H as <- <-. unfold proper. cbn [l_t l_n l_A l_f l_r]. repeat split; try lra; auto.
    + split; [|left; discriminate]. intros k H. injection H as <-. eexists. reflexivity.
  - exists (1e21 / s_eta SI). split; [now apply al_el|]. destruct SI_one as (_ & _ & _ & E4 & _). rewrite E4.
    replace (10 ^ 100) with (10 ^ 22 * 10 ^ 78) by (rewrite <- pow_add; reflexivity).
    assert (1 <= 10 ^ 78) by (apply pow_R1_Rle; lra). assert (1e21 <= 10 ^ 22) by lra. nra.
Qed.
