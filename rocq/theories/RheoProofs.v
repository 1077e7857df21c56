(** * Proofs about the local viscoelastic iteration *)
From Coq Require Import Reals List Bool Lra Lia Psatz FunctionalExtensionality.
From Verif Require Import RheoModel.
Import ListNotations.
Local Open Scope R_scope.

Lemma Rltb_true : forall a b, Rltb a b = true <-> a < b.
Proof. intros a b. unfold Rltb. destruct (Rlt_dec a b); split; intros; try easy; lra. Qed.
Lemma Rltb_false : forall a b, Rltb a b = false <-> b <= a.
Proof. intros a b. unfold Rltb. destruct (Rlt_dec a b); split; intros; try easy; lra. Qed.

(** ** Power functions *)
Lemma Rpower_pos : forall x y, 0 < Rpower x y.
Proof. intros. unfold Rpower. apply exp_pos. Qed.

Lemma Rpower_div : forall x y n, 0 < x -> 0 < y -> Rpower (y / x) n = Rpower y n / Rpower x n.
Proof.
  intros x y n Hx Hy. unfold Rdiv. rewrite <- Rpower_mult_distr; [|lra|apply Rinv_0_lt_compat; lra].
  f_equal. unfold Rpower. rewrite ln_Rinv by lra. rewrite <- exp_Ropp. f_equal. ring.
Qed.

Lemma ln_tangent : forall a b, 0 < a -> 0 < b -> ln a <= ln b + (a / b - 1).
Proof.
  intros a b Ha Hb. assert (Hq : 0 < a / b) by (apply Rdiv_lt_0_compat; lra).
  assert (E : ln a = ln (a / b) + ln b).
  { rewrite <- ln_mult by lra. f_equal. field. lra. }
  pose proof (exp_ineq1_le (ln (a / b))) as H. rewrite exp_ln in H by lra. lra.
Qed.

(** Bernoulli for real exponents. *)
Lemma bernoulli : forall z n, 0 < z -> 1 <= n -> 1 + n * (z - 1) <= Rpower z n.
Proof.
  intros z n Hz Hn. destruct (Rle_dec (1 + n * (z - 1)) 0) as [H|H].
  - pose proof (Rpower_pos z n). lra.
  - set (w := 1 + n * (z - 1)) in *.
    assert (Hw : 0 < w) by lra.
    pose proof (ln_tangent w z Hw Hz) as H1. pose proof (ln_tangent 1 z Rlt_0_1 Hz) as H2.
    rewrite ln_1 in H2.
    assert (E : w / z - 1 + (n - 1) * (1 / z - 1) = 0) by (unfold w; field; lra).
    assert (Hle : ln w <= n * ln z).
    { assert ((n - 1) * 0 <= (n - 1) * (ln z + (1 / z - 1))) by (apply Rmult_le_compat_l; lra). lra. }
    unfold Rpower. rewrite <- (exp_ln w) by exact Hw.
    destruct Hle as [Hl|Hl]; [left; apply exp_increasing; exact Hl | right; now rewrite Hl].
Qed.

(** ** Sums of power terms [c * e^n] *)
Definition term := (R * R)%type.
Definition S_ (l : list term) (e : R) : R := fold_right (fun cn a => fst cn * Rpower e (snd cn) + a) 0 l.
Definition D_ (l : list term) (e : R) : R :=
  fold_right (fun cn a => fst cn * snd cn * Rpower e (snd cn) / e + a) 0 l.
Definition good (l : list term) : Prop := Forall (fun cn => 0 < fst cn /\ 1 <= snd cn) l.

Lemma S_cons : forall c n l e, S_ ((c, n) :: l) e = c * Rpower e n + S_ l e.
Proof. reflexivity. Qed.
Lemma D_cons : forall c n l e, D_ ((c, n) :: l) e = c * n * Rpower e n / e + D_ l e.
Proof. reflexivity. Qed.

Lemma S_nonneg : forall l e, good l -> 0 <= S_ l e.
Proof.
  induction l as [|[c n] l IH]; intros e H; [cbn; lra|]. inversion H; subst. cbn [fst snd] in *.
  rewrite S_cons. specialize (IH e H3). pose proof (Rpower_pos e n).
  assert (0 < c * Rpower e n) by (apply Rmult_lt_0_compat; lra). lra.
Qed.
Lemma S_pos : forall l e, good l -> l <> [] -> 0 < S_ l e.
Proof.
  intros [|[c n] l] e H Hn; [easy|]. inversion H; subst. cbn [fst snd] in *. rewrite S_cons.
  pose proof (S_nonneg l e H3). pose proof (Rpower_pos e n).
  assert (0 < c * Rpower e n) by (apply Rmult_lt_0_compat; lra). lra.
Qed.
Lemma D_ge_S : forall l e, good l -> 0 < e -> S_ l e / e <= D_ l e.
Proof.
  induction l as [|[c n] l IH]; intros e H He; [cbn; unfold Rdiv; lra|]. inversion H; subst. cbn [fst snd] in *.
  rewrite S_cons, D_cons. specialize (IH e H3 He). pose proof (Rpower_pos e n).
  assert (0 < c * Rpower e n) by (apply Rmult_lt_0_compat; lra).
  assert (c * Rpower e n / e <= c * n * Rpower e n / e).
  { apply Rmult_le_compat_r; [left; apply Rinv_0_lt_compat; lra|]. nra. }
  unfold Rdiv in *. lra.
Qed.
Lemma D_pos : forall l e, good l -> l <> [] -> 0 < e -> 0 < D_ l e.
Proof.
  intros l e H Hn He. pose proof (D_ge_S l e H He). pose proof (S_pos l e H Hn).
  assert (0 < S_ l e / e) by (apply Rdiv_lt_0_compat; lra). lra.
Qed.

(** Convexity: the tangent is below. *)
Lemma S_tangent : forall l x y, good l -> 0 < x -> 0 < y -> S_ l x + D_ l x * (y - x) <= S_ l y.
Proof.
  induction l as [|[c n] l IH]; intros x y H Hx Hy; [cbn; lra|]. inversion H; subst. cbn [fst snd] in *.
  rewrite !S_cons, D_cons. specialize (IH x y H3 Hx Hy).
  assert (Hz : 0 < y / x) by (apply Rdiv_lt_0_compat; lra).
  pose proof (bernoulli (y / x) n Hz ltac:(lra)) as B. rewrite Rpower_div in B by lra.
  pose proof (Rpower_pos x n) as Px.
  assert (B' : Rpower x n * (1 + n * (y / x - 1)) <= Rpower y n).
  { apply Rmult_le_compat_l with (r := Rpower x n) in B; [|lra].
    replace (Rpower x n * (Rpower y n / Rpower x n)) with (Rpower y n) in B by (field; lra). exact B. }
  apply Rmult_le_compat_l with (r := c) in B'; [|lra].
  replace (c * (Rpower x n * (1 + n * (y / x - 1)))) with
    (c * Rpower x n + c * n * Rpower x n / x * (y - x)) in B' by (field; lra). lra.
Qed.

(** Growth at least proportional. *)
Lemma S_superlinear : forall l x y, good l -> 0 < x -> x <= y -> y / x * S_ l x <= S_ l y.
Proof.
  induction l as [|[c n] l IH]; intros x y H Hx Hy; [cbn; lra|]. inversion H; subst. cbn [fst snd] in *.
  rewrite !S_cons. specialize (IH x y H3 Hx Hy).
  assert (Hz : 1 <= y / x).
  { apply Rmult_le_reg_r with x; [lra|]. unfold Rdiv. rewrite Rmult_assoc, Rinv_l, Rmult_1_r by lra. lra. }
  pose proof (bernoulli (y / x) n ltac:(lra) ltac:(lra)) as B.
  assert (B2 : y / x <= Rpower (y / x) n).
  { assert ((1 - 1) * 0 <= (n - 1) * (y / x - 1)) by (apply Rmult_le_compat; lra). lra. }
  rewrite Rpower_div in B2 by lra. pose proof (Rpower_pos x n) as Px.
  apply Rmult_le_compat_r with (r := Rpower x n) in B2; [|lra].
  replace (Rpower y n / Rpower x n * Rpower x n) with (Rpower y n) in B2 by (field; lra).
  apply Rmult_le_compat_l with (r := c) in B2; [|lra]. nra.
Qed.

Lemma S_unique : forall l x y E, good l -> 0 < E -> 0 < x -> 0 < y -> S_ l x = E -> S_ l y = E -> x = y.
Proof.
  intros l x y E G HE Hx Hy Ex Ey.
  assert (A : forall a b, 0 < a -> a < b -> S_ l a = E -> S_ l b = E -> False).
  { intros a b Ha Hab Ea Eb. pose proof (S_superlinear l a b G Ha ltac:(lra)) as H.
    rewrite Ea, Eb in H. assert (1 < b / a).
    { apply Rmult_lt_reg_r with a; [lra|]. unfold Rdiv. rewrite Rmult_assoc, Rinv_l, Rmult_1_r by lra. lra. }
    assert (1 * E < b / a * E) by (apply Rmult_lt_compat_r; lra). lra. }
  destruct (Rtotal_order x y) as [H|[H|H]]; [|exact H|]; exfalso; [apply (A x y)|apply (A y x)]; assumption.
Qed.

Lemma S_exp_cont : forall l, continuity (fun t => S_ l (exp t)).
Proof.
  induction l as [|[c n] l IH].
  - cbn. apply continuity_const. easy.
  - apply (continuity_plus (fun t => c * Rpower (exp t) n) (fun t => S_ l (exp t))); [|exact IH].
    apply (continuity_mult (fun _ => c)); [apply continuity_const; easy|].
    replace (fun t => Rpower (exp t) n) with (comp exp (fun t => n * t)).
    + apply continuity_comp; [|apply derivable_continuous, derivable_exp].
      apply derivable_continuous. apply derivable_mult; [apply derivable_const|apply derivable_id].
    + apply functional_extensionality. intros t. unfold comp, Rpower. now rewrite ln_exp.
Qed.

Lemma S_root : forall l E up, good l -> 0 < E -> 0 < up -> E <= S_ l up -> exists e, 0 < e <= up /\ S_ l e = E.
Proof.
  intros l E up G HE Hup Hs.
  set (lo := E / S_ l up * up).
  assert (HS : 0 < S_ l up) by lra.
  assert (Hlo : 0 < lo) by (unfold lo; apply Rmult_lt_0_compat; [apply Rdiv_lt_0_compat; lra|lra]).
  assert (Hlu : lo <= up).
  { unfold lo. assert (E / S_ l up <= 1).
    { apply Rmult_le_reg_r with (S_ l up); [lra|]. unfold Rdiv. rewrite Rmult_assoc, Rinv_l by lra. lra. }
    nra. }
  assert (Hsl : S_ l lo <= E).
  { pose proof (S_superlinear l lo up G Hlo Hlu) as H.
    replace (up / lo) with (S_ l up / E) in H by (unfold lo; field; lra).
    apply Rmult_le_reg_l with (S_ l up / E); [apply Rdiv_lt_0_compat; lra|].
    replace (S_ l up / E * E) with (S_ l up) by (field; lra). exact H. }
  destruct (Req_dec (S_ l lo) E) as [H1|H1]; [exists lo; split; [lra|exact H1]|].
  destruct (Req_dec (S_ l up) E) as [H2|H2]; [exists up; split; [lra|exact H2]|].
  assert (Hlt : ln lo < ln up).
  { apply ln_increasing; [lra|]. destruct (Rle_lt_or_eq_dec lo up Hlu) as [h|h]; [exact h|].
    rewrite h in Hsl. lra. }
  destruct (IVT (fun t => S_ l (exp t) - E) (ln lo) (ln up)) as [t [Ht1 Ht2]].
  - apply (continuity_minus (fun t => S_ l (exp t)) (fun _ => E)); [apply S_exp_cont|apply continuity_const; easy].
  - exact Hlt.
  - rewrite exp_ln by lra. lra.
  - rewrite exp_ln by lra. lra.
  - exists (exp t). split; [split; [apply exp_pos|]|lra].
    rewrite <- (exp_ln up) by lra. destruct (Rle_lt_or_eq_dec t (ln up) ltac:(lra)) as [h|h].
    + left. now apply exp_increasing.
    + right. now rewrite h.
Qed.

(** ** Newton steps *)
Definition N_ (l : list term) (E e : R) : R := e + (E - S_ l e) / D_ l e.

Lemma newton_bracket : forall l E e es, good l -> l <> [] -> 0 < e -> 0 < es -> S_ l es = E -> E <= S_ l e ->
  es <= N_ l E e <= e /\ E <= S_ l (N_ l E e).
Proof.
  intros l E e es G Hl He Hes Es Hge. pose proof (D_pos l e G Hl He) as HD.
  assert (H1 : es <= N_ l E e).
  { pose proof (S_tangent l e es G He Hes) as T. unfold N_.
    apply Rmult_le_reg_l with (D_ l e); [exact HD|].
    replace (D_ l e * (e + (E - S_ l e) / D_ l e)) with (D_ l e * e + (E - S_ l e)) by (field; lra). nra. }
  split; [split; [exact H1|]|].
  - unfold N_. assert (0 <= (S_ l e - E) / D_ l e) by (apply Rmult_le_pos; [lra|left; now apply Rinv_0_lt_compat]).
    unfold Rdiv in *. lra.
  - pose proof (S_tangent l e (N_ l E e) G He ltac:(lra)) as T.
    replace (D_ l e * (N_ l E e - e)) with (E - S_ l e) in T by (unfold N_; field; lra). lra.
Qed.

(** ** Speed of convergence for exponents up to 8 *)
Lemma pow_quad : forall u n, 0 <= u < 1 -> 1 <= n <= 8 -> Rpower (1 - u) n <= 1 - n * u + 4 * (n - 1) * (u * u).
Proof.
  intros u n Hu Hn.
  (* log-convexity in the exponent: bracket n between consecutive integers, for which the bound is polynomial *)
  assert (Hconv : forall a b t, 0 <= t <= 1 -> Rpower (1 - u) ((1 - t) * a + t * b)
                    <= (1 - t) * Rpower (1 - u) a + t * Rpower (1 - u) b).
  { intros a b t Ht. set (A := Rpower (1 - u) a). set (B := Rpower (1 - u) b). set (C := Rpower (1 - u) ((1 - t) * a + t * b)).
    assert (HA : 0 < A) by apply Rpower_pos. assert (HB : 0 < B) by apply Rpower_pos. assert (HC : 0 < C) by apply Rpower_pos.
    assert (LC : ln C = (1 - t) * ln A + t * ln B).
    { unfold A, B, C, Rpower. rewrite !ln_exp. ring. }
    set (M := (1 - t) * A + t * B). assert (HM : 0 < M) by (unfold M; nra).
    assert (ln C <= ln M).
    { pose proof (ln_tangent A M HA HM) as TA. pose proof (ln_tangent B M HB HM) as TB.
      assert ((1 - t) * (A / M - 1) + t * (B / M - 1) = 0) by (unfold M; field; fold M; lra). nra. }
    rewrite <- (exp_ln C), <- (exp_ln M) by assumption.
    destruct H as [h|h]; [left; now apply exp_increasing|right; now rewrite h]. }
  assert (Hint : forall k, (1 <= k <= 8)%nat -> Rpower (1 - u) (INR k) <= 1 - INR k * u + 4 * (INR k - 1) * (u * u)).
  { intros k Hk. rewrite Rpower_pow by lra.
    assert (Hc : (k = 1 \/ k = 2 \/ k = 3 \/ k = 4 \/ k = 5 \/ k = 6 \/ k = 7 \/ k = 8)%nat) by lia.
    assert (P : forall m, 0 <= (1 - u) ^ m) by (intros; apply pow_le; lra).
    (* (1-u)^k <= 1 - k u + k(k-1)/2 u^2 by induction on k *)
    assert (Q : forall m, (1 - u) ^ m <= 1 - INR m * u + INR m * (INR m - 1) / 2 * (u * u)).
    { induction m as [|m IH]; [cbn; lra|]. rewrite S_INR. cbn [pow].
      assert (0 <= INR m) by apply pos_INR.
      apply Rle_trans with ((1 - u) * (1 - INR m * u + INR m * (INR m - 1) / 2 * (u * u))); [apply Rmult_le_compat_l; lra|].
      destruct m as [|m]; [cbn; nra|]. rewrite S_INR in *. assert (0 <= INR m) by apply pos_INR.
      assert (0 <= (INR m + 1) * INR m * (u * u * u)) by (repeat apply Rmult_le_pos; lra). nra. }
    specialize (Q k). eapply Rle_trans; [exact Q|].
    assert (INR k <= 8) by (change 8 with (INR 8) || (replace 8 with (INR 8) by (cbn; ring)); apply le_INR; lia).
    assert (1 <= INR k) by (replace 1 with (INR 1) by reflexivity; apply le_INR; lia).
    assert (INR k * (INR k - 1) / 2 * (u * u) <= 4 * (INR k - 1) * (u * u)).
    { apply Rmult_le_compat_r; [nra|]. nra. }
    lra. }
  assert (Hk : exists k, (1 <= k < 8)%nat /\ INR k <= n <= INR (S k)).
  { destruct (Rle_dec n 2); [exists 1%nat|].
    - split; [lia|cbn; lra].
    - destruct (Rle_dec n 3); [exists 2%nat; split; [lia|cbn; lra]|].
      destruct (Rle_dec n 4); [exists 3%nat; split; [lia|cbn; lra]|].
      destruct (Rle_dec n 5); [exists 4%nat; split; [lia|cbn; lra]|].
      destruct (Rle_dec n 6); [exists 5%nat; split; [lia|cbn; lra]|].
      destruct (Rle_dec n 7); [exists 6%nat; split; [lia|cbn; lra]|].
      exists 7%nat; split; [lia|cbn; lra]. }
  destruct Hk as [k [Hk Hn2]]. rewrite S_INR in Hn2.
  pose proof (Hconv (INR k) (INR (S k)) (n - INR k) ltac:(lra)) as C.
  rewrite S_INR in C at 1.
  replace ((1 - (n - INR k)) * INR k + (n - INR k) * (INR k + 1)) with n in C by ring.
  pose proof (Hint k ltac:(lia)) as I1. pose proof (Hint (S k) ltac:(lia)) as I2. rewrite S_INR in I2 at 2 3.
  eapply Rle_trans; [exact C|].
  apply Rle_trans with ((1 - (n - INR k)) * (1 - INR k * u + 4 * (INR k - 1) * (u * u)) + (n - INR k) * (1 - (INR k + 1) * u + 4 * (INR k + 1 - 1) * (u * u))).
  - apply Rplus_le_compat; apply Rmult_le_compat_l; lra.
  - right. ring.
Qed.

Definition good8 (l : list term) : Prop := Forall (fun cn => 0 < fst cn /\ 1 <= snd cn <= 8) l.
Lemma good8_good : forall l, good8 l -> good l.
Proof. intros l H. eapply Forall_impl; [|exact H]. cbn. intros a h. lra. Qed.

Lemma S_shrink : forall l e u, good8 l -> 0 < e -> 0 <= u < 1 ->
  S_ l (e * (1 - u)) <= S_ l e - u * (e * D_ l e) + 4 * (u * u) * (e * D_ l e - S_ l e).
Proof.
  induction l as [|[c n] l IH]; intros e u H He Hu; [cbn; lra|]. inversion H; subst. cbn [fst snd] in *.
  rewrite !S_cons, D_cons. specialize (IH e u H3 He Hu).
  rewrite <- Rpower_mult_distr by lra.
  pose proof (pow_quad u n Hu ltac:(lra)) as Q. pose proof (Rpower_pos e n) as Pe.
  apply Rmult_le_compat_l with (r := c * Rpower e n) in Q; [|nra].
  replace (e * (c * n * Rpower e n / e + D_ l e)) with (c * n * Rpower e n + e * D_ l e) by (field; lra).
  nra.
Qed.

(** One step: with [x = S/E - 1] the next one is at most [x^2/(1+x)]. *)
Lemma newton_fast : forall l E e es, good8 l -> l <> [] -> 0 < E -> 0 < e -> 0 < es -> S_ l es = E -> E <= S_ l e ->
  (S_ l (N_ l E e) - E) * S_ l e <= (S_ l e - E) * (S_ l e - E).
Proof.
  intros l E e es G8 Hl HE He Hes Es Hge. pose proof (good8_good l G8) as G.
  pose proof (D_pos l e G Hl He) as HD. pose proof (D_ge_S l e G He) as HDS.
  destruct (newton_bracket l E e es G Hl He Hes Es Hge) as [[B1 B2] B3].
  set (s := S_ l e) in *. set (N := e * D_ l e). set (u := (s - E) / N).
  assert (HN : 0 < N) by (unfold N; apply Rmult_lt_0_compat; lra).
  assert (HsN : s <= N).
  { unfold N. apply Rmult_le_compat_l with (r := e) in HDS; [|lra].
    replace (e * (s / e)) with s in HDS by (field; lra). exact HDS. }
  assert (Hu : 0 <= u < 1).
  { unfold u. split; [apply Rmult_le_pos; [lra|left; now apply Rinv_0_lt_compat]|].
    apply Rmult_lt_reg_r with N; [lra|]. unfold Rdiv. rewrite Rmult_assoc, Rinv_l by lra. lra. }
  assert (EN : N_ l E e = e * (1 - u)).
  { unfold N_, u, N. fold s. field. split; lra. }
  pose proof (S_shrink l e u G8 He Hu) as Q. rewrite <- EN in Q. fold N s in Q.
  assert (EuN : u * N = s - E) by (unfold u; field; lra).
  rewrite EuN in Q.
  (* S' - E <= 4 u^2 (N - s) and 4 s (N - s) <= N^2 *)
  assert (Q1 : S_ l (N_ l E e) - E <= 4 * (u * u) * (N - s)) by lra.
  assert (Hs : 0 < s) by lra.
  apply Rmult_le_compat_r with (r := s) in Q1; [|lra].
  eapply Rle_trans; [exact Q1|].
  replace ((s - E) * (s - E)) with ((u * u) * (N * N)) by (rewrite <- EuN; ring).
  replace (4 * (u * u) * (N - s) * s) with ((u * u) * (4 * s * (N - s))) by ring.
  apply Rmult_le_compat_l; [nra|]. pose proof (Rle_0_sqr (N - 2 * s)). unfold Rsqr in *. lra.
Qed.

(** ** Specification: flow laws as the user writes them

    Strain rate at deviatoric stress [t] of each active mechanism, and the viscosity at which the rates
    of all mechanisms other than grain-boundary sliding add up to the given strain rate. *)
Definition pick (b : bool) (x : R) : R := if b then x else 0.
Definition total_rate (v : vin) (t : R) : R :=
  pick (v_cst v) (t / (2 * v_etacst v))
  + pick (v_dis v) (Rpower (t / (2 * v_Bpwl v)) (v_npwl v))
  + pick (v_el v) (t / (2 * v_etael v))
  + pick (v_pei v) (Rpower (t / (2 * v_Bexp v)) (v_nexp v))
  + pick (v_dif v) (Rpower (t / (2 * v_Blin v)) (v_nlin v) * Rpower (v_d v) (- v_mlin v)).
Definition effective (v : vin) (e : R) : Prop := 0 < e /\ total_rate v (2 * e * v_E v) = v_E v.

(** Admissible inputs: positive strengths, exponents between 1 and [nmax]. *)
Definition ok (nmax : R) (v : vin) : Prop :=
  0 < v_E v /\
  (v_cst v = true -> 0 < v_etacst v) /\
  (v_dis v = true -> 0 < v_Bpwl v /\ 1 <= v_npwl v <= nmax) /\
  (v_el v = true -> 0 < v_etael v) /\
  (v_pei v = true -> 0 < v_Bexp v /\ 1 <= v_nexp v <= nmax) /\
  (v_dif v = true -> 0 < v_Blin v /\ 1 <= v_nlin v <= nmax /\ 0 < v_d v).

(** Viscosity a mechanism would have alone. *)
Inductive alone (v : vin) : R -> Prop :=
  | al_cst : v_cst v = true -> alone v (v_etacst v)
  | al_dis : v_dis v = true -> alone v (iso_pwl v)
  | al_el : v_el v = true -> alone v (v_etael v)
  | al_pei : v_pei v = true -> alone v (iso_exp v)
  | al_dif : v_dif v = true -> alone v (iso_lin v).

(** ** The iteration in terms of power sums *)
Definition one (b : bool) (c n : R) : list term := if b then [(c, n)] else [].
Definition terms (p : lip) : list term :=
  one (cst p) (Eii p / eta_cst p) 1
  ++ one (dis p) (C_pwl p * Rpower (2 * Eii p) (n_pwl p)) (n_pwl p)
  ++ one (el p) (Eii p / eta_el p) 1
  ++ one (pei p) (C_exp p * Rpower (2 * Eii p) (n_exp p)) (n_exp p)
  ++ one (dif p) (C_lin p * Rpower (2 * Eii p) (n_lin p) * Rpower (d_gs p) (- m_lin p)) (n_lin p).

Lemma S_app : forall l1 l2 e, S_ (l1 ++ l2) e = S_ l1 e + S_ l2 e.
Proof. induction l1 as [|[c n] l IH]; intros; [change (S_ l2 e = 0 + S_ l2 e); ring|]. cbn [app]. rewrite !S_cons, IH. lra. Qed.
Lemma D_app : forall l1 l2 e, D_ (l1 ++ l2) e = D_ l1 e + D_ l2 e.
Proof. induction l1 as [|[c n] l IH]; intros; [change (D_ l2 e = 0 + D_ l2 e); ring|]. cbn [app]. rewrite !D_cons, IH. lra. Qed.
Lemma S_one : forall b c n e, S_ (one b c n) e = pick b (c * Rpower e n).
Proof. intros [] c n e; cbn [S_ D_ one fold_right fst snd pick]; unfold S_, D_; cbn [fold_right fst snd]; ring. Qed.
Lemma D_one : forall b c n e, D_ (one b c n) e = pick b (c * n * Rpower e n / e).
Proof. intros [] c n e; cbn [S_ D_ one fold_right fst snd pick]; unfold S_, D_; cbn [fold_right fst snd]; ring. Qed.

Lemma stress_pow : forall p e n, 0 < Eii p -> 0 < e -> Rpower (stress p e) n = Rpower (2 * Eii p) n * Rpower e n.
Proof. intros p e n HE He. unfold stress. rewrite Rpower_mult_distr by lra. f_equal. ring. Qed.

Definition no_gbs (p : lip) : Prop := gbs p = false \/ C_gbs p = 0.
Lemma e_gbs_0 : forall p t, no_gbs p -> e_gbs p t = 0.
Proof. intros p t [H|H]; unfold e_gbs, ifb; [now rewrite H|]. rewrite H. destruct (gbs p); ring. Qed.

Lemma resid_S : forall p e, no_gbs p -> 0 < Eii p -> 0 < e ->
  (cst p = true -> eta_cst p <> 0) -> (el p = true -> eta_el p <> 0) ->
  resid p e = Eii p - S_ (terms p) e.
Proof.
  intros p e Hg HE He Hc Hl. unfold resid, e_vis. rewrite e_gbs_0 by exact Hg.
  unfold terms. rewrite !S_app, !S_one. unfold e_pwl, e_exp, e_lin, e_cst. rewrite !stress_pow by assumption.
  rewrite !Rpower_1 by exact He. unfold stress, pick, ifb.
  destruct (cst p) eqn:B1; destruct (el p) eqn:B2; try specialize (Hc eq_refl); try specialize (Hl eq_refl);
    destruct (dis p), (pei p), (dif p); try ring; field; repeat split; first [assumption | lra].
Qed.
Lemma dfdeta_D : forall p e, 0 < Eii p -> 0 < e ->
  (cst p = true -> eta_cst p <> 0) -> (el p = true -> eta_el p <> 0) ->
  dfdeta p e = - D_ (terms p) e.
Proof.
  intros p e HE He Hc Hl. unfold dfdeta, terms. rewrite !D_app, !D_one. unfold e_pwl, e_exp, e_lin.
  rewrite !stress_pow by assumption. rewrite !Rpower_1 by exact He. unfold pick, ifb.
  destruct (cst p) eqn:B1; destruct (el p) eqn:B2; try specialize (Hc eq_refl); try specialize (Hl eq_refl);
    destruct (dis p), (pei p), (dif p); try ring; field; repeat split; first [assumption | lra].
Qed.

Section LoopFacts.
  Variable p : lip.
  Let l := terms p.
  Hypothesis Hg : no_gbs p.
  Hypothesis HE : 0 < Eii p.
  Hypothesis Hc : cst p = true -> eta_cst p <> 0.
  Hypothesis Hl : el p = true -> eta_el p <> 0.
  Hypothesis G : good l.
  Hypothesis Hne : l <> [].
  Variable es : R.
  Hypothesis Hes : 0 < es.
  Hypothesis Es : S_ l es = Eii p.

  Lemma newton_N : forall e, 0 < e -> newton p e = N_ l (Eii p) e.
  Proof.
    intros e He. unfold newton, N_. rewrite resid_S, dfdeta_D by assumption. fold l.
    pose proof (D_pos l e G Hne He). field. lra.
  Qed.

  Lemma above_root : forall e tol, 0 < e -> Eii p <= S_ l e -> 0 <= tol -> Rabs (resid p e / Eii p) <= tol ->
    es <= e <= (1 + tol) * es.
  Proof.
    intros e tol He Hs Ht Hr.
    assert (A : es <= e).
    { destruct (Rle_dec es e) as [|n]; [assumption|exfalso].
      pose proof (S_superlinear l e es G He ltac:(lra)) as H. rewrite Es in H.
      assert (1 < es / e).
      { apply Rmult_lt_reg_r with e; [lra|]. unfold Rdiv. rewrite Rmult_assoc, Rinv_l by lra. lra. }
      nra. }
    split; [exact A|].
    pose proof (S_superlinear l es e G Hes A) as H. rewrite Es in H.
    rewrite resid_S in Hr by assumption. fold l in Hr.
    assert (Hr2 : S_ l e - Eii p <= tol * Eii p).
    { unfold Rdiv in Hr. rewrite Rabs_mult, (Rabs_pos_eq (/ Eii p)) in Hr by (left; now apply Rinv_0_lt_compat).
      apply Rmult_le_compat_r with (r := Eii p) in Hr; [|lra]. rewrite Rmult_assoc, Rinv_l, Rmult_1_r in Hr by lra.
      pose proof (Rle_abs (- (Eii p - S_ l e))). rewrite Rabs_Ropp in *. lra. }
    assert (H3 : e / es * Eii p <= (1 + tol) * Eii p) by lra.
    apply Rmult_le_reg_r in H3; [|exact HE].
    apply Rmult_le_compat_r with (r := es) in H3; [|lra].
    unfold Rdiv in H3. rewrite Rmult_assoc, Rinv_l, Rmult_1_r in H3 by lra. exact H3.
  Qed.

  Lemma loop_ret : forall left e r t, 0 < e -> Eii p <= S_ l e -> li_loop p (S left) e = Ret r t ->
    es <= r <= (1 + ve_tol) * es /\ r <= e /\
    exists e1, t = stress p e1 /\ es <= e1 <= (1 + ve_tol) * es.
  Proof.
    assert (Ht : 0 < ve_tol) by (unfold ve_tol; apply Rinv_0_lt_compat, pow_lt; lra).
    induction left as [|left IH]; intros e r t He Hs H.
    - cbn [li_loop] in H. destruct (Rltb (Rabs (resid p e / Eii p)) (ve_tol / 100)) eqn:E1.
      + injection H; intros; subst. apply Rltb_true in E1.
        pose proof (above_root r ve_tol He Hs ltac:(lra) ltac:(lra)). split; [lra|]. split; [lra|]. exists r. split; [reflexivity|lra].
      + destruct (Rltb ve_tol (Rabs (resid p e / Eii p))) eqn:E2; [discriminate|].
        injection H; intros; subst. apply Rltb_false in E2.
        pose proof (above_root e ve_tol He Hs ltac:(lra) E2) as A.
        rewrite newton_N by exact He.
        destruct (newton_bracket l (Eii p) e es G Hne He Hes Es Hs) as [B _].
        split; [lra|]. split; [lra|]. exists e. split; [reflexivity|lra].
    - cbn [li_loop] in H. destruct (Rltb (Rabs (resid p e / Eii p)) (ve_tol / 100)) eqn:E1.
      + injection H; intros; subst. apply Rltb_true in E1.
        pose proof (above_root r ve_tol He Hs ltac:(lra) ltac:(lra)). split; [lra|]. split; [lra|]. exists r. split; [reflexivity|lra].
      + rewrite newton_N in H by exact He.
        destruct (newton_bracket l (Eii p) e es G Hne He Hes Es Hs) as [B B3].
        assert (Hn : 0 < N_ l (Eii p) e) by lra.
        destruct (IH _ r t Hn B3 H) as [I1 [I2 I3]]. split; [exact I1|]. split; [lra|exact I3].
  Qed.

  (** every intermediate viscosity *)
  Lemma iter_mono : forall k e, 0 < e -> Eii p <= S_ l e ->
    let x := Nat.iter k (newton p) e in 0 < x /\ es <= x <= e /\ Eii p <= S_ l x.
  Proof.
    induction k as [|k IH]; intros e He Hs.
    - cbn. split; [exact He|]. split; [|exact Hs]. split; [|lra].
      destruct (Rle_dec es e) as [|n]; [assumption|exfalso].
      pose proof (S_superlinear l e es G He ltac:(lra)) as H. rewrite Es in H.
      assert (1 < es / e).
      { apply Rmult_lt_reg_r with e; [lra|]. unfold Rdiv. rewrite Rmult_assoc, Rinv_l by lra. lra. }
      nra.
    - cbn [Nat.iter nat_rect]. specialize (IH e He Hs). cbn zeta in IH. destruct IH as [I1 [I2 I3]].
      change (nat_rect (fun _ => R) e (fun _ : nat => newton p) k) with (Nat.iter k (newton p) e).
      rewrite newton_N by exact I1.
      destruct (newton_bracket l (Eii p) _ es G Hne I1 Hes Es I3) as [B B3].
      cbn zeta. split; [lra|]. split; [lra|exact B3].
  Qed.

  Hypothesis G8 : good8 l.
  Lemma fast_step : forall left e x x', 0 < e -> Eii p <= S_ l e -> 0 <= x -> S_ l e <= (1 + x) * Eii p ->
    x * x <= x' * (1 + x) ->
    (forall e', 0 < e' -> Eii p <= S_ l e' -> S_ l e' <= (1 + x') * Eii p ->
       exists r, li_loop p (S left) e' = Ret r (stress p r) /\ Rabs (resid p r / Eii p) < ve_tol / 100) ->
    exists r, li_loop p (S (S left)) e = Ret r (stress p r) /\ Rabs (resid p r / Eii p) < ve_tol / 100.
  Proof.
    intros left e x x' He Hs Hx Hxe Hxx K. cbn [li_loop].
    destruct (Rltb (Rabs (resid p e / Eii p)) (ve_tol / 100)) eqn:E1.
    - apply Rltb_true in E1. exists e. split; [reflexivity|exact E1].
    - rewrite newton_N by exact He.
      destruct (newton_bracket l (Eii p) e es G Hne He Hes Es Hs) as [B B3].
      apply K; [lra|exact B3|].
      pose proof (newton_fast l (Eii p) e es G8 Hne HE He Hes Es Hs) as F.
      set (s := S_ l e) in *. set (s' := S_ l (N_ l (Eii p) e)) in *. set (E := Eii p) in *.
      (* (s'-E) s <= (s-E)^2, E <= s <= (1+x)E *)
      assert (H1 : (s - E) * (s - E) <= x' * E * s).
      { assert (Hs2 : (s - E) * (1 + x) <= x * s) by nra.
        assert (Hs3 : 0 <= s - E <= x * E) by lra.
        assert ((s - E) * ((s - E) * (1 + x)) <= (x * E) * (x * s)) by (apply Rmult_le_compat; nra).
        assert ((x * E) * (x * s) <= x' * (1 + x) * (E * s)).
        { replace ((x * E) * (x * s)) with ((x * x) * (E * s)) by ring. apply Rmult_le_compat_r; [nra|lra]. }
        apply Rmult_le_reg_r with (1 + x); [lra|]. nra. }
      assert (H2 : (s' - E) * s <= (x' * E) * s) by lra.
      apply Rmult_le_reg_r in H2; [lra|lra].
  Qed.

  Lemma fast_stop : forall left e x, 0 < e -> Eii p <= S_ l e -> S_ l e <= (1 + x) * Eii p -> x < ve_tol / 100 ->
    exists r, li_loop p (S left) e = Ret r (stress p r) /\ Rabs (resid p r / Eii p) < ve_tol / 100.
  Proof.
    intros left e x He Hs Hx Ht.
    assert (A : Rabs (resid p e / Eii p) < ve_tol / 100).
    { rewrite resid_S by assumption. fold l. unfold Rdiv at 1.
      rewrite Rabs_mult, (Rabs_pos_eq (/ Eii p)) by (left; now apply Rinv_0_lt_compat).
      rewrite Rabs_left1 by lra. apply Rle_lt_trans with x; [|exact Ht].
      apply Rmult_le_reg_r with (Eii p); [lra|]. rewrite Rmult_assoc, Rinv_l by lra. lra. }
    exists e. cbn [li_loop]. apply Rltb_true in A. rewrite A. split; [reflexivity|]. now apply Rltb_true.
  Qed.

  Lemma fast_loop : forall e, 0 < e -> Eii p <= S_ l e -> S_ l e <= (1 + 4) * Eii p ->
    exists r, local_iteration p e = Ret r (stress p r) /\ Rabs (resid p r / Eii p) < ve_tol / 100.
  Proof.
    intros e He Hs H4. unfold local_iteration, nitmax.
    apply (fast_step _ e 4 3.2 He Hs ltac:(lra) H4 ltac:(lra)). clear e He Hs H4. intros e He Hs Hx.
    apply (fast_step _ e 3.2 2.45 He Hs ltac:(lra) Hx ltac:(lra)). clear e He Hs Hx. intros e He Hs Hx.
    apply (fast_step _ e 2.45 1.75 He Hs ltac:(lra) Hx ltac:(lra)). clear e He Hs Hx. intros e He Hs Hx.
    apply (fast_step _ e 1.75 1.12 He Hs ltac:(lra) Hx ltac:(lra)). clear e He Hs Hx. intros e He Hs Hx.
    apply (fast_step _ e 1.12 0.6 He Hs ltac:(lra) Hx ltac:(lra)). clear e He Hs Hx. intros e He Hs Hx.
    apply (fast_step _ e 0.6 0.225 He Hs ltac:(lra) Hx ltac:(lra)). clear e He Hs Hx. intros e He Hs Hx.
    apply (fast_step _ e 0.225 0.0414 He Hs ltac:(lra) Hx ltac:(lra)). clear e He Hs Hx. intros e He Hs Hx.
    apply (fast_step _ e 0.0414 0.00165 He Hs ltac:(lra) Hx ltac:(lra)). clear e He Hs Hx. intros e He Hs Hx.
    apply (fast_step _ e 0.00165 0.00000273 He Hs ltac:(lra) Hx ltac:(lra)). clear e He Hs Hx. intros e He Hs Hx.
    apply (fast_step _ e 0.00000273 0.0000000000075 He Hs ltac:(lra) Hx ltac:(lra)). clear e He Hs Hx. intros e He Hs Hx.
    apply (fast_step _ e 0.0000000000075 0.00000000000001 He Hs ltac:(lra) Hx ltac:(lra)). clear e He Hs Hx. intros e He Hs Hx.
    apply (fast_stop _ e _ He Hs Hx). unfold ve_tol. lra.
  Qed.
End LoopFacts.

(** ** Starting point *)
Lemma one_good : forall b c n (l : list term), (b = true -> 0 < c /\ 1 <= n) -> good l -> good (one b c n ++ l).
Proof. intros [] c n l H G; cbn; [constructor; [apply H; reflexivity|exact G]|exact G]. Qed.
Lemma one_good8 : forall b c n (l : list term), (b = true -> 0 < c /\ 1 <= n <= 8) -> good8 l -> good8 (one b c n ++ l).
Proof. intros [] c n l H G; cbn; [constructor; [apply H; reflexivity|exact G]|exact G]. Qed.

Lemma terms_good : forall nmax v, ok nmax v -> good (terms (lip_of v)).
Proof.
  intros nmax v [HE [H1 [H2 [H3 [H4 H5]]]]]. unfold terms. cbn [lip_of Eii cst eta_cst dis C_pwl n_pwl el eta_el pei C_exp n_exp dif C_lin n_lin d_gs m_lin].
  rewrite <- (app_nil_r (one (v_dif v) _ _)).
  repeat apply one_good; try (now constructor); intros Hb.
  - split; [apply Rdiv_lt_0_compat; auto|lra].
  - split; [apply Rmult_lt_0_compat; apply Rpower_pos|destruct (H2 Hb); lra].
  - split; [apply Rdiv_lt_0_compat; auto|lra].
  - split; [apply Rmult_lt_0_compat; apply Rpower_pos|destruct (H4 Hb); lra].
  - split; [repeat apply Rmult_lt_0_compat; apply Rpower_pos|destruct (H5 Hb); lra].
Qed.
Lemma terms_good8 : forall v, ok 8 v -> good8 (terms (lip_of v)).
Proof.
  intros v [HE [H1 [H2 [H3 [H4 H5]]]]]. unfold terms. cbn [lip_of Eii cst eta_cst dis C_pwl n_pwl el eta_el pei C_exp n_exp dif C_lin n_lin d_gs m_lin].
  rewrite <- (app_nil_r (one (v_dif v) _ _)).
  repeat apply one_good8; try (now constructor); intros Hb.
  - split; [apply Rdiv_lt_0_compat; auto|lra].
  - split; [apply Rmult_lt_0_compat; apply Rpower_pos|destruct (H2 Hb); lra].
  - split; [apply Rdiv_lt_0_compat; auto|lra].
  - split; [apply Rmult_lt_0_compat; apply Rpower_pos|destruct (H4 Hb); lra].
  - split; [repeat apply Rmult_lt_0_compat; apply Rpower_pos|destruct (H5 Hb); lra].
Qed.

Lemma pow_split : forall B t n, 0 < B -> 0 < t -> Rpower (t / (2 * B)) n = Rpower (2 * B) (- n) * Rpower t n.
Proof.
  intros B t n HB Ht. rewrite Rpower_div by lra. rewrite Rpower_Ropp. field. apply Rgt_not_eq, Rpower_pos.
Qed.
Lemma total_terms : forall nmax v e, ok nmax v -> 0 < e -> total_rate v (2 * e * v_E v) = S_ (terms (lip_of v)) e.
Proof.
  intros nmax v e [HE [H1 [H2 [H3 [H4 H5]]]]] He. unfold terms, total_rate. rewrite !S_app, !S_one.
  cbn [lip_of Eii cst eta_cst dis C_pwl n_pwl el eta_el pei C_exp n_exp dif C_lin n_lin d_gs m_lin].
  rewrite !Rpower_1 by exact He.
  assert (Ht : 0 < 2 * e * v_E v) by nra.
  assert (P : forall n, Rpower (2 * e * v_E v) n = Rpower (2 * v_E v) n * Rpower e n).
  { intros n. rewrite Rpower_mult_distr by lra. f_equal. ring. }
  unfold pick.
  assert (A1 : v_cst v = true -> 2 * e * v_E v / (2 * v_etacst v) = v_E v / v_etacst v * e)
    by (intros b; specialize (H1 b); field; lra).
  assert (A3 : v_el v = true -> 2 * e * v_E v / (2 * v_etael v) = v_E v / v_etael v * e)
    by (intros b; specialize (H3 b); field; lra).
  assert (A2 : v_dis v = true -> Rpower (2 * e * v_E v / (2 * v_Bpwl v)) (v_npwl v)
     = Rpower (2 * v_Bpwl v) (- v_npwl v) * Rpower (2 * v_E v) (v_npwl v) * Rpower e (v_npwl v))
    by (intros b; destruct (H2 b); rewrite pow_split, P by lra; ring).
  assert (A4 : v_pei v = true -> Rpower (2 * e * v_E v / (2 * v_Bexp v)) (v_nexp v)
     = Rpower (2 * v_Bexp v) (- v_nexp v) * Rpower (2 * v_E v) (v_nexp v) * Rpower e (v_nexp v))
    by (intros b; destruct (H4 b); rewrite pow_split, P by lra; ring).
  assert (A5 : v_dif v = true -> Rpower (2 * e * v_E v / (2 * v_Blin v)) (v_nlin v) * Rpower (v_d v) (- v_mlin v)
     = Rpower (2 * v_Blin v) (- v_nlin v) * Rpower (2 * v_E v) (v_nlin v) * Rpower (v_d v) (- v_mlin v) * Rpower e (v_nlin v))
    by (intros b; destruct (H5 b); rewrite pow_split, P by lra; ring).
  destruct (v_cst v), (v_dis v), (v_el v), (v_pei v), (v_dif v);
    rewrite ?A1, ?A2, ?A3, ?A4, ?A5 by reflexivity; ring.
Qed.

(** Isolated viscosities in the order of [terms]. *)
Definition isos (v : vin) : list R :=
  (if v_cst v then [v_etacst v] else []) ++ (if v_dis v then [iso_pwl v] else [])
  ++ (if v_el v then [v_etael v] else []) ++ (if v_pei v then [iso_exp v] else [])
  ++ (if v_dif v then [iso_lin v] else []).
Lemma isos_alone : forall v i, In i (isos v) <-> alone v i.
Proof.
  intros v i. unfold isos. rewrite !in_app_iff. split.
  - intros H. repeat (destruct H as [H|H]).
    + destruct (v_cst v) eqn:E; [destruct H as [<-|[]]; now constructor|destruct H].
    + destruct (v_dis v) eqn:E; [destruct H as [<-|[]]; now constructor|destruct H].
    + destruct (v_el v) eqn:E; [destruct H as [<-|[]]; now constructor|destruct H].
    + destruct (v_pei v) eqn:E; [destruct H as [<-|[]]; now constructor|destruct H].
    + destruct (v_dif v) eqn:E; [destruct H as [<-|[]]; now constructor|destruct H].
  - intros H. destruct H as [E|E|E|E|E]; rewrite E; cbn; tauto.
Qed.
Lemma eta_up_fold : forall cap v, v_gbs v = false -> eta_up cap v = fold_left minv (isos v) cap.
Proof.
  intros cap v Hg. unfold eta_up, isos, upd_min. rewrite Hg.
  destruct (v_cst v), (v_dis v), (v_el v), (v_pei v), (v_dif v); reflexivity.
Qed.
Lemma fold_min : forall l u, let m := fold_left minv l u in (m = u \/ In m l) /\ m <= u /\ forall i, In i l -> m <= i.
Proof.
  induction l as [|a l IH]; intros u; cbn; [split; [now left|split; [lra|easy]]|].
  destruct (IH (minv u a)) as [H1 [H2 H3]]. set (m := fold_left minv l (minv u a)) in *.
  assert (Hm : minv u a <= u /\ minv u a <= a /\ (minv u a = u \/ minv u a = a)).
  { unfold minv. destruct (Rle_dec u a); lra. }
  destruct Hm as [M1 [M2 M3]]. split; [|split].
  - destruct H1 as [->|H1]; [destruct M3 as [->|M3]; [now left|right; left; now symmetry]|right; now right].
  - lra.
  - intros i [<-|Hi]; [lra|now apply H3].
Qed.

(** Each term equals the strain rate at its isolated viscosity. *)
Lemma iso_eq : forall B E n, 0 < B -> 0 < E -> 1 <= n ->
  let i := B * Rpower E (1 / n - 1) in 0 < i /\ Rpower (2 * B) (- n) * Rpower (2 * E) n * Rpower i n = E.
Proof.
  intros B E n HB HE Hn i. assert (Hi : 0 < i) by (apply Rmult_lt_0_compat; [exact HB|apply Rpower_pos]).
  split; [exact Hi|]. unfold i.
  rewrite <- (Rpower_mult_distr B) by (try apply Rpower_pos; lra).
  rewrite <- !Rpower_mult_distr by lra. rewrite Rpower_mult.
  rewrite (Rpower_Ropp 2 n), (Rpower_Ropp B n).
  replace ((1 / n - 1) * n) with (1 - n) by (field; lra).
  replace (Rpower E (1 - n)) with (E / Rpower E n).
  2:{ unfold Rminus, Rdiv. rewrite Rpower_plus, Rpower_Ropp, Rpower_1 by lra. reflexivity. }
  field. repeat split; apply Rgt_not_eq, Rpower_pos.
Qed.
Lemma terms_isos : forall nmax v, ok nmax v ->
  Forall2 (fun cn i => 0 < i /\ fst cn * Rpower i (snd cn) = v_E v) (terms (lip_of v)) (isos v).
Proof.
  intros nmax v [HE [H1 [H2 [H3 [H4 H5]]]]]. unfold terms, isos.
  cbn [lip_of Eii cst eta_cst dis C_pwl n_pwl el eta_el pei C_exp n_exp dif C_lin n_lin d_gs m_lin].
  assert (Hone : forall (b : bool) c n i, (b = true -> 0 < i /\ c * Rpower i n = v_E v) ->
     Forall2 (fun cn i => 0 < i /\ fst cn * Rpower i (snd cn) = v_E v) (one b c n) (if b then [i] else [])).
  { intros [] c n i H; cbn; constructor; [apply H; reflexivity|constructor]. }
  repeat apply Forall2_app; apply Hone; intros b.
  - specialize (H1 b). split; [exact H1|]. rewrite Rpower_1 by exact H1. field. lra.
  - destruct (H2 b). apply iso_eq; lra.
  - specialize (H3 b). split; [exact H3|]. rewrite Rpower_1 by exact H3. field. lra.
  - destruct (H4 b). apply iso_eq; lra.
  - destruct (H5 b) as [A1 [A2 A3]]. destruct (iso_eq (v_Blin v) (v_E v) (v_nlin v) A1 HE ltac:(lra)) as [B1 B2].
    unfold iso_lin. split; [apply Rmult_lt_0_compat; [exact B1|apply Rpower_pos]|].
    rewrite <- (Rpower_mult_distr (v_Blin v * _)) by (try exact B1; apply Rpower_pos).
    rewrite (Rpower_mult (v_d v)). replace (v_mlin v / v_nlin v * v_nlin v) with (v_mlin v) by (field; lra).
    transitivity (Rpower (2 * v_Blin v) (- v_nlin v) * Rpower (2 * v_E v) (v_nlin v) * Rpower (v_Blin v * Rpower (v_E v) (1 / v_nlin v - 1)) (v_nlin v)
       * (Rpower (v_d v) (- v_mlin v) * Rpower (v_d v) (v_mlin v))); [ring|].
    rewrite B2, <- Rpower_plus. replace (- v_mlin v + v_mlin v) with 0 by ring. rewrite Rpower_O by exact A3. ring.
Qed.
Lemma Rpower_mono : forall x y n, 0 < x -> x <= y -> 0 <= n -> Rpower x n <= Rpower y n.
Proof.
  intros x y n Hx Hy Hn. apply Rle_Rpower_l; lra.
Qed.
Lemma S_le_count : forall E l is e, 0 < E -> good l -> 0 < e ->
  Forall2 (fun cn i => 0 < i /\ fst cn * Rpower i (snd cn) = E) l is -> (forall i, In i is -> e <= i) ->
  S_ l e <= INR (length is) * E.
Proof.
  intros E l is e HE G He F. induction F as [|[c n] i l is [F1 F2] F IH]; intros Hi; [cbn; lra|].
  inversion G as [|? ? G1 G2]. cbn [fst snd] in *. rewrite S_cons.
  assert (c * Rpower e n <= E).
  { rewrite <- F2. apply Rmult_le_compat_l; [lra|]. apply Rpower_mono; [exact He|apply Hi; now left|lra]. }
  specialize (IH G2 ltac:(intros; apply Hi; now right)).
  change (length (i :: is)) with (S (length is)). rewrite S_INR. lra.
Qed.
Lemma S_ge_E : forall E l is e, 0 < E -> good l -> 0 < e ->
  Forall2 (fun cn i => 0 < i /\ fst cn * Rpower i (snd cn) = E) l is -> In e is -> E <= S_ l e.
Proof.
  intros E l is e HE G He F. induction F as [|[c n] i l is [F1 F2] F IH]; intros Hi; [destruct Hi|].
  inversion G as [|? ? G1 G2]. cbn [fst snd] in *. rewrite S_cons. pose proof (S_nonneg l e G2).
  destruct Hi as [->|Hi]; [lra|]. specialize (IH G2 Hi). pose proof (Rpower_pos e n). nra.
Qed.

(** Facts about the starting point. *)
Lemma start_ok : forall nmax cap v, ok nmax v -> v_gbs v = false -> (exists i, alone v i /\ i <= cap) ->
  let e := eta_up cap v in
  0 < e /\ v_E v <= S_ (terms (lip_of v)) e /\ S_ (terms (lip_of v)) e <= (1 + 4) * v_E v /\
  (forall i, alone v i -> e <= i) /\ terms (lip_of v) <> [].
Proof.
  intros nmax cap v H Hg [i [Hi Hc]] e. unfold e. rewrite eta_up_fold by exact Hg.
  pose proof (fold_min (isos v) cap) as M. set (m := fold_left minv (isos v) cap) in *. cbn zeta in M.
  destruct M as [M1 [M2 M3]].
  assert (Hin : In i (isos v)) by (now apply isos_alone).
  assert (Hm : In m (isos v)).
  { destruct M1 as [M1|M1]; [|exact M1]. specialize (M3 i Hin). replace m with i by lra. exact Hin. }
  pose proof (terms_isos nmax v H) as F. pose proof (terms_good nmax v H) as G.
  assert (HE : 0 < v_E v) by apply H.
  assert (Hm0 : 0 < m).
  { clearbody m. clear - F Hm. induction F as [|cn j l is [F1 F0] F IH]; [destruct Hm|destruct Hm as [Hm|Hm]; [rewrite <- Hm; exact F1|now apply IH]]. }
  split; [exact Hm0|]. split; [now apply S_ge_E with (is := isos v)|]. split; [|split].
  - eapply Rle_trans; [apply (S_le_count (v_E v) _ (isos v) m HE G Hm0 F M3)|].
    apply Rmult_le_compat_r; [lra|].
    assert (INR (length (isos v)) <= INR 5).
    { apply le_INR. unfold isos. rewrite !app_length. destruct (v_cst v), (v_dis v), (v_el v), (v_pei v), (v_dif v); cbn; lia. }
    cbn in *. lra.
  - intros j Hj. apply M3. now apply isos_alone.
  - intros E. rewrite E in F. clear - F Hm. inversion F as [F0 F1|]. clearbody m. rewrite <- F1 in Hm. destruct Hm.
Qed.
