(** * Proofs about the grain-size iteration *)
From Coq Require Import Reals List Bool Lra Lia Psatz.
From Verif Require Import OptionsModel RheoModel RheoProofs GSModel.
Import ListNotations.
Local Open Scope R_scope.

(** Admissible parameters: positive strengths, exponents of at least 1, a growth law with positive constants. *)
Definition gok (g : gsp) : Prop :=
  let p := g_lip g in
  0 < Eii p /\ (cst p = true -> 0 < eta_cst p) /\ dis p = true /\ 0 < C_pwl p /\ 1 <= n_pwl p /\
  (el p = true -> 0 < eta_el p) /\ (pei p = true -> 0 < C_exp p /\ 1 <= n_exp p) /\
  (dif p = true -> 0 < C_lin p /\ 1 <= n_lin p /\ 0 <= m_lin p) /\ no_gbs p /\
  0 < g_lam g /\ 0 < g_cg g /\ 0 < g_gam g /\ 0 < g_p g /\ 0 < g_Ag g.

Ltac gk H := unfold gok in H; cbv zeta in H; destruct H as (hE & hcst & hdis & hC & hn & hel & hexp & hlin & hgbs & hlam & hcg & hgam & hp & hA).

Lemma Bg_pos g : gok g -> 0 < Bg g.
Proof. intros H. gk H. unfold Bg. apply Rdiv_lt_0_compat; [assumption|]. now apply Rmult_lt_0_compat. Qed.

Definition kappa (g : gsp) : R := let p := g_lip g in Bg g * g_p g / g_Ag g * (C_pwl p * Rpower (2 * Eii p) (n_pwl p + 1)).
Lemma kappa_pos g : gok g -> 0 < kappa g.
Proof.
  intros H. pose proof (Bg_pos g H) as B. gk H. unfold kappa. pose proof (Rpower_pos (2 * Eii (g_lip g)) (n_pwl (g_lip g) + 1)).
  apply Rmult_lt_0_compat; [|now apply Rmult_lt_0_compat]. apply Rdiv_lt_0_compat; [|assumption]. now apply Rmult_lt_0_compat.
Qed.

Lemma grain_eq g e : gok g -> 0 < e -> grain g e = Rpower (kappa g) (-1 / (g_p g + 1)) * Rpower e (- (n_pwl (g_lip g) + 1) / (g_p g + 1)).
Proof.
  intros H He. pose proof (kappa_pos g H) as K. pose proof (Bg_pos g H) as B. gk H. unfold grain. cbv zeta. unfold e_pwl, ifb. rewrite hdis.
  rewrite stress_pow by assumption. set (p := g_lip g) in *.
  replace (2 * Bg g * Eii p * (C_pwl p * (Rpower (2 * Eii p) (n_pwl p) * Rpower e (n_pwl p))) * e * g_p g / g_Ag g) with (kappa g * Rpower e (n_pwl p + 1)).
  - rewrite <- Rpower_mult_distr; [|exact K|apply Rpower_pos]. f_equal. rewrite Rpower_mult. f_equal. field. lra.
  - unfold kappa. fold p. rewrite !Rpower_plus, !Rpower_1 by lra. field. lra.
Qed.
Lemma grain_pow g e m : gok g -> 0 < e -> Rpower (grain g e) (- m) = Rpower (kappa g) (m / (g_p g + 1)) * Rpower e (m * (n_pwl (g_lip g) + 1) / (g_p g + 1)).
Proof.
  intros H He. rewrite grain_eq by assumption. gk H.
  rewrite <- Rpower_mult_distr; try apply Rpower_pos. rewrite !Rpower_mult. f_equal; f_equal; field; lra.
Qed.

(** The strain rates at viscosity [e] as a sum of powers. *)
Definition lin_c (g : gsp) : R := let p := g_lip g in C_lin p * Rpower (2 * Eii p) (n_lin p) * Rpower (kappa g) (m_lin p / (g_p g + 1)).
Definition lin_n (g : gsp) : R := let p := g_lip g in n_lin p + m_lin p * (n_pwl p + 1) / (g_p g + 1).
Definition gterms (g : gsp) : list term :=
  let p := g_lip g in
  one (cst p) (Eii p / eta_cst p) 1 ++ one (dis p) (C_pwl p * Rpower (2 * Eii p) (n_pwl p)) (n_pwl p) ++
  one (el p) (Eii p / eta_el p) 1 ++ one (pei p) (C_exp p * Rpower (2 * Eii p) (n_exp p)) (n_exp p) ++
  one (dif p) (lin_c g) (lin_n g).

Lemma lin_at g e : gok g -> 0 < e -> e_lin (at_grain g e) (stress (at_grain g e) e) = ifb (dif (g_lip g)) (lin_c g * Rpower e (lin_n g)).
Proof.
  intros H He. unfold e_lin, at_grain, set_d. cbn [dif C_lin n_lin d_gs m_lin]. unfold ifb. destruct (dif (g_lip g)) eqn:D; [|reflexivity].
  rewrite grain_pow by assumption. change (stress (Lip _ _ _ _ _ _ _ _ _ _ _ _ _ _ _ _ _ _ _) e) with (stress (g_lip g) e).
  assert (0 < Eii (g_lip g)) by apply H. rewrite stress_pow by assumption. unfold lin_c, lin_n. cbv zeta. rewrite Rpower_plus. ring.
Qed.
Lemma resid_gS g e : gok g -> 0 < e -> gs_resid g e = Eii (g_lip g) - S_ (gterms g) e.
Proof.
  intros H He. unfold gs_resid, resid, e_vis. rewrite lin_at by assumption.
  assert (G : no_gbs (at_grain g e)) by (unfold no_gbs, at_grain, set_d; cbn; apply H). rewrite e_gbs_0 by exact G.
  gk H. unfold gterms. cbv zeta. rewrite !S_app, !S_one. unfold e_cst, e_pwl, e_exp, at_grain, set_d.
  cbn [Eii el eta_el cst eta_cst dis C_pwl n_pwl pei C_exp n_exp dif C_lin n_lin d_gs m_lin].
  change (stress (Lip _ _ _ _ _ _ _ _ _ _ _ _ _ _ _ _ _ _ _) e) with (stress (g_lip g) e). rewrite !stress_pow by assumption. rewrite !Rpower_1 by exact He.
  unfold ifb, pick. rewrite hdis. unfold stress. destruct (cst (g_lip g)) eqn:B1, (el (g_lip g)) eqn:B2, (pei (g_lip g)), (dif (g_lip g));
  try specialize (hcst eq_refl); try specialize (hel eq_refl); field; lra.
Qed.
Lemma dd_eq g e : gok g -> 0 < e -> dddeta g e = - grain g e * (n_pwl (g_lip g) + 1) / (e * (g_p g + 1)).
Proof.
  intros H He. pose proof (Bg_pos g H) as B. gk H. unfold dddeta. cbv zeta. rewrite Rpower_Ropp.
  pose proof (Rpower_pos (2 * Eii (g_lip g) * e) (n_pwl (g_lip g))) as P. set (w := Rpower (2 * Eii (g_lip g) * e) (n_pwl (g_lip g))) in *. clearbody w.
  set (d := grain g e). clearbody d. field. repeat split; lra.
Qed.
(** The derivative without the dependence of the grain size on the viscosity. *)
Definition D0 (g : gsp) (e : R) : R := D_ (gterms g) e - ifb (dif (g_lip g)) (lin_c g * (lin_n g - n_lin (g_lip g)) * Rpower e (lin_n g) / e).
Lemma gs_df_eq g it e : gok g -> 0 < e -> gs_df it g e = - (if Nat.ltb 1 it then D_ (gterms g) e else D0 g e).
Proof.
  intros H He. assert (GP : 0 < grain g e) by (apply Rpower_pos). unfold gs_df. cbv zeta. rewrite lin_at by assumption. rewrite dd_eq by assumption.
  assert (E : dfdeta (at_grain g e) e = - D0 g e).
  { unfold dfdeta. cbv zeta. rewrite lin_at by assumption. unfold D0, gterms. cbv zeta. rewrite !D_app, !D_one. pose proof H as H'. gk H'.
    unfold e_cst, e_pwl, e_exp, at_grain, set_d. cbn [Eii el eta_el cst eta_cst dis C_pwl n_pwl pei C_exp n_exp dif C_lin n_lin d_gs m_lin].
    change (stress (Lip _ _ _ _ _ _ _ _ _ _ _ _ _ _ _ _ _ _ _) e) with (stress (g_lip g) e). rewrite !stress_pow by assumption. rewrite !Rpower_1 by exact He.
    unfold ifb, pick. rewrite hdis. destruct (cst (g_lip g)) eqn:B1, (el (g_lip g)) eqn:B2, (pei (g_lip g)), (dif (g_lip g));
    try specialize (hcst eq_refl); try specialize (hel eq_refl); field; repeat split; lra. }
  rewrite E. destruct (Nat.ltb 1 it); [|ring]. unfold D0. change (m_lin (at_grain g e)) with (m_lin (g_lip g)). gk H. generalize (D_ (gterms g) e). intros dd. set (w := Rpower e (lin_n g)) in *. clearbody w. unfold lin_n. cbv zeta. set (d := grain g e) in *. clearbody d. unfold ifb. destruct (dif (g_lip g)); [|field; repeat split; lra].
  field. repeat split; lra.
Qed.

Lemma lin_n_ge g : gok g -> dif (g_lip g) = true -> n_lin (g_lip g) <= lin_n g /\ 1 <= n_lin (g_lip g) /\ 0 < lin_c g.
Proof.
  intros H D. pose proof (kappa_pos g H) as K. gk H. destruct (hlin D) as (A1 & A2 & A3). split; [|split; [exact A2|]].
  - unfold lin_n. cbv zeta. assert (0 <= m_lin (g_lip g) * (n_pwl (g_lip g) + 1) / (g_p g + 1)); [|lra].
    apply Rmult_le_pos; [apply Rmult_le_pos; lra|left; apply Rinv_0_lt_compat; lra].
  - unfold lin_c. cbv zeta. repeat apply Rmult_lt_0_compat; try assumption; apply Rpower_pos.
Qed.
Lemma gterms_good g : gok g -> good (gterms g) /\ gterms g <> [].
Proof.
  intros H. pose proof (lin_n_ge g H) as L. gk H. split.
  - unfold gterms. cbv zeta. rewrite <- (app_nil_r (one (dif (g_lip g)) _ _)). repeat apply one_good; try (now constructor); intros Hb.
    + split; [apply Rdiv_lt_0_compat; auto|lra].
    + split; [apply Rmult_lt_0_compat; [assumption|apply Rpower_pos]|assumption].
    + split; [apply Rdiv_lt_0_compat; auto|lra].
    + destruct (hexp Hb). split; [apply Rmult_lt_0_compat; [assumption|apply Rpower_pos]|assumption].
    + destruct (L Hb) as (A & B & C). split; lra.
  - unfold gterms. cbv zeta. rewrite hdis. destruct (cst (g_lip g)); discriminate.
Qed.
Lemma D0_ge_S g e : gok g -> 0 < e -> S_ (gterms g) e / e <= D0 g e <= D_ (gterms g) e.
Proof.
  intros H He. pose proof (lin_n_ge g H) as L. pose proof H as H'. gk H.
  set (p := g_lip g) in *. set (r := one (cst p) (Eii p / eta_cst p) 1 ++ one (dis p) (C_pwl p * Rpower (2 * Eii p) (n_pwl p)) (n_pwl p) ++
    one (el p) (Eii p / eta_el p) 1 ++ one (pei p) (C_exp p * Rpower (2 * Eii p) (n_exp p)) (n_exp p)).
  assert (GR : good r).
  { pose proof (proj1 (gterms_good g H')) as G. unfold gterms in G. cbv zeta in G. fold p in G. rewrite !app_assoc in G. apply Forall_app in G. destruct G as [G _]. unfold r. rewrite !app_assoc. exact G. }
  assert (ES : S_ (gterms g) e = S_ r e + pick (dif p) (lin_c g * Rpower e (lin_n g))).
  { unfold gterms, r. cbv zeta. fold p. rewrite !S_app, (S_one (dif p)). ring. }
  assert (ED : D_ (gterms g) e = D_ r e + pick (dif p) (lin_c g * lin_n g * Rpower e (lin_n g) / e)).
  { unfold gterms, r. cbv zeta. fold p. rewrite !D_app, (D_one (dif p)). ring. }
  unfold D0. fold p. rewrite ES, ED. pose proof (D_ge_S r e GR He) as Q. unfold pick, ifb. pose proof (Rpower_pos e (lin_n g)) as W. assert (I : 0 < / e) by now apply Rinv_0_lt_compat.
  destruct (dif p) eqn:D; [|unfold Rdiv in *; lra]. destruct (L eq_refl) as (A & B & C). set (w := Rpower e (lin_n g)) in *. set (k := lin_n g) in *. clearbody w k. clear ES ED. set (cl := lin_c g) in *. clearbody cl.
  assert (W1 : 0 < cl * w / e) by (unfold Rdiv; repeat apply Rmult_lt_0_compat; assumption). set (u := cl * w / e) in *.
  replace (cl * k * w / e) with (k * u) by (unfold u; field; lra). replace (cl * (k - n_lin p) * w / e) with ((k - n_lin p) * u) by (unfold u; field; lra).
  replace ((S_ r e + cl * w) / e) with (S_ r e / e + u) by (unfold u; field; lra). clearbody u. nra.
Qed.

Lemma newton_pos g it e : gok g -> 0 < e -> 0 < gs_newton it g e.
Proof.
  intros H He. unfold gs_newton. rewrite resid_gS, gs_df_eq by assumption. destruct (gterms_good g H) as [G N]. pose proof (S_pos _ e G N) as S. pose proof (D0_ge_S g e H He) as D.
  assert (E : 0 < Eii (g_lip g)) by apply H. set (d := if Nat.ltb 1 it then D_ (gterms g) e else D0 g e).
  assert (Dd : S_ (gterms g) e / e <= d) by (unfold d; destruct (Nat.ltb 1 it); lra). clearbody d.
  assert (P : 0 < S_ (gterms g) e / e) by (apply Rdiv_lt_0_compat; assumption).
  replace (e - (Eii (g_lip g) - S_ (gterms g) e) / - d) with ((e * d - S_ (gterms g) e + Eii (g_lip g)) / d) by (field; lra). apply Rdiv_lt_0_compat; [|lra].
  apply Rmult_le_compat_l with (r := e) in Dd; [|lra]. replace (e * (S_ (gterms g) e / e)) with (S_ (gterms g) e) in Dd by (field; lra). lra.
Qed.

Lemma S_derivable l e : 0 < e -> derivable_pt_lim (S_ l) e (D_ l e).
Proof.
  intros He. induction l as [|[c n] l IH].
  - change (derivable_pt_lim (fun _ => 0) e 0). apply derivable_pt_lim_const.
  - rewrite D_cons. change (derivable_pt_lim (fun x => c * Rpower x n + S_ l x) e (c * n * Rpower e n / e + D_ l e)).
    apply (derivable_pt_lim_plus (fun x => c * Rpower x n) (S_ l)); [|exact IH].
    replace (c * n * Rpower e n / e) with (c * (n * Rpower e (n - 1))).
    + apply (derivable_pt_lim_scal (fun x => Rpower x n)). now apply derivable_pt_lim_power.
    + unfold Rminus. rewrite Rpower_plus, Rpower_Ropp, Rpower_1 by exact He. field. lra.
Qed.

Lemma root_exists g : gok g -> exists e, 0 < e /\ S_ (gterms g) e = Eii (g_lip g).
Proof.
  intros H. destruct (gterms_good g H) as [G N]. assert (E : 0 < Eii (g_lip g)) by apply H. pose proof (S_pos _ 1 G N) as S1.
  set (y := Rmax 1 (Eii (g_lip g) / S_ (gterms g) 1)). assert (1 <= y) by apply Rmax_l. assert (Y : Eii (g_lip g) / S_ (gterms g) 1 <= y) by apply Rmax_r.
  pose proof (S_superlinear _ 1 y G Rlt_0_1 H0) as Q. replace (y / 1) with y in Q by field.
  assert (Eii (g_lip g) <= y * S_ (gterms g) 1).
  { apply Rmult_le_compat_r with (r := S_ (gterms g) 1) in Y; [|lra]. unfold Rdiv in Y. rewrite Rmult_assoc, Rinv_l in Y by lra. lra. }
  destruct (S_root _ (Eii (g_lip g)) y G E ltac:(lra) ltac:(lra)) as (e & [A _] & B). now exists e.
Qed.

(** A small residual means a small error. *)
Lemma near_root l E x es tol : good l -> l <> [] -> 0 < E -> 0 < x -> 0 < es -> S_ l es = E -> 0 <= tol <= 1 / 2 -> Rabs ((E - S_ l x) / E) <= tol ->
  Rabs (x - es) <= tol * es /\ Rabs (N_ l E x - es) <= 2 * tol * es.
Proof.
  intros G N HE Hx Hes Es Ht R. pose proof (S_pos l x G N) as SP.
  assert (A : E * (1 - tol) <= S_ l x <= E * (1 + tol)).
  { assert (I : 0 < / E) by now apply Rinv_0_lt_compat. unfold Rdiv in R. rewrite Rabs_mult, (Rabs_pos_eq (/ E)) in R by lra.
    apply Rmult_le_compat_r with (r := E) in R; [|lra]. rewrite Rmult_assoc, Rinv_l in R by lra. rewrite Rmult_1_r in R. revert R. unfold Rabs. destruct (Rcase_abs _); lra. }
  assert (B : es * (1 - tol) <= x <= es * (1 + tol)).
  { split.
    - destruct (Rle_dec es x); [nra|]. pose proof (S_superlinear l x es G Hx ltac:(lra)) as Q. rewrite Es in Q.
      apply Rmult_le_compat_r with (r := x) in Q; [|lra]. replace (es / x * S_ l x * x) with (es * S_ l x) in Q by (field; lra). nra.
    - destruct (Rle_dec x es); [nra|]. pose proof (S_superlinear l es x G Hes ltac:(lra)) as Q. rewrite Es in Q.
      apply Rmult_le_compat_r with (r := es) in Q; [|lra]. replace (x / es * E * es) with (x * E) in Q by (field; lra). nra. }
  split; [apply Rabs_le; lra|].
  pose proof (D_pos l x G N Hx) as D. pose proof (D_ge_S l x G Hx) as DS.
  assert (LO : es <= N_ l E x).
  { pose proof (S_tangent l x es G Hx Hes) as T. rewrite Es in T. unfold N_. apply Rmult_le_reg_r with (D_ l x); [exact D|].
    rewrite Rmult_plus_distr_r. unfold Rdiv. rewrite Rmult_assoc, Rinv_l by lra. lra. }
  destruct (Rle_dec E (S_ l x)) as [C|C].
  - destruct (newton_bracket l E x es G N Hx Hes Es C) as [[_ Q] _]. apply Rabs_le. nra.
  - assert (UP : N_ l E x <= x + tol * es * 2).
    { unfold N_. apply Rplus_le_compat_l. apply Rmult_le_reg_r with (D_ l x); [exact D|]. unfold Rdiv. rewrite Rmult_assoc, Rinv_l by lra.
      apply Rmult_le_compat_r with (r := x) in DS; [|lra]. unfold Rdiv in DS. rewrite Rmult_assoc, Rinv_l in DS by lra.
      assert (XE : x <= es). { destruct (Rle_dec x es); [assumption|]. exfalso. pose proof (S_superlinear l es x G Hes ltac:(lra)) as Q. rewrite Es in Q.
        apply Rmult_le_compat_r with (r := es) in Q; [|lra]. replace (x / es * E * es) with (x * E) in Q by (field; lra). nra. }
      assert (X1 : S_ l x <= es * D_ l x) by nra. assert (X2 : E - S_ l x <= tol * E) by lra. assert (X3 : E <= 2 * S_ l x) by nra.
      assert (tol * E <= tol * (2 * (es * D_ l x))) by (apply Rmult_le_compat_l; lra). lra. }
    assert (XE : x <= es). { destruct (Rle_dec x es); [assumption|]. exfalso. pose proof (S_superlinear l es x G Hes ltac:(lra)) as Q. rewrite Es in Q.
        apply Rmult_le_compat_r with (r := es) in Q; [|lra]. replace (x / es * E * es) with (x * E) in Q by (field; lra). nra. }
    apply Rabs_le. lra.
Qed.
