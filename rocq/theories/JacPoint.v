(** The finite differences of the phase viscosities and the tangent operator of one
    material point. *)
From Coq Require Import ZArith Reals List Bool Lia Lra.
Import ListNotations.
From Verif Require RheoModel.
From Verif Require Import StokesModel JacModel JacProofs MatGridModel.
Local Open Scope R_scope.

(** ** Specification *)
(** [f] has the total derivative [(e1, e2, e3, e4)] at the state: its slope along every
    straight line through it. *)
Definition total_derivative (f : R -> R -> R -> R -> R) (a b c q e1 e2 e3 e4 : R) : Prop :=
  forall x y z r, derivable_pt_lim (fun t => f (a + t * x) (b + t * y) (c + t * z) (q + t * r)) 0 (e1 * x + e2 * y + e3 * z + e4 * r).
(** [F h] tends to [l] as the perturbation [h] shrinks. *)
Definition tends (F : R -> R) (l : R) : Prop :=
  forall eps, 0 < eps -> exists del, 0 < del /\ forall h, 0 < h < del -> Rabs (F h - l) < eps.
(** Sum over the phases present. *)
Fixpoint present (l : list phase) (v : phase -> R) : R :=
  match l with [] => 0 | p :: r => (if Rlt_dec (/ 10 ^ 13) (Rabs (frac p)) then frac p * v p else 0) + present r v end.
(** The average of the phase viscosities [v]. *)
Definition mean (avg : averaging) (l : list phase) (v : phase -> R) : R :=
  match avg with
  | Arithmetic => present l v
  | Harmonic => / present l (fun p => / v p)
  | Geometric => exp (present l (fun p => ln (v p)))
  end.
Definition is_present (p : phase) : Prop := / 10 ^ 13 < Rabs (frac p).

(** ** The averages are those of the rheology (MatGridModel) *)
Definition avg_code (a : averaging) : nat := match a with Arithmetic => 0 | Harmonic => 1 | Geometric => 2 end.
Lemma present_ext l v u : (forall p, In p l -> is_present p -> v p = u p) -> present l v = present l u.
Proof.
  induction l as [|p l IH]; intros H; [reflexivity|]. cbn [present]. rewrite IH by (intros; apply H; [right|]; assumption).
  destruct (Rlt_dec (/ 10 ^ 13) (Rabs (frac p))) as [A|A]; [|reflexivity]. rewrite (H p); [reflexivity|left; reflexivity|exact A].
Qed.
Lemma sum_active_eq avg l v acc :
  fold_left (fun a fe => if active (fst fe) then a + contrib (avg_code avg) (fst fe) (snd fe) else a) (map (fun p => (frac p, v p)) l) acc
  = acc + present l (fun p => match avg with Arithmetic => v p | Harmonic => / v p | Geometric => ln (v p) end).
Proof.
  revert acc. induction l as [|p l IH]; intros acc; cbn [map fold_left present]; [ring|]. rewrite IH. unfold active, RheoModel.Rltb. cbn [fst snd].
  destruct (Rlt_dec (/ 10 ^ 13) (Rabs (frac p))); [|ring]. destruct avg; cbn [avg_code contrib]; unfold Rdiv; ring.
Qed.
Lemma mean_is_cell_eta avg l v : mean avg l v = cell_eta (avg_code avg) (map (fun p => (frac p, v p)) l).
Proof.
  unfold cell_eta, sum_active. rewrite sum_active_eq. destruct avg; cbn [avg_code finish mean]; rewrite Rplus_0_l; [reflexivity|unfold Rdiv; ring|reflexivity].
Qed.

(** ** Phase loop *)
Lemma phase_loop_eq val sign dn a b c q l acc :
  phase_loop val sign dn a b c q l acc = acc + sign / dn * present l (fun p => val p a b c q).
Proof.
  revert acc. induction l as [|p l IH]; intros acc; unfold phase_loop in *; cbn [fold_left present]; [ring|]. rewrite IH.
  unfold p_active. destruct (Rlt_dec (/ 10 ^ 13) (Rabs (frac p))); [|ring]. unfold Rdiv. ring.
Qed.
Lemma two_sided_eq s h val a b c q l :
  two_sided s h val a b c q l = (present l (fun p => at_shift s (val p) h a b c q) - present l (fun p => at_shift s (val p) (- h) a b c q)) / denom s h.
Proof.
  unfold two_sided. destruct s; rewrite !phase_loop_eq; unfold at_shift, Rdiv, Rminus; ring.
Qed.

(** ** Central differences *)
Lemma central_tends F D : derivable_pt_lim F 0 D -> tends (fun h => (F h - F (- h)) / (2 * h)) D.
Proof.
  intros HD eps He. destruct (HD (eps / 2) ltac:(lra)) as [del Hd]. exists del. split; [apply cond_pos|].
  intros h Hh. pose proof (Hd h ltac:(lra) ltac:(rewrite Rabs_pos_eq; lra)) as H1.
  pose proof (Hd (- h) ltac:(lra) ltac:(rewrite Rabs_Ropp, Rabs_pos_eq; lra)) as H2.
  rewrite !Rplus_0_l in *.
  replace ((F h - F (- h)) / (2 * h) - D) with (/ 2 * ((F h - F 0) / h - D) + / 2 * ((F (- h) - F 0) / - h - D)) by (field; lra).
  eapply Rle_lt_trans; [apply Rabs_triang|]. rewrite !Rabs_mult, (Rabs_pos_eq (/ 2)) by lra. lra.
Qed.
Lemma tends_scal F l k : tends F l -> tends (fun h => F h * k) (l * k).
Proof.
  intros H eps He. destruct (H (eps / (Rabs k + 1))) as (del & Hp & Hd).
  { apply Rdiv_lt_0_compat; [lra|]. pose proof (Rabs_pos k). lra. }
  exists del. split; [exact Hp|]. intros h Hh. specialize (Hd h Hh).
  replace (F h * k - l * k) with ((F h - l) * k) by ring. rewrite Rabs_mult.
  assert (Hk := Rabs_pos k).
  apply Rle_lt_trans with (eps / (Rabs k + 1) * Rabs k); [apply Rmult_le_compat_r; lra|].
  apply Rlt_le_trans with (eps / (Rabs k + 1) * (Rabs k + 1)); [|right; field; lra].
  apply Rmult_lt_compat_l; [apply Rdiv_lt_0_compat; lra|lra].
Qed.
Lemma tends_ext F G l : (forall h, 0 < h -> F h = G h) -> tends G l -> tends F l.
Proof. intros E H eps He. destruct (H eps He) as (del & Hp & Hd). exists del. split; [exact Hp|]. intros h Hh. rewrite E by lra. now apply Hd. Qed.

Lemma present_derivative l (v : phase -> R -> R) (D : phase -> R) : (forall p, In p l -> is_present p -> derivable_pt_lim (v p) 0 (D p)) ->
  derivable_pt_lim (fun t => present l (fun p => v p t)) 0 (present l D).
Proof.
  induction l as [|p l IH]; intros H; cbn [present]; [apply derivable_pt_lim_const|].
  apply dlim_plus; [|apply IH; intros; apply H; [right|]; assumption].
  destruct (Rlt_dec (/ 10 ^ 13) (Rabs (frac p))) as [A|A]; [|apply derivable_pt_lim_const].
  apply dlim_ext with (g := fun t => v p t * frac p); [intros; ring|]. apply dlim_eq with (D p * frac p); [ring|].
  apply dlim_scal. apply H; [left; reflexivity|exact A].
Qed.

(** Slope in one slot: with respect to Gxz = 2 Exz for the shear. *)
Definition slot_slope (s : slot) (e1 e2 e3 e4 : R) : R := match s with Sxx => e1 | Szz => e2 | Sxz => e3 / 2 | Sp => e4 end.
Lemma shift_derivative s f a b c q e1 e2 e3 e4 : total_derivative f a b c q e1 e2 e3 e4 ->
  derivable_pt_lim (fun h => at_shift s f h a b c q) 0 (match s with Sxx => e1 | Szz => e2 | Sxz => e3 | Sp => e4 end).
Proof.
  intros H. destruct s; cbn [at_shift].
  - apply dlim_eq with (e1 * 1 + e2 * 0 + e3 * 0 + e4 * 0); [ring|]. refine (dlim_ext _ _ _ _ _ (H 1 0 0 0)). intros t; f_equal; ring.
  - apply dlim_eq with (e1 * 0 + e2 * 1 + e3 * 0 + e4 * 0); [ring|]. refine (dlim_ext _ _ _ _ _ (H 0 1 0 0)). intros t; f_equal; ring.
  - apply dlim_eq with (e1 * 0 + e2 * 0 + e3 * 1 + e4 * 0); [ring|]. refine (dlim_ext _ _ _ _ _ (H 0 0 1 0)). intros t; f_equal; ring.
  - apply dlim_eq with (e1 * 0 + e2 * 0 + e3 * 0 + e4 * 1); [ring|]. refine (dlim_ext _ _ _ _ _ (H 0 0 0 1)). intros t; f_equal; ring.
Qed.

(** The finite difference of any phase quantity converges to the slope of its sum. *)
Lemma two_sided_tends s val a b c q l (e : phase -> R * R * R * R) :
  (forall p, In p l -> is_present p -> let '(e1, e2, e3, e4) := e p in total_derivative (val p) a b c q e1 e2 e3 e4) ->
  tends (fun h => two_sided s h val a b c q l) (present l (fun p => let '(e1, e2, e3, e4) := e p in slot_slope s e1 e2 e3 e4)).
Proof.
  intros H.
  assert (HD : derivable_pt_lim (fun h => present l (fun p => at_shift s (val p) h a b c q)) 0
    (present l (fun p => let '(e1, e2, e3, e4) := e p in match s with Sxx => e1 | Szz => e2 | Sxz => e3 | Sp => e4 end))).
  { apply present_derivative. intros p Hp A. specialize (H p Hp A). destruct (e p) as [[[e1 e2] e3] e4]. now apply shift_derivative. }
  apply central_tends in HD.
  destruct s.
  1,2,4: (eapply tends_ext; [|exact HD]; intros h Hh; rewrite two_sided_eq; reflexivity).
  apply tends_scal with (k := / 2) in HD.
  replace (present l (fun p => let '(e1, e2, e3, e4) := e p in slot_slope Sxz e1 e2 e3 e4))
    with (present l (fun p => let '(e1, e2, e3, e4) := e p in e3) * / 2).
  { eapply tends_ext; [|exact HD]. intros h Hh. rewrite two_sided_eq. cbn [denom]. field. lra. }
  clear. induction l as [|p l IH]; cbn [present]; [ring|]. rewrite <- IH. destruct (e p) as [[[e1 e2] e3] e4]. cbn [slot_slope].
  destruct (Rlt_dec (/ 10 ^ 13) (Rabs (frac p))); field.
Qed.

(** A finite perturbation is exact for a quadratic and otherwise evaluates the slope at
    a point inside the perturbed interval. *)
Lemma two_sided_mean_value s h val a b c q l (dv : phase -> R -> R) : 0 < h ->
  (forall p x, In p l -> is_present p -> - h <= x <= h -> derivable_pt_lim (fun y => at_shift s (val p) y a b c q) x (dv p x)) ->
  exists xi, - h < xi < h /\ two_sided s h val a b c q l = present l (fun p => dv p xi) * (match s with Sxz => / 2 | _ => 1 end).
Proof.
  intros Hh H.
  assert (HD : forall x, - h <= x <= h -> derivable_pt_lim (fun y => present l (fun p => at_shift s (val p) y a b c q)) x (present l (fun p => dv p x))).
  { intros x Hx. clear Hh. induction l as [|p l IH]; cbn [present]; [apply derivable_pt_lim_const|].
    apply dlim_plus; [|apply IH; intros p' y Hp Hy; apply H; [right|]; assumption].
    destruct (Rlt_dec (/ 10 ^ 13) (Rabs (frac p))) as [A|A]; [|apply derivable_pt_lim_const].
    apply dlim_ext with (g := fun t => at_shift s (val p) t a b c q * frac p); [intros; ring|].
    apply dlim_eq with (dv p x * frac p); [ring|]. apply dlim_scal. apply H; [left; reflexivity|exact A|exact Hx]. }
  destruct (MVT_cor2 (fun y => present l (fun p => at_shift s (val p) y a b c q)) (fun x => present l (fun p => dv p x)) (- h) h ltac:(lra) HD) as (xi & E & Hxi).
  exists xi. split; [lra|]. rewrite two_sided_eq, E. destruct s; cbn [denom]; field; lra.
Qed.

(** ** Derivative of the averaged viscosity *)
Lemma present_scal l v k : present l v * k = present l (fun p => v p * k).
Proof.
  induction l as [|p l IH]; cbn [present]; [ring|]. rewrite <- IH. destruct (Rlt_dec (/ 10 ^ 13) (Rabs (frac p))); ring.
Qed.
Lemma present_pos l v : (forall p, In p l -> is_present p -> 0 < frac p /\ 0 < v p) -> (exists p, In p l /\ is_present p) -> 0 < present l v.
Proof.
  assert (NN : forall l, (forall p, In p l -> is_present p -> 0 < frac p /\ 0 < v p) -> 0 <= present l v).
  { clear. induction l as [|p l IH]; intros H; cbn [present]; [lra|].
    specialize (IH ltac:(intros; apply H; [right|]; assumption)). destruct (Rlt_dec (/ 10 ^ 13) (Rabs (frac p))) as [A|A]; [|lra].
    destruct (H p (or_introl eq_refl) A). pose proof (Rmult_lt_0_compat (frac p) (v p)). lra. }
  intros H (p0 & Hp & A0). induction l as [|p l IH]; [contradiction|]. cbn [present]. destruct Hp as [-> | Hp].
  - specialize (NN l ltac:(intros; apply H; [right|]; assumption)). destruct (Rlt_dec (/ 10 ^ 13) (Rabs (frac p0))) as [A|A]; [|contradiction].
    destruct (H p0 (or_introl eq_refl) A). pose proof (Rmult_lt_0_compat (frac p0) (v p0)). lra.
  - specialize (IH ltac:(intros; apply H; [right|]; assumption) Hp). destruct (Rlt_dec (/ 10 ^ 13) (Rabs (frac p))) as [A|A]; [|lra].
    destruct (H p (or_introl eq_refl) A). pose proof (Rmult_lt_0_compat (frac p) (v p)). lra.
Qed.
Lemma present_sum_pos l : present l (fun _ => 1) = 1 -> exists p, In p l /\ is_present p.
Proof.
  induction l as [|p l IH]; cbn [present]; intros H; [lra|]. destruct (Rlt_dec (/ 10 ^ 13) (Rabs (frac p))) as [A|A].
  - exists p. split; [left; reflexivity|exact A].
  - destruct IH as (p0 & H0 & A0); [lra|]. exists p0. split; [right|]; assumption.
Qed.
Lemma dlim_inv f l : derivable_pt_lim f 0 l -> f 0 <> 0 -> derivable_pt_lim (fun t => / f t) 0 (- l / (f 0) ^ 2).
Proof.
  intros H N. apply dlim_ext with (g := fun t => 1 / f t); [intros; unfold Rdiv; ring|].
  apply dlim_eq with ((0 * f 0 - l * 1) / Rsqr (f 0)); [unfold Rsqr; field; exact N|].
  apply (derivable_pt_lim_div (fun _ => 1) f); [apply derivable_pt_lim_const|exact H|exact N].
Qed.
Lemma dlim_ln f l : derivable_pt_lim f 0 l -> 0 < f 0 -> derivable_pt_lim (fun t => ln (f t)) 0 (l / f 0).
Proof.
  intros H N. apply dlim_eq with (/ f 0 * l); [unfold Rdiv; ring|].
  apply (derivable_pt_lim_comp f ln); [exact H|]. apply derivable_pt_lim_ln. exact N.
Qed.
Lemma dlim_exp f l : derivable_pt_lim f 0 l -> derivable_pt_lim (fun t => exp (f t)) 0 (l * exp (f 0)).
Proof.
  intros H. apply dlim_eq with (exp (f 0) * l); [ring|].
  apply (derivable_pt_lim_comp f exp); [exact H|]. apply derivable_pt_lim_exp.
Qed.

Lemma mean_derivative avg l (v : phase -> R -> R) (D : phase -> R) :
  (forall p, In p l -> is_present p -> 0 < frac p /\ 0 < v p 0 /\ p_ref p = v p 0 /\ derivable_pt_lim (v p) 0 (D p)) ->
  present l (fun _ => 1) = 1 ->
  derivable_pt_lim (fun t => mean avg l (fun p => v p t)) 0
    (rescale avg (mean avg l (fun p => v p 0)) (present l (fun p => D p * fd_weight avg p))).
Proof.
  intros H Hs. pose proof (present_sum_pos l Hs) as Hex.
  destruct avg; cbn [mean rescale fd_weight].
  - apply dlim_eq with (present l D); [apply present_ext; intros; ring|]. apply present_derivative. intros p Hp A. apply (H p Hp A).
  - assert (Hpos : 0 < present l (fun p => / v p 0)).
    { apply present_pos; [|exact Hex]. intros p Hp A. destruct (H p Hp A) as (h1 & h2 & _). split; [exact h1|]. now apply Rinv_0_lt_compat. }
    assert (HD : derivable_pt_lim (fun t => present l (fun p => / v p t)) 0 (present l (fun p => - D p / v p 0 ^ 2))).
    { apply present_derivative. intros p Hp A. destruct (H p Hp A) as (h1 & h2 & _ & h3). apply dlim_inv; [exact h3|lra]. }
    apply dlim_inv in HD; [|lra].
    refine (dlim_eq _ _ _ _ _ HD).
    assert (E : present l (fun p => D p * / p_ref p ^ 2) = present l (fun p => - D p / v p 0 ^ 2) * - 1).
    { rewrite present_scal. apply present_ext. intros p Hp A. destruct (H p Hp A) as (h1 & h2 & -> & _). field. lra. }
    rewrite E. field. lra.
  - apply dlim_eq with (present l (fun p => D p / v p 0) * exp (present l (fun p => ln (v p 0)))).
    { f_equal. apply present_ext. intros p Hp A. destruct (H p Hp A) as (h1 & h2 & -> & _). reflexivity. }
    apply (dlim_exp (fun t => present l (fun p => ln (v p t)))).
    apply present_derivative. intros p Hp A. destruct (H p Hp A) as (h1 & h2 & _ & h3). apply (dlim_ln (v p)); assumption.
Qed.

Definition e1_of (e : R * R * R * R) := fst (fst (fst e)).
Definition e2_of (e : R * R * R * R) := snd (fst (fst e)).
Definition e3_of (e : R * R * R * R) := snd (fst e).
Definition e4_of (e : R * R * R * R) := snd e.

(** Total derivative of the averaged viscosity. *)
Lemma mean_total avg l a b c q (e : phase -> R * R * R * R) :
  (forall p, In p l -> is_present p -> 0 < frac p /\ 0 < p_eta p a b c q /\ p_ref p = p_eta p a b c q /\
     total_derivative (p_eta p) a b c q (e1_of (e p)) (e2_of (e p)) (e3_of (e p)) (e4_of (e p))) ->
  present l (fun _ => 1) = 1 ->
  let part f := rescale avg (mean avg l (fun p => p_eta p a b c q)) (present l (fun p => f (e p) * fd_weight avg p)) in
  total_derivative (fun a b c q => mean avg l (fun p => p_eta p a b c q)) a b c q (part e1_of) (part e2_of) (part e3_of) (part e4_of).
Proof.
  intros H Hs part x y z r.
  assert (Z0 : forall p, p_eta p (a + 0 * x) (b + 0 * y) (c + 0 * z) (q + 0 * r) = p_eta p a b c q) by (intros; f_equal; ring).
  pose proof (mean_derivative avg l (fun p t => p_eta p (a + t * x) (b + t * y) (c + t * z) (q + t * r))
    (fun p => e1_of (e p) * x + e2_of (e p) * y + e3_of (e p) * z + e4_of (e p) * r)) as M.
  refine (dlim_eq _ _ _ _ _ (M _ Hs)).
  2:{ intros p Hp A. destruct (H p Hp A) as (h1 & h2 & h3 & h4). rewrite Z0. split; [exact h1|]. split; [exact h2|]. split; [exact h3|]. apply h4. }
  clear M. unfold part.
  assert (E : present l (fun p => (e1_of (e p) * x + e2_of (e p) * y + e3_of (e p) * z + e4_of (e p) * r) * fd_weight avg p)
    = present l (fun p => e1_of (e p) * fd_weight avg p) * x + present l (fun p => e2_of (e p) * fd_weight avg p) * y
    + present l (fun p => e3_of (e p) * fd_weight avg p) * z + present l (fun p => e4_of (e p) * fd_weight avg p) * r).
  { clear. induction l as [|p l IH]; cbn [present]; [ring|]. rewrite IH. destruct (Rlt_dec (/ 10 ^ 13) (Rabs (frac p))); ring. }
  rewrite E. replace (mean avg l (fun p => p_eta p (a + 0 * x) (b + 0 * y) (c + 0 * z) (q + 0 * r))) with (mean avg l (fun p => p_eta p a b c q)).
  - destruct avg; cbn [rescale]; ring.
  - destruct avg; cbn [mean]; [|f_equal|f_equal]; apply present_ext; intros; now rewrite Z0.
Qed.

(** ** The rows of the tangent operator *)
Definition dot4 (r : R * R * R * R) (x y g p : R) : R := let '(a, b, c, q) := r in a * x + b * y + c * g + q * p.

(** Any viscosity [eta] and plastic divergence [dv] with total derivatives
    [(e1, e2, e3, e4)], [(v1, v2, v3, v4)]; directions are given in Exx, Ezz,
    Gxz = 2 Exz and P. *)
Section Rows.
Variables (eta dv : R -> R -> R -> R -> R) (A d1 d2 Kdt a b c q e1 e2 e3 e4 v1 v2 v3 v4 : R).
Hypothesis He : total_derivative eta a b c q e1 e2 e3 e4.
Hypothesis Hv : total_derivative dv a b c q v1 v2 v3 v4.
Variables (x y g r : R).
Lemma dir_eta : derivable_pt_lim (fun t => eta (a + t * x) (b + t * y) (c + t * (g / 2)) (q + t * r)) 0 (e1 * x + e2 * y + e3 / 2 * g + e4 * r).
Proof. refine (dlim_eq _ _ _ _ _ (He x y (g / 2) r)). field. Qed.
Lemma dir_dv : derivable_pt_lim (fun t => dv (a + t * x) (b + t * y) (c + t * (g / 2)) (q + t * r)) 0 (v1 * x + v2 * y + v3 / 2 * g + v4 * r).
Proof. refine (dlim_eq _ _ _ _ _ (Hv x y (g / 2) r)). field. Qed.
Lemma eta_at0 : eta (a + 0 * x) (b + 0 * y) (c + 0 * (g / 2)) (q + 0 * r) = eta a b c q.
Proof. f_equal; ring. Qed.
Lemma dlim_mult f k l l' : derivable_pt_lim f 0 l -> derivable_pt_lim k 0 l' -> derivable_pt_lim (fun t => f t * k t) 0 (l * k 0 + f 0 * l').
Proof. intros. now apply (derivable_pt_lim_mult f k). Qed.
Lemma pressure_row : derivable_pt_lim (fun t => (q + t * r) + Kdt * dv (a + t * x) (b + t * y) (c + t * (g / 2)) (q + t * r)) 0
  (r + Kdt * (v1 * x + v2 * y + v3 / 2 * g + v4 * r)).
Proof.
  apply dlim_plus; [apply dlim_affine|].
  apply dlim_ext with (g := fun t => dv (a + t * x) (b + t * y) (c + t * (g / 2)) (q + t * r) * Kdt); [intros; ring|].
  apply dlim_eq with ((v1 * x + v2 * y + v3 / 2 * g + v4 * r) * Kdt); [ring|]. apply dlim_scal, dir_dv.
Qed.
Lemma stress_row D0 D' (Df : R -> R) : Df 0 = D0 -> derivable_pt_lim Df 0 D' ->
  derivable_pt_lim (fun t => 2 * eta (a + t * x) (b + t * y) (c + t * (g / 2)) (q + t * r) * Df t) 0
    (2 * (e1 * x + e2 * y + e3 / 2 * g + e4 * r) * D0 + 2 * eta a b c q * D').
Proof.
  intros E H. apply dlim_ext with (g := fun t => eta (a + t * x) (b + t * y) (c + t * (g / 2)) (q + t * r) * (Df t * 2)); [intros; ring|].
  eapply dlim_eq; [|apply dlim_mult; [apply dir_eta|apply dlim_scal, H]]. cbv beta. rewrite eta_at0, E. ring.
Qed.
Lemma dlim_D k1 k2 k3 : derivable_pt_lim (fun t => (a + t * x) * k1 + (b + t * y) * k2 + 2 * (c + t * (g / 2)) * k3) 0 (x * k1 + y * k2 + g * k3).
Proof.
  apply dlim_ext with (g := fun t => (a * k1 + b * k2 + 2 * c * k3) + t * (x * k1 + y * k2 + g * k3)); [intros; field|]. apply dlim_affine.
Qed.
Lemma row1_tangent :
  derivable_pt_lim (fun t => 2 * eta (a + t * x) (b + t * y) (c + t * (g / 2)) (q + t * r) * Dxx A d1 d2 (a + t * x) (b + t * y) (2 * (c + t * (g / 2)))
     - ((q + t * r) + Kdt * dv (a + t * x) (b + t * y) (c + t * (g / 2)) (q + t * r))) 0
   (dot4 (row1 A d1 d2 (eta a b c q) (Dxx A d1 d2 a b (2 * c)) e1 e2 (e3 / 2) e4 Kdt v1 v2 (v3 / 2) v4) x y g r - r).
Proof.
  eapply dlim_eq; [|apply dlim_minus; [apply (stress_row (Dxx A d1 d2 a b (2 * c)) (x * (1 - A * d1) + y * (A * d1) + g * - (A * d2)))|apply pressure_row]].
  - unfold dot4, row1. ring.
  - unfold Dxx. ring.
  - eapply dlim_ext; [|apply dlim_D]. intros t. unfold Dxx. ring.
Qed.
Lemma row2_tangent :
  derivable_pt_lim (fun t => 2 * eta (a + t * x) (b + t * y) (c + t * (g / 2)) (q + t * r) * Dzz A d1 d2 (a + t * x) (b + t * y) (2 * (c + t * (g / 2)))
     - ((q + t * r) + Kdt * dv (a + t * x) (b + t * y) (c + t * (g / 2)) (q + t * r))) 0
   (dot4 (row2 A d1 d2 (eta a b c q) (Dzz A d1 d2 a b (2 * c)) e1 e2 (e3 / 2) e4 Kdt v1 v2 (v3 / 2) v4) x y g r - r).
Proof.
  eapply dlim_eq; [|apply dlim_minus; [apply (stress_row (Dzz A d1 d2 a b (2 * c)) (x * (A * d1) + y * (1 - A * d1) + g * (A * d2)))|apply pressure_row]].
  - unfold dot4, row2. ring.
  - unfold Dzz. ring.
  - eapply dlim_ext; [|apply dlim_D]. intros t. unfold Dzz. ring.
Qed.
Lemma row3_tangent :
  derivable_pt_lim (fun t => 2 * eta (a + t * x) (b + t * y) (c + t * (g / 2)) (q + t * r) * Dxz A d1 d2 (a + t * x) (b + t * y) (2 * (c + t * (g / 2)))) 0
   (dot4 (row3 A d1 d2 (eta a b c q) (Dxz A d1 d2 a b (2 * c)) e1 e2 (e3 / 2) e4) x y g r).
Proof.
  eapply dlim_eq; [|apply (stress_row (Dxz A d1 d2 a b (2 * c)) (x * - (A * d2) + y * (A * d2) + g * (A * (d1 - / 2) + / 2)))].
  - unfold dot4, row3. field.
  - unfold Dxz. field.
  - eapply dlim_ext; [|apply dlim_D]. intros t. unfold Dxz. field.
Qed.
End Rows.

(** ** The corrected pressure *)
Lemma present_total l (f : phase -> R -> R -> R -> R -> R) a b c q (e : phase -> R * R * R * R) :
  (forall p, In p l -> is_present p -> total_derivative (f p) a b c q (e1_of (e p)) (e2_of (e p)) (e3_of (e p)) (e4_of (e p))) ->
  total_derivative (fun a b c q => present l (fun p => f p a b c q)) a b c q
    (present l (fun p => e1_of (e p))) (present l (fun p => e2_of (e p))) (present l (fun p => e3_of (e p))) (present l (fun p => e4_of (e p))).
Proof.
  intros H x y z r. refine (dlim_eq _ _ _ _ _ (present_derivative l (fun p t => f p (a + t * x) (b + t * y) (c + t * z) (q + t * r))
    (fun p => e1_of (e p) * x + e2_of (e p) * y + e3_of (e p) * z + e4_of (e p) * r) _)).
  - clear. induction l as [|p l IH]; cbn [present]; [ring|]. rewrite IH. destruct (Rlt_dec (/ 10 ^ 13) (Rabs (frac p))); ring.
  - intros p Hp A. apply (H p Hp A).
Qed.
Lemma present_pressure l q Kdt v : present l (fun _ => 1) = 1 -> present l (fun p => q + Kdt * v p) = q + Kdt * present l v.
Proof.
  intros H. replace (q + Kdt * present l v) with (q * present l (fun _ => 1) + Kdt * present l v) by (rewrite H; ring). clear H.
  induction l as [|p l IH]; cbn [present]; [ring|]. rewrite IH. destruct (Rlt_dec (/ 10 ^ 13) (Rabs (frac p))); ring.
Qed.

(** ** Limits of the finite differences used by the code *)
Definition pick (s : slot) (e : R * R * R * R) : R := match s with Sxx => e1_of e | Szz => e2_of e | Sxz => e3_of e / 2 | Sp => e4_of e end.
Lemma fd_divp_tends s a b c q l (e : phase -> R * R * R * R) :
  (forall p, In p l -> is_present p -> total_derivative (p_divp p) a b c q (e1_of (e p)) (e2_of (e p)) (e3_of (e p)) (e4_of (e p))) ->
  tends (fun h => fd_divp s h a b c q l) (pick s (present l (fun p => e1_of (e p)), present l (fun p => e2_of (e p)), present l (fun p => e3_of (e p)), present l (fun p => e4_of (e p)))).
Proof.
  intros H. pose proof (two_sided_tends s p_divp a b c q l e) as T.
  assert (E : present l (fun p => let '(e1, e2, e3, e4) := e p in slot_slope s e1 e2 e3 e4)
    = pick s (present l (fun p => e1_of (e p)), present l (fun p => e2_of (e p)), present l (fun p => e3_of (e p)), present l (fun p => e4_of (e p)))).
  { destruct s; cbn [pick e1_of e2_of e3_of e4_of fst snd]; unfold Rdiv; rewrite ?present_scal; apply present_ext; intros p _ _;
      destruct (e p) as [[[x1 x2] x3] x4]; reflexivity. }
  rewrite <- E. apply T. intros p Hp A. specialize (H p Hp A). destruct (e p) as [[[x1 x2] x3] x4]. exact H.
Qed.
Lemma total_scal f a b c q e1 e2 e3 e4 k : total_derivative f a b c q e1 e2 e3 e4 ->
  total_derivative (fun a b c q => f a b c q * k) a b c q (e1 * k) (e2 * k) (e3 * k) (e4 * k).
Proof. intros H x y z r. eapply dlim_eq; [|apply dlim_scal, H]. ring. Qed.
Lemma fd_eta_tends avg s a b c q l (e : phase -> R * R * R * R) eta :
  (forall p, In p l -> is_present p -> total_derivative (p_eta p) a b c q (e1_of (e p)) (e2_of (e p)) (e3_of (e p)) (e4_of (e p))) ->
  let part f := rescale avg eta (present l (fun p => f (e p) * fd_weight avg p)) in
  tends (fun h => fd_eta avg eta s h a b c q l) (pick s (part e1_of, part e2_of, part e3_of, part e4_of)).
Proof.
  intros H part. unfold fd_eta.
  pose proof (two_sided_tends s (fun p a b c q => p_eta p a b c q * fd_weight avg p) a b c q l
    (fun p => (e1_of (e p) * fd_weight avg p, e2_of (e p) * fd_weight avg p, e3_of (e p) * fd_weight avg p, e4_of (e p) * fd_weight avg p))) as T.
  specialize (T (fun p Hp A => total_scal _ _ _ _ _ _ _ _ _ _ (H p Hp A))). cbv beta iota in T.
  assert (E : forall k : R, present l (fun p => slot_slope s (e1_of (e p) * fd_weight avg p) (e2_of (e p) * fd_weight avg p) (e3_of (e p) * fd_weight avg p) (e4_of (e p) * fd_weight avg p)) * k
    = pick s (present l (fun p => e1_of (e p) * fd_weight avg p) * k, present l (fun p => e2_of (e p) * fd_weight avg p) * k, present l (fun p => e3_of (e p) * fd_weight avg p) * k, present l (fun p => e4_of (e p) * fd_weight avg p) * k)).
  { intros k. destruct s; cbn [pick slot_slope]; unfold e1_of, e2_of, e3_of, e4_of; cbn [fst snd]; try reflexivity.
    unfold Rdiv. rewrite <- (present_scal _ _ (/ 2)). ring. }
  assert (E1 : forall x, rescale avg eta x = x * rescale avg eta 1) by (intros; destruct avg; cbn; ring).
  eapply tends_ext; [intros h _; apply E1|].
  unfold part. rewrite (E1 (present l (fun p => e1_of (e p) * fd_weight avg p))), (E1 (present l (fun p => e2_of (e p) * fd_weight avg p))),
    (E1 (present l (fun p => e3_of (e p) * fd_weight avg p))), (E1 (present l (fun p => e4_of (e p) * fd_weight avg p))).
  rewrite <- E. apply tends_scal, T.
Qed.
