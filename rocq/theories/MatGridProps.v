(** * C61-C64: averages over phases, softening, tables, strain rates *)
From Coq Require Import Reals List Bool ZArith Lra Lia Psatz Permutation.
From Verif Require Import RheoModel MatGridModel.
Import ListNotations.
Local Open Scope R_scope.

(** ** C61: averages over the phases of a cell *)

(** Specification: the phases that count, their total fraction, and the three weighted means. *)
Definition big (f : R) : Prop := / 10 ^ 13 < Rabs f.
Fixpoint total (l : list (R * R)) : R := match l with [] => 0 | (f, _) :: t => f + total t end.
Fixpoint weighted (g : R -> R) (l : list (R * R)) : R := match l with [] => 0 | (f, e) :: t => f * g e + weighted g t end.
(** All phases are present in a substantial amount or not at all. *)
Definition fractions (l : list (R * R)) : Prop :=
  Forall (fun fe => 0 <= fst fe /\ (fst fe = 0 \/ big (fst fe))) l /\ total l = 1.
Definition values (lo hi : R) (l : list (R * R)) : Prop := Forall (fun fe => fst fe <> 0 -> lo <= snd fe <= hi) l.

Lemma Rltb_iff : forall a b, Rltb a b = true <-> a < b.
Proof. intros. unfold Rltb. destruct (Rlt_dec a b); split; intros; (reflexivity || assumption || discriminate || contradiction). Qed.
Lemma Rleb_iff : forall a b, Rleb a b = true <-> a <= b.
Proof. intros. unfold Rleb. destruct (Rle_dec a b); split; intros; (reflexivity || assumption || discriminate || contradiction). Qed.
Lemma ln_le : forall x y, 0 < x -> x <= y -> ln x <= ln y.
Proof. intros x y Hx [H| ->]; [left; now apply ln_increasing|lra]. Qed.
Lemma active_iff : forall f, active f = true <-> big f.
Proof. intros. apply Rltb_iff. Qed.
Lemma active0 : active 0 = false.
Proof. destruct (active 0) eqn:E; [|reflexivity]. apply active_iff in E. unfold big in E. rewrite Rabs_R0 in E.
  assert (0 < / 10 ^ 13) by (apply Rinv_0_lt_compat, pow_lt; lra). lra. Qed.

Definition tr (avg : nat) : R -> R := match avg with O => fun e => e | 1%nat => fun e => / e | _ => fun e => ln e end.
Lemma sum_weighted : forall avg l, (avg <= 2)%nat -> fractions l -> sum_active avg l = weighted (tr avg) l.
Proof.
  intros avg l Ha [Hf _]. unfold sum_active.
  assert (G : forall l a, Forall (fun fe => 0 <= fst fe /\ (fst fe = 0 \/ big (fst fe))) l ->
     fold_left (fun a fe => if active (fst fe) then a + contrib avg (fst fe) (snd fe) else a) l a = a + weighted (tr avg) l).
  { clear l Hf. induction l as [|[f e] l IH]; intros a H; cbn [fold_left weighted fst snd]; [ring|].
    apply Forall_cons_iff in H. destruct H as [[H1 H2] H3]. cbn [fst] in *. rewrite IH by exact H3. destruct H2 as [->|H2].
    - rewrite active0. ring.
    - apply active_iff in H2. rewrite H2. destruct avg as [|[|[|]]]; cbn [contrib tr]; [ring|unfold Rdiv; ring|ring|lia]. }
  rewrite G by exact Hf. ring.
Qed.

Lemma weighted_le : forall g h l, Forall (fun fe => 0 <= fst fe) l -> Forall (fun fe => fst fe <> 0 -> g (snd fe) <= h (snd fe)) l ->
  weighted g l <= weighted h l.
Proof.
  induction l as [|[f e] l IH]; intros H1 H2; cbn [weighted]; [lra|].
  apply Forall_cons_iff in H1, H2. destruct H1 as [A B], H2 as [C D]. cbn [fst snd] in *. specialize (IH B D).
  destruct (Req_dec f 0) as [->|N]; [lra|]. specialize (C N). nra.
Qed.
Lemma weighted_cst : forall c l, weighted (fun _ => c) l = c * total l.
Proof. induction l as [|[f e] l IH]; cbn [weighted total]; [ring|rewrite IH; ring]. Qed.
Lemma fr_nonneg : forall l, fractions l -> Forall (fun fe => 0 <= fst fe) l.
Proof. intros l [H _]. eapply Forall_impl; [|exact H]. intros a [K _]. exact K. Qed.
Lemma weighted_between : forall g lo hi l, fractions l -> Forall (fun fe => fst fe <> 0 -> lo <= g (snd fe) <= hi) l ->
  lo <= weighted g l <= hi.
Proof.
  intros g lo hi l H V. pose proof (fr_nonneg l H) as N.
  assert (A := weighted_le (fun _ => lo) g l N). assert (B := weighted_le g (fun _ => hi) l N).
  rewrite weighted_cst in A, B. destruct H as [_ T]. rewrite T in A, B.
  split; [rewrite <- (Rmult_1_r lo); apply A|rewrite <- (Rmult_1_r hi); apply B];
    (eapply Forall_impl; [|exact V]; cbn; intros a K L; specialize (K L); lra).
Qed.

(** Whichever average is chosen, the viscosity of a cell lies between the smallest and the largest
    viscosity of the phases present. *)
Theorem C61_average_between : forall avg l lo hi, (avg <= 2)%nat -> 0 < lo -> fractions l -> values lo hi l ->
  lo <= cell_eta avg l <= hi.
Proof.
  intros avg l lo hi Ha Hlo F V. unfold cell_eta. rewrite sum_weighted by assumption.
  destruct avg as [|[|[|]]]; cbn [finish tr]; [| | |lia].
  - apply weighted_between; assumption.
  - assert (B : / hi <= weighted (fun e => / e) l <= / lo).
    { apply weighted_between; [exact F|]. eapply Forall_impl; [|exact V]. cbn. intros a K L. specialize (K L).
      split; apply Rinv_le_contravar; lra. }
    assert (Hh : 0 < hi).
    { destruct (Rle_or_lt hi 0) as [C|C]; [|exact C]. exfalso. destruct F as [F T].
      assert (Z : total l = 0).
      { clear T B. induction l as [|[f e] l IH]; cbn [total]; [reflexivity|].
        apply Forall_cons_iff in V. destruct V as [V1 V2]. apply Forall_cons_iff in F. destruct F as [F1 F2]. rewrite IH by assumption.
        cbn [fst snd] in V1. destruct (Req_dec f 0) as [->|N]; [ring|]. specialize (V1 N). lra. }
      lra. }
    assert (0 < / hi) by (now apply Rinv_0_lt_compat).
    unfold Rdiv. rewrite Rmult_1_l. split.
    + rewrite <- (Rinv_inv lo). apply Rinv_le_contravar; lra.
    + rewrite <- (Rinv_inv hi). apply Rinv_le_contravar; lra.
  - assert (Hh : 0 < hi).
    { destruct (Rle_or_lt hi 0) as [C|C]; [|exact C]. exfalso. destruct F as [F T].
      assert (Z : total l = 0).
      { clear T. induction l as [|[f e] l IH]; cbn [total]; [reflexivity|].
        apply Forall_cons_iff in V. destruct V as [V1 V2]. apply Forall_cons_iff in F. destruct F as [F1 F2]. rewrite IH by assumption.
        cbn [fst snd] in V1. destruct (Req_dec f 0) as [->|N]; [ring|]. specialize (V1 N). lra. }
      lra. }
    assert (B : ln lo <= weighted (fun e => ln e) l <= ln hi).
    { apply weighted_between; [exact F|]. eapply Forall_impl; [|exact V]. cbn. intros a K L. specialize (K L). split; apply ln_le; lra. }
    assert (M : forall a b, a <= b -> exp a <= exp b).
    { intros a b [K| ->]; [left; now apply exp_increasing|lra]. }
    rewrite <- (exp_ln lo) by lra. rewrite <- (exp_ln hi) by lra. split; apply M; apply B.
Qed.
Print Assumptions C61_average_between.

(** With every phase's viscosity passed through the limiter, the averaged one respects the limits too. *)
Theorem C61_within_limits : forall avg l mn mx, (avg <= 2)%nat -> 0 < mn <= mx -> fractions l ->
  mn <= cell_eta avg (map (fun fe => (fst fe, limit_eta mn mx (snd fe))) l) <= mx.
Proof.
  intros avg l mn mx Ha H F. apply C61_average_between; [exact Ha|lra| |].
  - destruct F as [F T]. split.
    + apply Forall_map. eapply Forall_impl; [|exact F]. cbn. auto.
    + rewrite <- T. clear. induction l as [|[f e] l IH]; cbn [map total fst]; [reflexivity|now rewrite IH].
  - apply Forall_map, Forall_forall. intros [f e] _ _. cbn [fst snd]. unfold limit_eta.
    destruct (Rltb mx e) eqn:E1; [apply Rltb_iff in E1|]; destruct (Rltb _ mn) eqn:E2;
      try (apply Rltb_iff in E2); try lra.
    assert (~ e < mn) by (intros Q; apply Rltb_iff in Q; congruence). assert (~ mx < e) by (intros Q; apply Rltb_iff in Q; congruence). lra.
Qed.
Print Assumptions C61_within_limits.

(** Harmonic <= geometric <= arithmetic, so the three choices are ordered from weak to strong. *)
Theorem C61_averages_ordered : forall l lo hi, 0 < lo -> fractions l -> values lo hi l ->
  cell_eta 1 l <= cell_eta 2 l <= cell_eta 0 l.
Proof.
  intros l lo hi Hlo F V.
  assert (GA : forall l', fractions l' -> forall h, values h hi l' \/ True -> Forall (fun fe => fst fe <> 0 -> 0 < snd fe) l' ->
     0 < weighted (fun e => e) l' -> weighted (fun e => ln e) l' <= ln (weighted (fun e => e) l')).
  { intros l' F' _ _ Pz HA. set (A := weighted (fun e => e) l') in *.
    assert (B : weighted (fun e => ln e) l' <= weighted (fun e => ln A + (e / A - 1)) l').
    { apply weighted_le; [now apply fr_nonneg|]. eapply Forall_impl; [|exact Pz]. cbn. intros [f e] K L. cbn [fst snd] in *. specialize (K L).
      assert (Q : 0 < e / A) by (apply Rdiv_lt_0_compat; lra).
      replace e with (A * (e / A)) at 1 by (field; lra). rewrite ln_mult by lra.
      apply Rplus_le_compat_l. rewrite <- (ln_exp (e / A - 1)). apply ln_le; [exact Q|]. pose proof (exp_ineq1_le (e / A - 1)). lra. }
    assert (W : forall l a b, weighted (fun e => a + (e / b - 1)) l = (a - 1) * total l + / b * weighted (fun e => e) l).
    { clear. induction l as [|[f e] l IH]; intros a b; cbn [weighted total]; [ring|rewrite IH; unfold Rdiv; ring]. }
    rewrite W in B. destruct F' as [_ T]. rewrite T in B. fold A in B. rewrite Rinv_l in B by lra. lra. }
  assert (Pz : Forall (fun fe => fst fe <> 0 -> 0 < snd fe) l) by (eapply Forall_impl; [|exact V]; cbn; intros a K L; specialize (K L); lra).
  assert (M : forall a b, a <= b -> exp a <= exp b) by (intros a b [K| ->]; [left; now apply exp_increasing|lra]).
  assert (B0 := C61_average_between 0 l lo hi ltac:(lia) Hlo F V). assert (B1 := C61_average_between 1 l lo hi ltac:(lia) Hlo F V).
  unfold cell_eta in *. rewrite !sum_weighted in * by (assumption || lia). cbn [finish tr] in *. split.
  - set (l' := map (fun fe => (fst fe, / snd fe)) l).
    assert (E1 : forall g, weighted g l' = weighted (fun e => g (/ e)) l).
    { intros g. unfold l'. clear. induction l as [|[f e] l IH]; cbn [map weighted fst snd]; [reflexivity|now rewrite IH]. }
    assert (F' : fractions l').
    { destruct F as [F T]. split; [unfold l'; apply Forall_map; eapply Forall_impl; [|exact F]; cbn; auto|].
      rewrite <- T. unfold l'. clear. induction l as [|[f e] l IH]; cbn [map total fst]; [reflexivity|now rewrite IH]. }
    assert (Pz' : Forall (fun fe => fst fe <> 0 -> 0 < snd fe) l').
    { unfold l'. apply Forall_map. eapply Forall_impl; [|exact Pz]. cbn. intros a K L. apply Rinv_0_lt_compat. auto. }
    assert (HW : 0 < weighted (fun e => / e) l).
    { unfold Rdiv in B1. rewrite Rmult_1_l in B1. rewrite <- (Rinv_inv (weighted _ _)). apply Rinv_0_lt_compat. lra. }
    pose proof (GA l' F' 0 (or_intror I) Pz') as Q. rewrite !E1 in Q. specialize (Q HW).
    assert (LN : weighted (fun e => ln (/ e)) l = - weighted (fun e => ln e) l).
    { clear - Pz. induction l as [|[f e] l IH]; cbn [weighted]; [ring|]. apply Forall_cons_iff in Pz. destruct Pz as [P1 P2]. rewrite IH by exact P2.
      cbn [fst snd] in P1. destruct (Req_dec f 0) as [->|N]; [ring|]. rewrite ln_Rinv by auto. ring. }
    rewrite LN in Q. unfold Rdiv. rewrite Rmult_1_l. set (w := weighted (fun e => / e) l) in *.
    rewrite <- (exp_ln w) by exact HW. rewrite <- exp_Ropp. apply M. lra.
  - assert (HA : 0 < weighted (fun e => e) l) by lra. specialize (GA l F 0 (or_intror I) Pz HA).
    rewrite <- (exp_ln (weighted (fun e => e) l)) by exact HA. now apply M.
Qed.
Print Assumptions C61_averages_ordered.

(** The order of the phases is irrelevant (up to rounding, which is not modelled). *)
Theorem C61_phase_order_irrelevant : forall avg l l', Permutation l l' -> cell_eta avg l = cell_eta avg l'.
Proof.
  intros avg l l' H. unfold cell_eta. f_equal. unfold sum_active.
  assert (G : forall l a, fold_left (fun a fe => if active (fst fe) then a + contrib avg (fst fe) (snd fe) else a) l a
     = a + fold_right (fun fe s => (if active (fst fe) then contrib avg (fst fe) (snd fe) else 0) + s) 0 l).
  { clear. induction l as [|[f e] l IH]; intros a; cbn [fold_left fold_right fst snd]; [ring|]. rewrite IH. destruct (active f); ring. }
  rewrite !G. f_equal. induction H; cbn [fold_right]; lra.
Qed.
Print Assumptions C61_phase_order_irrelevant.

(** Shear modulus and compressibility of a cell lie between those of its phases. *)
Theorem C61_modulus_between : forall l lo hi, 0 < lo -> fractions l -> values lo hi l -> lo <= cell_modulus l <= hi.
Proof.
  intros l lo hi Hlo F V. replace (cell_modulus l) with (cell_eta 1 l); [apply C61_average_between; auto; lia|].
  unfold cell_eta, cell_modulus. f_equal. rewrite sum_weighted by (assumption || lia).
  assert (G : forall l a, fold_left (fun a fe => a + contrib 1 (fst fe) (snd fe)) l a = a + weighted (tr 1) l).
  { clear. induction l as [|[f e] l IH]; intros a; cbn [fold_left weighted fst snd]; [ring|]. rewrite IH. cbn [contrib tr]. unfold Rdiv. ring. }
  rewrite G. ring.
Qed.
Print Assumptions C61_modulus_between.

(** Refuted: an unknown value of the averaging option is harmless. All numbers from 3 on give viscosity zero
    (below every limit) without a message. *)
Theorem C61_unknown_average_refuted : forall avg l, (3 <= avg)%nat -> cell_eta avg l = 0.
Proof.
  intros [|[|[|avg]]] l H; try lia. unfold cell_eta, sum_active. cbn [finish].
  assert (G : forall l r, fold_left (fun a fe => if active (fst fe) then a + contrib (S (S (S avg))) (fst fe) (snd fe) else a) l r = r).
  { clear. induction l as [|[f e] l IH]; intros r; cbn [fold_left fst snd]; [reflexivity|]. rewrite IH. destruct (active f); cbn [contrib]; ring. }
  apply G.
Qed.
Print Assumptions C61_unknown_average_refuted.

(** Refuted: deformation maps show the viscosity. Without post-processing the returned viscosity is the lower
    limit whatever the material. *)
Theorem C61_deformation_map_refuted : forall mn mx e, 0 < mn <= mx -> returned_eta false mn mx e = mn.
Proof.
  intros mn mx e H. unfold returned_eta, limit_eta.
  destruct (Rltb mx 0) eqn:E; [apply Rltb_iff in E; lra|]. destruct (Rltb 0 mn) eqn:E2; [reflexivity|].
  assert (~ 0 < mn) by (intros Q; apply Rltb_iff in Q; congruence). lra.
Qed.
Print Assumptions C61_deformation_map_refuted.

(** Two-phase mixtures, reaction progress and kinetic density stay between their end members; a fully
    relaxed reaction ([tau = 0]) reaches equilibrium in one step. *)
Theorem C61_mixture_between : forall avg X a b, 0 <= X <= 1 -> 0 < a <= b ->
  a <= mix_eta avg X a b <= b /\ mix_eta avg 1 a b = a /\ mix_eta avg 0 a b = b.
Proof.
  intros avg X a b HX Hab.
  assert (M : forall u v, u <= v -> exp u <= exp v) by (intros u v [K| ->]; [left; now apply exp_increasing|lra]).
  destruct avg as [|[|avg]]; cbn [mix_eta].
  - repeat split; nra.
  - assert (I : / b <= / a) by (apply Rinv_le_contravar; lra). assert (0 < / b) by (apply Rinv_0_lt_compat; lra).
    unfold Rdiv. assert (K : / b <= X * / a + (1 - X) * / b <= / a) by (split; nra).
    repeat split.
    + apply Rle_trans with (/ / a); [rewrite Rinv_inv; lra|apply Rinv_le_contravar; lra].
    + apply Rle_trans with (/ / b); [apply Rinv_le_contravar; lra|rewrite Rinv_inv; lra].
    + replace (1 * / a + (1 - 1) * / b) with (/ a) by ring. apply Rinv_inv.
    + replace (0 * / a + (1 - 0) * / b) with (/ b) by ring. apply Rinv_inv.
  - assert (L : ln a <= ln b) by (apply ln_le; lra).
    repeat split.
    + apply Rle_trans with (exp (ln a)); [rewrite exp_ln; lra|apply M; nra].
    + apply Rle_trans with (exp (ln b)); [apply M; nra|rewrite exp_ln; lra].
    + replace (1 * ln a + (1 - 1) * ln b) with (ln a) by ring. apply exp_ln. lra.
    + replace (0 * ln a + (1 - 0) * ln b) with (ln b) by ring. apply exp_ln. lra.
Qed.
Print Assumptions C61_mixture_between.

Theorem C61_reaction_progress : forall X0 tau dt w, 0 <= X0 <= 1 -> 0 <= tau -> 0 < dt -> 0 <= w <= 2 ->
  let X := react X0 tau dt w in let Xeq := 1 - w / 2 in
  0 <= X <= 1 /\ (X0 <= Xeq -> X0 <= X <= Xeq) /\ (Xeq <= X0 -> Xeq <= X <= X0) /\ (tau = 0 -> X = Xeq) /\
  (X - Xeq) * (dt + tau) = (X0 - Xeq) * tau.
Proof.
  intros X0 tau dt w H1 H2 H3 H4 X Xeq. assert (E : X * (dt + tau) = X0 * tau + Xeq * dt) by (unfold X, Xeq, react; field; lra).
  clearbody X. unfold Xeq in *.
  assert (L : forall c, c * (dt + tau) <= X * (dt + tau) -> c <= X) by (intros c; apply Rmult_le_reg_r; lra).
  assert (U : forall c, X * (dt + tau) <= c * (dt + tau) -> X <= c) by (intros c; apply Rmult_le_reg_r; lra).
  split; [split; [apply L; rewrite E; nra|apply U; rewrite E; nra]|].
  split; [intros K; split; [apply L; rewrite E; nra|apply U; rewrite E; nra]|].
  split; [intros K; split; [apply L; rewrite E; nra|apply U; rewrite E; nra]|].
  split; [intros ->; apply Rmult_eq_reg_r with dt; [|lra]; rewrite Rplus_0_r, Rmult_0_r in E; lra|]. lra.
Qed.
Print Assumptions C61_reaction_progress.

Theorem C61_kinetic_density_between : forall tau dt r0 req, 0 <= tau -> 0 < dt ->
  Rmin r0 req <= kin_rho tau dt r0 req <= Rmax r0 req /\ kin_rho 0 dt r0 req = req.
Proof.
  intros tau dt r0 req Ht Hd. split; [|unfold kin_rho; field; lra].
  assert (E : kin_rho tau dt r0 req * (tau + dt) = tau * r0 + dt * req) by (unfold kin_rho; field; lra).
  set (k := kin_rho tau dt r0 req) in *. clearbody k.
  pose proof (Rmin_l r0 req). pose proof (Rmin_r r0 req). pose proof (Rmax_l r0 req). pose proof (Rmax_r r0 req).
  split; apply Rmult_le_reg_r with (tau + dt); try lra; rewrite E; nra.
Qed.
Print Assumptions C61_kinetic_density_between.

Example C61_ex : fractions [(1/4, 1); (0, 100); (3/4, 5)] /\ values 1 5 [(1/4, 1); (0, 100); (3/4, 5)] /\
  cell_eta 0 [(1/4, 1); (0, 100); (3/4, 5)] = 4 /\ cell_eta 1 [(1/4, 1); (0, 100); (3/4, 5)] = 5 / 2.
Proof.
  assert (B : forall x, 1/4 <= x -> big x).
  { intros x Hx. unfold big. rewrite Rabs_pos_eq by lra. apply Rle_lt_trans with (/ 10); [apply Rinv_le_contravar; [lra|]|lra].
    replace 13%nat with (1 + 12)%nat by reflexivity. rewrite pow_add, pow_1. assert (1 <= 10 ^ 12) by (apply pow_R1_Rle; lra). nra. }
  assert (F : fractions [(1/4, 1); (0, 100); (3/4, 5)]).
  { split; [|cbn [total]; lra]. 
    apply Forall_cons; [cbn [fst]; split; [lra|right; apply B; lra]|]. apply Forall_cons; [cbn [fst]; split; [lra|left; reflexivity]|].
    apply Forall_cons; [cbn [fst]; split; [lra|right; apply B; lra]|]. apply Forall_nil. }
  split; [exact F|]. split; [unfold values; repeat (apply Forall_cons; [cbn [fst snd]; intros; lra|]); apply Forall_nil|].
  unfold cell_eta. rewrite !sum_weighted by (assumption || lia). cbn [finish tr weighted]. split; field.
Qed.

(** ** C62: strain softening *)

(** Specification: softening from [a] to [b] between strains [s0] and [s1]. *)
Definition ramp (a b s0 s1 s : R) : R :=
  if Rle_dec s s0 then a else if Rle_dec s1 s then b else a + (b - a) * ((s - s0) / (s1 - s0)).

(** Correct if softening starts at zero strain (or is off). *)
Theorem C62_linear_from_zero : forall a b s1 s, 0 < s1 -> 0 <= s -> soft_linear true a b 0 s1 s = ramp a b 0 s1 s.
Proof.
  intros a b s1 s H1 Hs. unfold soft_linear, ramp.
  destruct (Rltb s 0) eqn:E0; [apply Rltb_iff in E0; lra|].
  destruct (Rleb 0 s) eqn:E1; [|assert (~ 0 <= s) by (intros Q; apply Rleb_iff in Q; congruence); lra].
  cbn [andb]. destruct (Rltb s s1) eqn:E2.
  - apply Rltb_iff in E2. destruct (Rle_dec s 0) as [Z|Z]; [replace s with 0 by lra; field; lra|].
    destruct (Rle_dec s1 s); [lra|]. field. lra.
  - assert (~ s < s1) by (intros Q; apply Rltb_iff in Q; congruence).
    destruct (Rleb s1 s) eqn:E3; [|assert (~ s1 <= s) by (intros Q; apply Rleb_iff in Q; congruence); lra].
    destruct (Rle_dec s 0); [lra|]. destruct (Rle_dec s1 s); [reflexivity|lra].
Qed.
Print Assumptions C62_linear_from_zero.

(** For any start: constant before the start, final value after the end, unchanged if switched off. *)
Theorem C62_linear_outside : forall a b s0 s1 s, s0 < s1 ->
  (s < s0 -> soft_linear true a b s0 s1 s = a) /\ (s1 <= s -> soft_linear true a b s0 s1 s = b) /\ soft_linear false a b s0 s1 s = a.
Proof.
  intros a b s0 s1 s H. unfold soft_linear. split; [|split].
  - intros K. destruct (Rltb s s0) eqn:E0; [|assert (~ s < s0) by (intros Q; apply Rltb_iff in Q; congruence); lra].
    destruct (Rleb s1 s) eqn:E1; [apply Rleb_iff in E1; lra|]. destruct (Rleb s0 s) eqn:E2; [apply Rleb_iff in E2; lra|]. reflexivity.
  - intros K. destruct (Rleb s1 s) eqn:E1; [|assert (~ s1 <= s) by (intros Q; apply Rleb_iff in Q; congruence); lra].
    destruct (Rltb s s1) eqn:E2; [apply Rltb_iff in E2; lra|]. rewrite andb_false_r. reflexivity.
  - destruct (Rltb s s0), (Rleb s1 s), (Rleb s0 s && Rltb s s1); reflexivity.
Qed.
Print Assumptions C62_linear_outside.

(** Refuted: softening that starts at a positive strain is a ramp. For every such material the parameter
    jumps at the onset, and runs past its final value before the end of the interval. *)
Theorem C62_delayed_onset_refuted : forall a b s0 s1, 0 < s0 < s1 -> b < a ->
  soft_linear true a b s0 s1 s0 = a - (a - b) * (s0 / (s1 - s0)) /\ soft_linear true a b s0 s1 s0 < a /\
  exists s, s0 <= s < s1 /\ soft_linear true a b s0 s1 s < b.
Proof.
  intros a b s0 s1 H Hab.
  assert (M : forall s, s0 <= s < s1 -> soft_linear true a b s0 s1 s = a - (a - b) * (s / (s1 - s0))).
  { intros s Hs. unfold soft_linear. destruct (Rleb s0 s) eqn:E1; [|assert (~ s0 <= s) by (intros Q; apply Rleb_iff in Q; congruence); lra].
    destruct (Rltb s s1) eqn:E2; [|assert (~ s < s1) by (intros Q; apply Rltb_iff in Q; congruence); lra]. cbn [andb]. field. lra. }
  assert (P : forall x, 0 < x -> 0 < x / (s1 - s0)) by (intros; apply Rdiv_lt_0_compat; lra).
  split; [apply M; lra|]. split; [rewrite M by lra; specialize (P s0 ltac:(lra)); nra|].
  set (s := Rmax s0 (s1 - s0 / 2)). assert (S : s0 <= s < s1).
  { unfold s. split; [apply Rmax_l|]. apply Rmax_lub_lt; lra. }
  exists s. split; [exact S|]. rewrite M by exact S. assert (K : s1 - s0 / 2 <= s) by apply Rmax_r.
  assert (Q : 1 < s / (s1 - s0)).
  { apply Rmult_lt_reg_r with (s1 - s0); [lra|]. unfold Rdiv. rewrite Rmult_assoc, Rinv_l by lra. lra. }
  nra.
Qed.
Print Assumptions C62_delayed_onset_refuted.

(** Friction can so become negative: 30 degrees softening to 15 between strains 1 and 3/2. *)
Theorem C62_negative_friction_refuted : soft_linear true 30 15 1 (3 / 2) 1 = 0 /\ soft_linear true 30 15 1 (3 / 2) (5 / 4) < 0.
Proof.
  unfold soft_linear. split.
  - destruct (Rleb 1 1) eqn:E1; [|assert (~ 1 <= 1) by (intros Q; apply Rleb_iff in Q; congruence); lra].
    destruct (Rltb 1 (3/2)) eqn:E2; [|assert (~ 1 < 3/2) by (intros Q; apply Rltb_iff in Q; congruence); lra]. cbn [andb]. field.
  - destruct (Rleb 1 (5/4)) eqn:E1; [|assert (~ 1 <= 5/4) by (intros Q; apply Rleb_iff in Q; congruence); lra].
    destruct (Rltb (5/4) (3/2)) eqn:E2; [|assert (~ 5/4 < 3/2) by (intros Q; apply Rltb_iff in Q; congruence); lra]. cbn [andb]. lra.
Qed.
Print Assumptions C62_negative_friction_refuted.

(** The smooth variant starts at the initial value, decreases with strain and stays above the final value,
    for any complementary error function (decreasing, values in (0,2)). *)
Theorem C62_smooth : forall erfc, (forall x y, x < y -> erfc y < erfc x) -> (forall x, 0 < erfc x < 2) ->
  forall a b s0 s1, s0 < s1 -> b < a ->
  let f := soft_smooth erfc true a b s0 s1 in
  f 0 = a /\ (forall s t, s < t -> f t < f s) /\ (forall s, b < f s) /\ (forall s, 0 <= s -> f s <= a) /\
  (forall s, soft_smooth erfc false a b s0 s1 s = a).
Proof.
  intros erfc Hd Hr a b s0 s1 Hs Hab f.
  set (w := fun s => erfc (- (s - 1 / 2 * (s1 + s0)) / (s1 - s0))).
  assert (W : forall s, 0 < w s < 2) by (intros; apply Hr).
  assert (F : forall s, f s = b + (a - b) * ((2 - w s) / (2 - w 0))).
  { intros s. unfold f, soft_smooth. cbv zeta. fold (w s). fold (w 0). specialize (W 0).
    replace (a - (a - b) / 2 * w 0 - b) with ((a - b) * (2 - w 0) / 2) by field. field. repeat split; lra. }
  assert (I : forall s t, s < t -> w s < w t).
  { intros s t H. unfold w. apply Hd. unfold Rdiv. apply Rmult_lt_compat_r; [apply Rinv_0_lt_compat; lra|lra]. }
  assert (P0 : 0 < / (2 - w 0)) by (apply Rinv_0_lt_compat; specialize (W 0); lra).
  assert (D : forall s t, s < t -> f t < f s).
  { intros s t H. rewrite !F. specialize (I s t H). unfold Rdiv. apply Rplus_lt_compat_l, Rmult_lt_compat_l; [lra|]. apply Rmult_lt_compat_r; lra. }
  assert (F0 : f 0 = a) by (rewrite F; specialize (W 0); field; lra).
  split; [exact F0|]. split; [exact D|]. split; [|split; [|reflexivity]].
  - intros s. rewrite F. specialize (W s). unfold Rdiv. assert (0 < (2 - w s) * / (2 - w 0)) by (apply Rmult_lt_0_compat; lra). nra.
  - intros s [H|<-]; [|rewrite F0; lra]. rewrite <- F0. left. now apply D.
Qed.
Print Assumptions C62_smooth.

(** A function with these two properties. *)
Example C62_ex : exists erfc, (forall x y, x < y -> erfc y < erfc x) /\ (forall x, 0 < erfc x < 2).
Proof.
  exists (fun x => 2 / (1 + exp x)). split.
  - intros x y H. pose proof (exp_pos x). pose proof (exp_pos y). pose proof (exp_increasing x y H).
    unfold Rdiv. apply Rmult_lt_compat_l; [lra|]. apply Rinv_lt_contravar; nra.
  - intros x. pose proof (exp_pos x). split; [apply Rdiv_lt_0_compat; lra|].
    apply Rmult_lt_reg_r with (1 + exp x); [lra|]. unfold Rdiv. rewrite Rmult_assoc, Rinv_l by lra. lra.
Qed.
Example C62_ex2 : soft_linear true 30 15 0 2 1 = 45 / 2.
Proof.
  rewrite C62_linear_from_zero by lra. unfold ramp. destruct (Rle_dec 1 0); [lra|]. destruct (Rle_dec 2 1); [lra|]. field.
Qed.
