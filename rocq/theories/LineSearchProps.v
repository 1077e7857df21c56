(** C35: the line search. *)
From Coq Require Import Reals List Bool Lia Lra Psatz.
Import ListNotations.
From Verif Require Import LineSearchModel.
Local Open Scope R_scope.

Lemma Rltb_spec : forall a b, reflect (a < b) (Rltb a b).
Proof. intros. unfold Rltb. destruct (Rlt_dec a b); constructor; assumption. Qed.

Lemma some_inj : forall A (a b : A), Some a = Some b -> a = b.
Proof. intros. congruence. Qed.

Lemma step_inj : forall a b c d, Step a b = Step c d -> a = c.
Proof. intros. congruence. Qed.

(** ** Lemmas on the scan *)
Lemma scan_some : forall A (f : A -> R) l k best i, exists j, scan f k l best (Some i) = Some j.
Proof.
  intros A f l. induction l as [|x l IH]; intros k best i; cbn; [now exists i|]. destruct (Rltb _ _); apply IH.
Qed.

Lemma scan_none : forall A (f : A -> R) l k best,
  scan f k l best None = None <-> forall x, In x l -> best <= f x.
Proof.
  intros A f l. induction l as [|x l IH]; intros k best; cbn; [split; [tauto|reflexivity]|].
  destruct (Rltb_spec (f x) best) as [L|L].
  - split; intros H.
    + destruct (scan_some A f l (S k) (f x) k) as (j & E). rewrite E in H. discriminate.
    + specialize (H x (or_introl eq_refl)). lra.
  - rewrite IH. split; intros H; [intros y [<-|Hy]; [lra|auto]|auto].
Qed.

Lemma scan_min : forall A (f : A -> R) d l0 l k best i,
  length l0 = k -> (i < k)%nat -> f (nth i l0 d) = best -> (forall x, In x l0 -> best <= f x) ->
  exists j, scan f k l best (Some i) = Some j /\ (j < length (l0 ++ l))%nat /\
    forall x, In x (l0 ++ l) -> f (nth j (l0 ++ l) d) <= f x.
Proof.
  intros A f d l0 l. revert l0. induction l as [|x l IH]; intros l0 k best i L I E M; cbn.
  - exists i. rewrite app_nil_r. split; [reflexivity|]. split; [lia|]. intros x Hx. rewrite E. auto.
  - replace (l0 ++ x :: l) with ((l0 ++ [x]) ++ l) by now rewrite <- app_assoc.
    destruct (Rltb_spec (f x) best) as [H|H].
    + apply IH.
      * rewrite app_length. cbn. lia.
      * lia.
      * rewrite app_nth2 by lia. rewrite L, Nat.sub_diag. reflexivity.
      * intros y Hy. apply in_app_iff in Hy. destruct Hy as [Hy|[<-|[]]]; [|lra]. specialize (M y Hy). lra.
    + apply IH.
      * rewrite app_length. cbn. lia.
      * lia.
      * rewrite app_nth1 by lia. exact E.
      * intros y Hy. apply in_app_iff in Hy. destruct Hy as [Hy|[<-|[]]]; [auto|lra].
Qed.

Lemma argmin_spec : forall A (f : A -> R) d l, l <> [] ->
  exists j, argmin f (Some 0%nat) l = Some j /\ (j < length l)%nat /\ forall x, In x l -> f (nth j l d) <= f x.
Proof.
  intros A f d [|x l] N; [now elim N|]. cbn [argmin].
  apply (scan_min A f d [x] l 1 (f x) 0); cbn; auto. intros y [<-|[]]; lra.
Qed.

(** ** Specification *)
(** The trial steps: six equidistant values. *)
Definition trials (newton : nat) (min_step : R) : list R :=
  let hi := if Nat.eqb newton 0 then 0 else - min_step in
  let lo := if Nat.eqb newton 1 then -1 else - 5 / 2 in
  let h := Rabs (hi - lo) / 5 in [hi; hi - h; hi - 2 * h; hi - 3 * h; hi - 4 * h; hi - 5 * h].

(** Norms of the momentum and continuity residuals together, and of the momentum residuals. *)
Definition total (r : res3) : R := sqrt (rx r ^ 2 + rz r ^ 2 + rp r ^ 2).
Definition both (r : res3) : R := sqrt (rx r ^ 2 + rz r ^ 2).

Definition smallest (res : R -> res3) (f : res3 -> R) (tr : list R) (a : R) : Prop :=
  In a tr /\ forall b, In b tr -> f (res a) <= f (res b).

Definition acceptable (res : R -> res3) (initial : res3) (tr : list R) (a : R) : Prop :=
  (smallest res total tr a /\ total (res a) < total initial)
  (* or no trial lowers the total residual, and: *)
  \/ (forall b, In b tr -> total initial <= total (res b)) /\
     ( (smallest res both tr a /\ rx (res a) < rx initial /\ rz (res a) < rz initial)
       \/ (smallest res rx tr a /\ rx (res a) < rx initial)
       \/ (smallest res rz tr a /\ rz (res a) < rz initial /\ forall b, In b tr -> rx initial <= rx (res b))).

Lemma alphas_trials : forall n s, alphas n s = trials n s.
Proof.
  intros n s. unfold alphas, trials, dalpha, max_alpha, min_alpha, ntry. cbn [seq map].
  set (h := Rabs _ / _). set (h' := Rabs _ / 5). assert (E : h = h') by (unfold h, h'; f_equal; cbn; lra).
  rewrite E. clearbody h'. repeat (f_equal; try (cbn; ring)).
Qed.

Theorem C35_accepted_step_decreases : forall res initial newton min_step grow a,
  line_search res initial newton min_step grow = Step a false -> a <> min_step \/ grow = false ->
  acceptable res initial (trials newton min_step) a /\ / 10 ^ 13 <= Rabs a.
Proof.
  intros res initial newton min_step grow a H NG. unfold line_search in H. change nxzp with total in H. change nxz with both in H. rewrite alphas_trials in H.
  set (tr := trials newton min_step) in *.
  assert (Ne : map res tr <> []) by (unfold tr, trials; cbn; discriminate).
  destruct (argmin rp None (map res tr)); [|discriminate].
  destruct (argmin_spec _ total (res 0) _ Ne) as (jp & Ep & Lp & Mp). rewrite Ep in H.
  destruct (argmin_spec _ both (res 0) _ Ne) as (jq & Eq & Lq & Mq). rewrite Eq in H.
  destruct (argmin_spec _ rx (res 0) _ Ne) as (jx & Ex & Lx & Mx). rewrite Ex in H.
  destruct (argmin_spec _ rz (res 0) _ Ne) as (jz & Ez & Lz & Mz). rewrite Ez in H.
  rewrite map_length in Lp, Lq, Lx, Lz.
  assert (Nt : forall j, (j < length tr)%nat -> nth j (map res tr) (res 0) = res (nth j tr 0)) by (intros; apply map_nth).
  rewrite !Nt in * by assumption. rewrite !Rmult_1_l in H.
  assert (Min : forall b, In b tr -> total (res (nth jp tr 0)) <= total (res b)) by (intros b Hb; apply Mp; now apply in_map).
  assert (SM : forall f j, (j < length tr)%nat -> (forall x, In x (map res tr) -> f (res (nth j tr 0)) <= f x) -> smallest res f tr (nth j tr 0)).
  { intros f j Lj Mj. split; [now apply nth_In|]. intros b Hb. apply Mj. now apply in_map. }
  pose proof (SM _ _ Lp Mp) as Sp. pose proof (SM _ _ Lq Mq) as Sq. pose proof (SM _ _ Lx Mx) as Sx. pose proof (SM _ _ Lz Mz) as Sz.
  destruct (Rltb_spec (total (res (nth jp tr 0))) (total initial)) as [D|D].
  - destruct (Rltb_spec (Rabs (nth jp tr 0)) (/ 10 ^ 13)) as [S|S].
    + destruct grow; [|discriminate]. apply step_inj in H; subst a. destruct NG as [NG|NG]; [now elim NG|discriminate].
    + apply step_inj in H; subst a. split; [|now apply Rnot_lt_le]. left. tauto.
  - assert (All : forall b, In b tr -> total initial <= total (res b)) by (intros b Hb; specialize (Min b Hb); lra).
    set (f := if _ && _ then _ else _) in H.
    assert (F : forall b, f = Some b -> acceptable res initial tr b).
    { unfold f. intros b. destruct (Rltb_spec (rx (res (nth jq tr 0))) (rx initial)), (Rltb_spec (rz (res (nth jq tr 0))) (rz initial)); cbn [andb];
      try (intros E; apply some_inj in E; subst b; right; tauto);
      (destruct (Rltb_spec (rx (res (nth jx tr 0))) (rx initial)) as [Q|Q]; [intros E; apply some_inj in E; subst b; right; tauto|]);
      (destruct (Rltb_spec (rz (res (nth jz tr 0))) (rz initial)); [|discriminate]; intros E; apply some_inj in E; subst b; right; split; [exact All|];
       right; right; split; [exact Sz|]; split; [assumption|]; intros b Hb; pose proof (proj2 Sx b Hb); lra). }
    destruct f as [b|].
    + destruct (Rltb_spec (Rabs b) (/ 10 ^ 13)) as [S|S].
      * destruct grow; [|discriminate]. apply step_inj in H; subst a. destruct NG as [NG|NG]; [now elim NG|discriminate].
      * apply step_inj in H; subst a. split; [now apply F|now apply Rnot_lt_le].
    + destruct grow; [|discriminate]. apply step_inj in H; subst a. destruct NG as [NG|NG]; [now elim NG|discriminate].
Qed.
Print Assumptions C35_accepted_step_decreases.

(** When nothing is accepted: zero step and stagnation, or - if the residual may
    grow - the step [+min_step], against the descent direction. *)
Theorem C35_no_decrease_means_stagnation : forall res initial newton min_step grow,
  (forall a, In a (trials newton min_step) ->
     total initial <= total (res a) /\ rx initial <= rx (res a) /\ rz initial <= rz (res a)) ->
  line_search res initial newton min_step grow = Undefined \/
  line_search res initial newton min_step grow = if grow then Step min_step false else Step 0 true.
Proof.
  intros res initial newton min_step grow H. unfold line_search. change nxzp with total. change nxz with both. rewrite alphas_trials. set (tr := trials newton min_step) in *.
  assert (Ne : map res tr <> []) by (unfold tr, trials; cbn; discriminate).
  destruct (argmin rp None (map res tr)); [|now left]. right.
  destruct (argmin_spec _ total (res 0) _ Ne) as (jp & -> & Lp & _).
  destruct (argmin_spec _ both (res 0) _ Ne) as (jq & -> & Lq & _).
  destruct (argmin_spec _ rx (res 0) _ Ne) as (jx & -> & Lx & _).
  destruct (argmin_spec _ rz (res 0) _ Ne) as (jz & -> & Lz & _).
  rewrite map_length in Lp, Lq, Lx, Lz.
  assert (Nt : forall j, (j < length tr)%nat -> nth j (map res tr) (res 0) = res (nth j tr 0)) by (intros; apply map_nth).
  rewrite !Nt by assumption. rewrite !Rmult_1_l.
  destruct (H _ (nth_In tr 0 Lp)) as (A & _ & _). destruct (H _ (nth_In tr 0 Lq)) as (_ & B & _).
  destruct (H _ (nth_In tr 0 Lx)) as (_ & C & _). destruct (H _ (nth_In tr 0 Lz)) as (_ & _ & D).
  destruct (Rltb_spec (total (res (nth jp tr 0))) (total initial)); [lra|].
  destruct (Rltb_spec (rx (res (nth jq tr 0))) (rx initial)); [lra|]. cbn [andb].
  destruct (Rltb_spec (rx (res (nth jx tr 0))) (rx initial)); [lra|].
  destruct (Rltb_spec (rz (res (nth jz tr 0))) (rz initial)); [lra|]. reflexivity.
Qed.
Print Assumptions C35_no_decrease_means_stagnation.

(** The residual is evaluated at the six trial steps only. *)
Theorem C35_six_evaluations : forall res res' initial newton min_step grow,
  (forall a, In a (trials newton min_step) -> res a = res' a) ->
  line_search res initial newton min_step grow = line_search res' initial newton min_step grow.
Proof.
  intros res res' initial newton min_step grow H. unfold line_search. change nxzp with total. change nxz with both. rewrite alphas_trials.
  set (tr := trials newton min_step) in *.
  assert (E : map res tr = map res' tr) by (apply map_ext_in; exact H). rewrite E.
  assert (Ne : map res' tr <> []) by (unfold tr, trials; cbn; discriminate).
  destruct (argmin rp None (map res' tr)); [|reflexivity].
  destruct (argmin_spec _ total (res' 0) _ Ne) as (jp & -> & Lp & _).
  destruct (argmin_spec _ both (res' 0) _ Ne) as (jq & -> & Lq & _).
  destruct (argmin_spec _ rx (res' 0) _ Ne) as (jx & -> & Lx & _).
  destruct (argmin_spec _ rz (res' 0) _ Ne) as (jz & -> & Lz & _).
  now rewrite !(nth_indep _ (res 0) (res' 0)) by assumption.
Qed.
Print Assumptions C35_six_evaluations.

(** Trial steps stay in the interval and reach the full Newton step. *)
Theorem C35_trial_steps : forall min_step, 0 <= min_step <= 1 ->
  (forall a, In a (trials 1 min_step) -> -1 <= a <= - min_step) /\ In (-1) (trials 1 min_step) /\
  (forall a, In a (trials 0 min_step) -> - 5 / 2 <= a <= 0) /\ In (-1) (trials 0 min_step).
Proof.
  intros s S. unfold trials. cbn [Nat.eqb].
  rewrite (Rabs_right (- s - -1)) by lra. rewrite (Rabs_right (0 - - 5 / 2)) by lra.
  split; [|split; [|split]].
  - intros a [<-|[<-|[<-|[<-|[<-|[<-|[]]]]]]]; lra.
  - cbn [In]. do 5 right. left. lra.
  - intros a [<-|[<-|[<-|[<-|[<-|[<-|[]]]]]]]; lra.
  - cbn [In]. do 2 right. left. lra.
Qed.
Print Assumptions C35_trial_steps.

(** The read of an uninitialised index happens exactly when the pressure residual is
    smallest at the first trial. *)
Theorem C35_uninitialised_read : forall res initial newton min_step grow,
  line_search res initial newton min_step grow = Undefined <->
  forall a, In a (trials newton min_step) -> rp (res (hd 0 (trials newton min_step))) <= rp (res a).
Proof.
  intros. unfold line_search. change nxzp with total. change nxz with both. rewrite alphas_trials. set (tr := trials newton min_step).
  assert (E : argmin rp None (map res tr) = None <-> forall a, In a tr -> rp (res (hd 0 tr)) <= rp (res a)).
  { assert (E : exists h t, tr = h :: t) by (unfold tr, trials; eauto). destruct E as (h & t & ->).
    cbn [map argmin hd]. rewrite scan_none. split.
    - intros H a [<-|Ha]; [lra|]. apply H. now apply in_map.
    - intros H x Hx. apply in_map_iff in Hx. destruct Hx as (a & <- & Ha). apply H. now right. }
  destruct (argmin rp None (map res tr)) as [i|].
  - split; [|intros H; apply E in H; discriminate]. intros H. exfalso.
    destruct (if Rltb _ _ then _ else _) as [b|]; [destruct (Rltb _ _)|]; destruct grow; discriminate.
  - split; [intros _; now apply E|reflexivity].
Qed.
Print Assumptions C35_uninitialised_read.

Theorem C35_uninitialised_read_refuted : exists res initial newton min_step grow,
  (forall a, 0 <= rx (res a) /\ 0 <= rz (res a) /\ 0 <= rp (res a)) /\
  line_search res initial newton min_step grow = Undefined.
Proof.
  exists (fun a => Res ((a + 1) ^ 2) ((a + 1) ^ 2) (Rabs a)), (Res 1 1 1), 1%nat, (1 / 10), false. split.
  - intros a. cbn [rx rz rp]. split; [|split]; first [apply pow2_ge_0 | apply Rabs_pos].
  - apply C35_uninitialised_read. intros a Ha. destruct (C35_trial_steps (1 / 10) ltac:(lra)) as (B & _).
    specialize (B a Ha). unfold trials. cbn [Nat.eqb hd]. cbn [rp]. rewrite !Rabs_left by lra. lra.
Qed.
Print Assumptions C35_uninitialised_read_refuted.

(** If some trial lowers the total residual, the best such trial is taken. *)
Theorem C35_best_decrease_is_taken : forall res initial newton min_step grow,
  let tr := trials newton min_step in
  (exists b, In b tr /\ total (res b) < total initial) ->
  (exists b, In b tr /\ rp (res b) < rp (res (hd 0 tr))) ->
  (forall b, In b tr -> Rabs b < / 10 ^ 13 -> total initial <= total (res b)) ->
  exists a, line_search res initial newton min_step grow = Step a false /\
            smallest res total tr a /\ total (res a) < total initial.
Proof.
  intros res initial newton min_step grow tr (b & Hb & Db) (c & Hc & Dc) T.
  assert (U : line_search res initial newton min_step grow <> Undefined).
  { rewrite C35_uninitialised_read. fold tr. intros H. specialize (H c Hc). lra. }
  revert U. unfold line_search. change nxzp with total. change nxz with both. rewrite alphas_trials. fold tr.
  assert (Ne : map res tr <> []) by (unfold tr, trials; cbn; discriminate).
  destruct (argmin rp None (map res tr)); [intros _|intros U; now elim U].
  destruct (argmin_spec _ total (res 0) _ Ne) as (jp & -> & Lp & Mp). rewrite map_length in Lp.
  assert (Nt : nth jp (map res tr) (res 0) = res (nth jp tr 0)) by apply map_nth. rewrite Nt in *.
  assert (S : smallest res total tr (nth jp tr 0)) by (split; [now apply nth_In|intros; apply Mp; now apply in_map]).
  assert (D : total (res (nth jp tr 0)) < total initial) by (pose proof (proj2 S b Hb); lra).
  rewrite Rmult_1_l. destruct (Rltb_spec (total (res (nth jp tr 0))) (total initial)); [|lra].
  destruct (Rltb_spec (Rabs (nth jp tr 0)) (/ 10 ^ 13)) as [Q|Q].
  - specialize (T _ (proj1 S) Q). lra.
  - exists (nth jp tr 0). auto.
Qed.
Print Assumptions C35_best_decrease_is_taken.

(** A step can be accepted although it increases the total residual (and the step
    that leaves it unchanged was tried). *)
Theorem C35_total_residual_increases_refuted : exists res initial min_step a,
  line_search res initial 0 min_step false = Step a false /\ total initial < total (res a) /\ res 0 = initial.
Proof.
  set (res := fun a : R => if Rlt_dec a (-2) then Res 9 20 9 else Res 10 10 10).
  assert (Tr : forall a, res a = Res 9 20 9 \/ res a = Res 10 10 10) by (intros; unfold res; destruct (Rlt_dec _ _); auto).
  exists res, (Res 10 10 10), 0, (- 5 / 2).
  assert (T : trials 0 0 = [0; - 1 / 2; -1; - 3 / 2; -2; - 5 / 2]).
  { unfold trials. cbn [Nat.eqb]. rewrite Rabs_right by lra. repeat (f_equal; try lra). }
  assert (Rs : map res (trials 0 0) = [Res 10 10 10; Res 10 10 10; Res 10 10 10; Res 10 10 10; Res 10 10 10; Res 9 20 9]).
  { rewrite T. unfold res. cbn [map]. repeat (f_equal; [destruct (Rlt_dec _ _); [lra|reflexivity]|]).
    f_equal. destruct (Rlt_dec _ _); [reflexivity|lra]. }
  assert (N1 : total (Res 10 10 10) < total (Res 9 20 9)) by (unfold total; cbn; apply sqrt_lt_1; lra).
  assert (N2 : both (Res 10 10 10) < both (Res 9 20 9)) by (unfold both; cbn; apply sqrt_lt_1; lra).
  split; [|split].
  - unfold line_search. change nxzp with total. change nxz with both. rewrite alphas_trials, Rs.
    assert (E : forall a b, a < b -> Rltb a b = true) by (intros; unfold Rltb; destruct (Rlt_dec _ _); [reflexivity|lra]).
    assert (F : forall a b, b <= a -> Rltb a b = false) by (intros; unfold Rltb; destruct (Rlt_dec _ _); [lra|reflexivity]).
    set (u := Res 10 10 10) in *. set (v := Res 9 20 9) in *.
    unfold argmin, scan.
    rewrite !(F (total u) (total u)), !(F (both u) (both u)), !(F (rx u) (rx u)), !(F (rz u) (rz u)), !(F (rp u) (rp u)) by lra.
    rewrite (F (total v) (total u)), (F (both v) (both u)), (F (rz v) (rz u)) by (cbn; lra).
    rewrite (E (rp v) (rp u)), (E (rx v) (rx u)) by (cbn; lra). cbn [nth].
    rewrite !Rmult_1_l. rewrite (F (total u) (total u)), (F (rx u) (rx u)), (E (rx v) (rx u)) by (cbn; lra). cbn [andb].
    rewrite T. cbn [nth]. rewrite F; [reflexivity|]. rewrite Rabs_left by lra.
    apply Rle_trans with (/ 10 ^ 0); [apply Rinv_le_contravar; [lra|apply Rle_pow; [lra|lia]]|cbn; lra].
  - replace (res (- 5 / 2)) with (Res 9 20 9) by (unfold res; destruct (Rlt_dec _ _); [reflexivity|lra]). exact N1.
  - unfold res. destruct (Rlt_dec 0 (-2)); [lra|reflexivity].
Qed.
Print Assumptions C35_total_residual_increases_refuted.

(** *** An ordinary accepted Newton step *)
Example C35_ex : line_search (fun a => Res (Rabs (a + 1)) (Rabs (a + 1)) (Rabs (a + 1))) (Res 1 1 1) 1 (1 / 2) false = Step (-1) false.
Proof.
  unfold line_search. change nxzp with total. change nxz with both. rewrite alphas_trials.
  assert (T : trials 1 (1 / 2) = [- 5 / 10; - 6 / 10; - 7 / 10; - 8 / 10; - 9 / 10; -1]).
  { unfold trials. cbn [Nat.eqb]. rewrite Rabs_right by lra. repeat (f_equal; try lra). }
  rewrite T. cbn [map]. set (q := fun t => Res t t t).
  assert (E : forall a b, a < b -> Rltb a b = true) by (intros; unfold Rltb; destruct (Rlt_dec _ _); [reflexivity|lra]).
  assert (F : forall a b, b <= a -> Rltb a b = false) by (intros; unfold Rltb; destruct (Rlt_dec _ _); [lra|reflexivity]).
  repeat match goal with |- context [Rabs (?a + 1)] => rewrite (Rabs_right (a + 1)) by lra end.
  assert (Q : forall a b, 0 <= a < b -> total (q a) < total (q b)) by (intros; unfold total; cbn; apply sqrt_lt_1; nra).
  assert (Q' : forall a b, 0 <= a < b -> both (q a) < both (q b)) by (intros; unfold both; cbn; apply sqrt_lt_1; nra).
  assert (Qx : forall a b, a < b -> rx (q a) < rx (q b)) by (intros; cbn; lra).
  assert (Qz : forall a b, a < b -> rz (q a) < rz (q b)) by (intros; cbn; lra).
  assert (Qp : forall a b, a < b -> rp (q a) < rp (q b)) by (intros; cbn; lra).
  repeat match goal with |- context [Res ?a ?a ?a] => change (Res a a a) with (q a) end.
  unfold argmin, scan.
  repeat match goal with |- context [Rltb (?f (q ?a)) (?f (q ?b))] =>
    rewrite (E (f (q a)) (f (q b))) by (first [apply Q|apply Q'|apply Qx|apply Qz|apply Qp]; lra) end.
  cbn [nth]. rewrite !Rmult_1_l.
  repeat match goal with |- context [Rltb (?f (q ?a)) (?f (q ?b))] =>
    rewrite (E (f (q a)) (f (q b))) by (first [apply Q|apply Q'|apply Qx|apply Qz|apply Qp]; lra) end.
  rewrite F; [reflexivity|]. rewrite Rabs_left by lra.
  apply Rle_trans with (/ 10 ^ 0); [apply Rinv_le_contravar; [lra|apply Rle_pow; [lra|lia]]|cbn; lra].
Qed.
