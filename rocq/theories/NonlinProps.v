(** C14, C15, C16, C47: the nonlinear cycle, the Picard-to-Newton switch, the
    clock, and the storage of the Jacobian. *)
From Coq Require Import List ZArith Bool Lia Reals Lra.
Import ListNotations.
From Verif Require Import NonlinModel NonlinProofs.
Open Scope Z_scope.

(** ** C14 *)

(** The cycle of one time step ends, for every behaviour of the solver and all
    settings (also negative ones), after at most
    [max_num_stag * (nit_max + 1)] linear solves, and every index used for the
    residual logs (length [nit_max + 1]) is in range. *)
Theorem C14_terminates :
  forall c env n isn,
  exists s e, nl_loop (nl_fuel c) c env 0 (nl_start c n isn) = Some (s, e) /\
    Forall (fun i => 0 <= i <= nit_max c) (logw s) /\
    Z.of_nat (solves s) <= Z.max 0 (max_num_stag c) * Z.max 0 (nit_max c + 1).
Proof. exact loop_terminates. Qed.
Print Assumptions C14_terminates.

(** More fuel gives the same result: the outcome is a property of the loop, not
    of the bound used to define it. *)
Theorem C14_fuel_irrelevant :
  forall c env n isn fuel r,
  nl_loop fuel c env 0 (nl_start c n isn) = Some r ->
  nl_loop (nl_fuel c) c env 0 (nl_start c n isn) = Some r.
Proof.
  intros c env n isn fuel r H.
  assert (Mono : forall f1 f2 i s r, (f1 <= f2)%nat -> nl_loop f1 c env i s = Some r ->
            nl_loop f2 c env i s = Some r).
  { induction f1 as [|f1 IH]; intros f2 i s r0 Hle E.
    - cbn in E. destruct f2; cbn; destruct (_ && _); congruence.
    - destruct f2 as [|f2]; [lia|]. cbn in *. destruct (_ && _); [|exact E].
      destruct (nl_pass c (env i) s) as [t [e|]]; [exact E|]. apply IH; [lia|exact E]. }
  destruct (loop_terminates c env n isn) as (s & e & L & _).
  destruct (Nat.le_ge_cases fuel (nl_fuel c)) as [Hle|Hge].
  - exact (Mono _ _ _ _ _ Hle H).
  - pose proof (Mono _ _ _ _ _ Hge L) as L2. congruence.
Qed.
Print Assumptions C14_fuel_irrelevant.

(** What each way of ending means. *)
Theorem C14_meaning_of_ends :
  forall c env n isn s e, 0 <= nit_max c -> 0 < max_num_stag c ->
  nl_loop (nl_fuel c) c env 0 (nl_start c n isn) = Some (s, e) ->
  match e with
  | Converged => exists o, prev s = Some o /\
       (x_abs o || x_rel o) && (z_abs o || z_rel o) && (p_abs o || p_rel o) = true
  | Stagnated => safe_mode c <= 0 /\ exists o, prev s = Some o /\ converged o = false /\ stag o = true
  | IterLimit => nit s = nit_max c + 1
  | ExitZero => safe_mode c = 1 /\ elastic c = true /\ nstag s = max_num_stag c /\
                Z.of_nat (ndiv s) = max_num_stag c
  | Indeterminate => p2n c = true /\ first s = None
  end.
Proof.
  intros c env n isn s e Hn Hm H.
  assert (I : inv c (nl_start c n isn)) by (apply start_inv; lia).
  exact (loop_end c _ _ _ _ _ _ I H).
Qed.
Print Assumptions C14_meaning_of_ends.

(** In safe mode a step whose iterations met the (relative) tolerances on the
    last allowed iteration is nevertheless treated as failed: the program stops. *)
Theorem C14_converged_step_is_accepted_refuted :
  exists c env s o, safe_mode c = 1 /\ 0 <= nit_max c /\ 0 < max_num_stag c /\
    nl_loop (nl_fuel c) c env 0 (nl_start c false false) = Some (s, Converged) /\
    prev s = Some o /\
    nl_report c s (x_abs o && z_abs o && p_abs o) = false.
Proof.
  pose (bad := Obs false false false false false false false false false false).
  pose (ok := Obs false true false true false true false false false false).
  exists (NlCfg 1 3 1 true 0 false 0 false), (fun i => match i with O => bad | _ => ok end).
  eexists. exists ok. repeat split; try reflexivity; cbn; lia.
Qed.
Print Assumptions C14_converged_step_is_accepted_refuted.

(** Outside safe mode, and when the tolerances are met before the last allowed
    iteration, the step is accepted. *)
Theorem C14_accepted_before_limit :
  forall c s b, safe_mode c <> 1 \/ nit s < nit_max c -> nl_report c s b = true.
Proof.
  intros c s b H. unfold nl_report.
  destruct (Z.eqb_spec (safe_mode c) 1) as [E|E]; [|now rewrite andb_false_r].
  destruct (Z.leb_spec (nit_max c) (nit s)) as [L|L]; [lia|].
  destruct (Z.eqb_spec (nit s) (nit_max c)); [lia|reflexivity].
Qed.
Print Assumptions C14_accepted_before_limit.

(** Exactly when the program stops after the iterations: safe mode, the limit (which
    may be 0) reached, and the absolute tolerances not met. *)
Theorem C14_stops_after_iterations_iff :
  forall c s b, nl_report c s b = false <->
    safe_mode c = 1 /\ 0 <= nit_max c <= nit s /\ b = false.
Proof.
  intros c s b. unfold nl_report.
  destruct (Z.eqb_spec (safe_mode c) 1) as [E|E]; [|rewrite andb_false_r; split; [discriminate|intros (A & _); contradiction]].
  destruct (Z.leb_spec (nit_max c) (nit s)) as [L|L].
  - rewrite Z.eqb_refl. destruct (Z.leb_spec 0 (nit_max c)); cbn; split; auto; try discriminate; try lia; intros (_ & A & B); try exact B; lia.
  - destruct (Z.eqb_spec (nit s) (nit_max c)); [lia|]. cbn. split; [discriminate|lia].
Qed.
Print Assumptions C14_stops_after_iterations_iff.

(** The bound is attained: two iterations per cycle, two cycles, four solves,
    then [exit(0)]. *)
Example C14_ex :
  let no := Obs false false false false false false false false false false in
  let st := Obs false false false false false false false false false true in
  let c := NlCfg 1 2 1 true 0 false 0 false in
  let env i := match i with 1%nat | 3%nat => st | _ => no end in
  exists s, nl_loop (nl_fuel c) c env 0 (nl_start c false false) = Some (s, ExitZero) /\
    Z.of_nat (solves s) = max_num_stag c * (nit_max c + 1).
Proof. eexists. split; reflexivity. Qed.

(** ** C15 *)

(** If every time step but the last ended in Newton mode (or the switch is
    off), no branch is decided by an uninitialised variable. *)
Theorem C15_switching_runs_are_determined :
  forall c envs,
  newton0 c = true \/ p2n c = false ->
  (forall k s e, nth_error (nl_steps c envs (newton0 c) (newton0 c)) k = Some (s, e) ->
     (S k < length envs)%nat -> is_newton s = true \/ p2n c = false) ->
  forall k s e, nth_error (nl_steps c envs (newton0 c) (newton0 c)) k = Some (s, e) ->
  e <> Indeterminate.
Proof. intros c envs H1 H2. exact (steps_safe c envs _ _ H1 H2). Qed.
Print Assumptions C15_switching_runs_are_determined.

(** In particular the first time step is always determined (documented values
    0 and 1 of the Newton switch). *)
Theorem C15_first_step_is_determined :
  forall c env s e, newton_in c = 0 \/ newton_in c = 1 ->
  nl_steps c [env] (newton0 c) (newton0 c) = [(s, e)] -> e <> Indeterminate.
Proof.
  intros c env s e Hn H.
  apply (steps_safe c [env] (newton0 c) (newton0 c)) with (k := 0%nat) (s := s).
  - unfold newton0, p2n. destruct Hn as [->| ->]; cbn; auto.
  - intros k s' e' _ Hk. cbn in Hk. lia.
  - now rewrite H.
Qed.
Print Assumptions C15_first_step_is_determined.

(** The switch is available exactly if asked for together with a Newton option. *)
Theorem C15_switch_available_iff : forall c, p2n c = true <-> p2n_in c = true /\ newton_in c <> 0.
Proof. intros c. unfold p2n. destruct (Z.eqb_spec (newton_in c) 0), (p2n_in c); intuition (discriminate || congruence). Qed.
Print Assumptions C15_switch_available_iff.

(** Which passes switch: from the second pass on, if the residuals of the preceding
    pass meet the switch tolerance in x, in z or in p, or the Picard budget is used up;
    the first-step flag is then cleared. *)
Theorem C15_switch_exactly_when : forall c o s q b, p2n c = true -> prev s = Some q -> first s = Some b ->
  let s' := fst (nl_pass c o s) in
  let wanted := 0 < nit s /\ (tol_x q = true \/ tol_z q = true \/ tol_p q = true \/ max_its_pic c <= nit s) in
  (newton s' = true <-> newton s = true \/ wanted) /\ (is_newton s' = true <-> is_newton s = true \/ wanted) /\
  (wanted -> first s' = Some false) /\ (~ wanted -> first s' = Some b).
Proof.
  intros c o s q b P Q F. cbv zeta. unfold nl_pass, switch. rewrite P, Q, F, andb_true_r.
  destruct (Z.ltb_spec 0 (nit s)), (Z.leb_spec (max_its_pic c) (nit s)), (tol_x q), (tol_z q), (tol_p q); cbn [orb];
    destruct (converged o), (stag o && (safe_mode c <=? 0)), (stag o && elastic c && (safe_mode c =? 1));
    try destruct (_ =? max_num_stag c); cbn; destruct (newton s), (is_newton s); rewrite ?F;
    repeat split; intros; try discriminate; try reflexivity; try tauto; try lia;
    try (right; split; [lia|]; tauto); try (right; split; [lia|lia]);
    repeat match goal with H : _ \/ _ |- _ => destruct H | H : _ /\ _ |- _ => destruct H end; try discriminate; try lia; try reflexivity;
    try (exfalso; match goal with H : ~ _ |- _ => apply H; split; [lia|tauto] end).
Qed.
Print Assumptions C15_switch_exactly_when.

(** A two-step history in which the uninitialised flag decides: the first step
    converges before switching, the second wants to switch. *)
Theorem C15_always_determined_refuted :
  exists c envs s, newton_in c = 1 /\
    nth_error (nl_steps c envs (newton0 c) (newton0 c)) 1 = Some (s, Indeterminate).
Proof.
  pose (ok := Obs true true true true true true false false false false).
  pose (sw := Obs false false false false false false true true true false).
  exists (NlCfg 5 3 0 true 1 true 10 false), [fun _ => ok; fun _ => sw].
  eexists. split; reflexivity.
Qed.
Print Assumptions C15_always_determined_refuted.

(** Non-vacuity: two steps, both switch to Newton and then converge. *)
Example C15_ex :
  let ok := Obs true true true true true true false false false false in
  let sw := Obs false false false false false false true true true false in
  let c := NlCfg 5 3 0 true 1 true 10 false in
  let env i := match i with O => sw | S O => sw | _ => ok end in
  map (fun r => (is_newton (fst r), snd r)) (nl_steps c [env; env] (newton0 c) (newton0 c))
  = [(true, Converged); (true, Converged)].
Proof. reflexivity. Qed.

(** ** C16 *)

(** The clock is ahead of the time actually simulated by exactly the sum of the
    reductions made in repeated steps. *)
Theorem C16_clock_offset :
  forall div t0 dts,
  clock t0 dts = (t0 + total (dt_used div) dts + total (fun d => fst d - dt_used div d) dts)%R.
Proof. intros. apply clock_offset. Qed.
Print Assumptions C16_clock_offset.

(** Without safe mode (or without elasticity) the clock is the initial time plus
    the sum of the lengths used, for every run. *)
Theorem C16_clock_is_sum_of_steps :
  forall c envs div t0 dts,
  elastic c && (safe_mode c =? 1) = false ->
  map snd dts = map fst (nl_steps c envs (newton0 c) (newton0 c)) ->
  clock t0 dts = (t0 + total (dt_used div) dts)%R.
Proof.
  intros c envs div t0 dts HS HM. rewrite (clock_offset div).
  assert (Z : forall d, In d dts -> ndiv (snd d) = O).
  { intros d Hd. apply (in_map snd) in Hd. rewrite HM in Hd.
    apply in_map_iff in Hd as ((s & e) & E & Hin). cbn in E. rewrite <- E.
    exact (steps_ndiv0 c HS _ _ _ _ _ Hin). }
  assert (E : total (fun d => fst d - dt_used div d)%R dts = 0%R).
  { clear HM. unfold total. induction dts as [|d dts IH]; cbn; [reflexivity|].
    rewrite IH by (intros; apply Z; now right).
    rewrite used_undivided by (apply Z; now left). ring. }
  rewrite E. ring.
Qed.
Print Assumptions C16_clock_is_sum_of_steps.

(** When some step was repeated with a shorter length, the clock differs: it is
    strictly ahead. *)
Theorem C16_clock_ahead_after_repeat :
  forall div t0 dts, (1 < div)%R -> (forall d, In d dts -> (0 < fst d)%R) ->
  (exists d, In d dts /\ ndiv (snd d) <> O) ->
  (t0 + total (dt_used div) dts < clock t0 dts)%R.
Proof.
  intros div t0 dts Hd Hp (d0 & Hin & Hn). rewrite (clock_offset div).
  assert (G : forall l, (forall d, In d l -> (0 < fst d)%R) ->
            (0 <= total (fun d => fst d - dt_used div d) l)%R).
  { induction l as [|d l IH]; intros P; unfold total; cbn; [lra|].
    assert (0 <= fst d - dt_used div d)%R.
    { destruct (Nat.eq_dec (ndiv (snd d)) 0) as [E|E].
      - rewrite used_undivided by exact E. lra.
      - pose proof (used_less div d Hd (P d (or_introl eq_refl)) E). lra. }
    assert (0 <= total (fun d => fst d - dt_used div d) l)%R by (apply IH; intros; apply P; now right).
    unfold total in *. lra. }
  assert (S : (0 < total (fun d => fst d - dt_used div d) dts)%R).
  { induction dts as [|d l IH]; [contradiction|]. destruct Hin as [->|Hin].
    - unfold total; cbn. pose proof (used_less div d0 Hd (Hp d0 (or_introl eq_refl)) Hn).
      assert (0 <= total (fun d => fst d - dt_used div d) l)%R by (apply G; intros; apply Hp; now right).
      unfold total in *. lra.
    - unfold total; cbn.
      assert (0 < total (fun d => fst d - dt_used div d) l)%R.
      { apply IH; [intros; apply Hp; now right|exact Hin]. }
      assert (0 <= fst d - dt_used div d)%R.
      { destruct (Nat.eq_dec (ndiv (snd d)) 0) as [E|E].
        - rewrite used_undivided by exact E. lra.
        - pose proof (used_less div d Hd (Hp d (or_introl eq_refl)) E). lra. }
      unfold total in *. lra. }
  lra.
Qed.
Print Assumptions C16_clock_ahead_after_repeat.

(** Such a repeat happens: safe mode, the first cycle stagnates, the second
    converges, and the run goes on. *)
Theorem C16_clock_is_sum_of_steps_refuted :
  exists c env s, newton_in c = 0 /\
    nl_steps c [env] (newton0 c) (newton0 c) = [(s, Converged)] /\
    (0 + dt_used 2 (1, s) < clock 0 [(1, s)])%R.
Proof.
  pose (ok := Obs true true true true true true false false false false).
  pose (st := Obs false false false false false false false false false true).
  exists (NlCfg 5 3 1 true 0 false 10 false), (fun i => match i with O => st | _ => ok end).
  eexists. split; [reflexivity|]. split; [reflexivity|].
  unfold dt_used. cbn. lra.
Qed.
Print Assumptions C16_clock_is_sum_of_steps_refuted.

Example C16_ex :
  let ok := Obs true true true true true true false false false false in
  let no := Obs false false false false false false false false false true in
  let c := NlCfg 5 3 2 true 0 false 10 false in
  let env i := match i with O => no | _ => ok end in
  exists s1 s2, nl_steps c [env; env] (newton0 c) (newton0 c) = [(s1, Converged); (s2, Converged)] /\
    (clock 1 [(2, s1); (3, s2)] = 6)%R.
Proof. do 2 eexists. split; [reflexivity|]. cbn. ring. Qed.

(** ** C47 *)

(** With the documented values of the Newton switch, Jacobian matrices are only
    built and solved with when their storage was requested at the start of the
    program, in every time step of every run. *)
Theorem C47_jacobian_storage_exists :
  forall c envs s e, newton_in c = 0 \/ newton_in c = 1 ->
  In (s, e) (nl_steps c envs (newton0 c) (newton0 c)) ->
  jac s = true -> need_jacobian c = true.
Proof.
  intros c envs s e Hn. apply steps_jac; [|auto].
  unfold p2n, need_jacobian. destruct Hn as [->| ->]; [discriminate|reflexivity].
Qed.
Print Assumptions C47_jacobian_storage_exists.

(** The hypothesis is needed: with [Newton = 2] and the switch from Picard, the
    Jacobian can be used without storage (if the uninitialised flag is read as
    "not first", or as "first"; the model stops at the read, so this is exhibited
    as the indeterminate end of the very first step). *)
Theorem C47_other_newton_values_refuted :
  exists c envs s, newton_in c = 2 /\ need_jacobian c = false /\
    nl_steps c envs (newton0 c) (newton0 c) = [(s, Indeterminate)].
Proof.
  pose (sw := Obs false false false false false false true true true false).
  exists (NlCfg 5 3 0 true 2 true 10 false), [fun _ => sw].
  eexists. repeat split; reflexivity.
Qed.
Print Assumptions C47_other_newton_values_refuted.

Example C47_ex :
  let ok := Obs true true true true true true false false false false in
  let sw := Obs false false false false false false true true true false in
  let c := NlCfg 5 3 0 true 1 true 10 false in
  let env i := match i with O => sw | _ => ok end in
  map (fun r => jac (fst r)) (nl_steps c [env] (newton0 c) (newton0 c)) = [true] /\
  need_jacobian c = true.
Proof. split; reflexivity. Qed.
