(** * C90, C91: the Krylov solver and the Powell-Hestenes iterations *)
From Coq Require Import Reals List Arith ZArith Lra Lia Bool FunctionalExtensionality.
From Verif Require Import DiffModel LinSolve ReseedModel SolverModel SolverProofs.
Import ListNotations.
Local Open Scope R_scope.

(** ** C90: the Krylov solver *)
(** Specification: [residual], [sq] and [combo] of SolverProofs (b - Mx, sum of squares, combination of vectors). *)

Lemma kspgcr_out : forall N M Q b x0 eps max_it ok s, kspgcr N M Q b x0 eps max_it = Out ok s ->
  Inv N M b s /\ Fall N (nrm2 N (residual N M b x0)) s /\ (gits s <= max_it + 6)%nat
  /\ (ok = true -> nrm2 N (gf s) < eps * nrm2 N (residual N M b x0)) /\ (ok = false -> (max_it <= gits s)%nat).
Proof.
  intros N M Q b x0 eps max_it ok s H. unfold kspgcr in H. cbv zeta in H.
  assert (E : gf (gcr_start N M b x0) = residual N M b x0) by (apply functional_extensionality; intros i; apply (proj1 (start_inv N M b x0))).
  rewrite E in H. apply (loop_out N M Q eps _ b) in H; [exact H|apply start_inv| |cbn; lia|cbn; lia].
  split; [exact I|]. cbn [glog gcr_start]. rewrite E. reflexivity.
Qed.

(** when it says it converged, the true residual of the returned vector is below the tolerance *)
Theorem C90_success : forall N M Q b x0 eps max_it s, kspgcr N M Q b x0 eps max_it = Out true s ->
  sqrt (sq N (residual N M b (gx s))) < eps * sqrt (sq N (residual N M b x0)).
Proof.
  intros N M Q b x0 eps max_it s H. destruct (kspgcr_out _ _ _ _ _ _ _ _ _ H) as ((If & _) & _ & _ & C & _).
  specialize (C eq_refl). unfold nrm2 in C. rewrite (dot_ext N _ (residual N M b (gx s)) _ (residual N M b (gx s))) in C by (intros; apply If). exact C.
Qed.
Print Assumptions C90_success.

(** whatever happens, the returned vector is no worse than the initial guess, and the printed norms never grow; the last
    printed norm is the norm of the true residual of the returned vector *)
Theorem C90_never_worse : forall N M Q b x0 eps max_it ok s, kspgcr N M Q b x0 eps max_it = Out ok s ->
  sq N (residual N M b (gx s)) <= sq N (residual N M b x0)
  /\ (forall i a c, nth_error (glog s) i = Some a -> nth_error (glog s) (S i) = Some c -> a <= c)
  /\ (forall a, hd_error (glog s) = Some a -> a = sqrt (sq N (residual N M b (gx s)))).
Proof.
  intros N M Q b x0 eps max_it ok s H. destruct (kspgcr_out _ _ _ _ _ _ _ _ _ H) as ((If & _) & (F1 & F2) & _).
  assert (En : nrm2 N (gf s) = sqrt (sq N (residual N M b (gx s)))) by (unfold nrm2; f_equal; apply dot_ext; intros; apply If).
  assert (G : forall top l, falling top l -> (forall i a c, nth_error l i = Some a -> nth_error l (S i) = Some c -> a <= c) /\ match l with [] => True | a :: _ => a <= top end).
  { intros top l. induction l as [|x l IH]; intros Fl; [split; [intros [|i] a c Ha; discriminate|exact I]|]. destruct Fl as [Fa Fb]. destruct (IH Fb) as [G1 G2]. split.
    - intros [|i] a c Ha Hc; cbn in Ha, Hc; [|eapply G1; eauto]. inversion Ha; subst. destruct l as [|y l]; [discriminate|]. inversion Hc; subst. exact Fa.
    - destruct l as [|y l]; lra. }
  destruct (G _ _ F1) as [G1 G2]. split; [|split; [exact G1|]].
  - assert (L : nrm2 N (gf s) <= nrm2 N (residual N M b x0)) by (rewrite F2; destruct (glog s); lra).
    rewrite En in L. unfold nrm2 in L. apply sqrt_le_0 in L; [exact L|apply dot_pos|apply dot_pos].
  - intros a Ha. rewrite <- En, F2. destruct (glog s); [discriminate|]. inversion Ha. reflexivity.
Qed.
Print Assumptions C90_never_worse.

(** the iteration counter it reports exceeds the requested maximum by at most six; without success it has reached it *)
Theorem C90_iterations : forall N M Q b x0 eps max_it ok s, kspgcr N M Q b x0 eps max_it = Out ok s ->
  (gits s <= max_it + 6)%nat /\ (ok = false -> (max_it <= gits s)%nat).
Proof. intros. destruct (kspgcr_out _ _ _ _ _ _ _ _ _ H) as (_ & _ & A & _ & B). split; assumption. Qed.
Print Assumptions C90_iterations.

(** in the first cycle the solution is the best one: no combination of the preconditioned residuals met so far, added to the
    initial guess, has a smaller residual *)
Theorem C90_minimal : forall N M Q eps rnorm0 b x0 (sts : nat -> gcr) k st',
  sts 0%nat = gcr_start N M b x0 ->
  (forall i, (i < k)%nat -> step N M Q eps rnorm0 i (sts i) = Next (sts (S i))) ->
  (step N M Q eps rnorm0 k (sts k) = Next st' \/ step N M Q eps rnorm0 k (sts k) = Converged st') ->
  forall c, sq N (residual N M b (gx st')) <= sq N (residual N M b (combo x0 (S k) c (fun j => Q (residual N M b (gx (sts j)))))).
Proof.
  intros N M Q eps rnorm0 b x0 sts k st' H0 H Hk c. pose proof (run_min N M Q eps rnorm0 b x0 sts H0 k st' H Hk c) as R.
  assert (E : forall j, (j <= k)%nat -> gf (sts j) = residual N M b (gx (sts j))).
  { intros j Hj. apply functional_extensionality. intros i. apply (run_inv N M Q eps rnorm0 b x0 sts H0 j). intros. apply H. lia. }
  assert (I' : Inv N M b st') by (eapply step_inv; [apply (run_inv N M Q eps rnorm0 b x0 sts H0 k H)|exact Hk]).
  replace (sq N (residual N M b (gx st'))) with (sq N (gf st')) by (apply dot_ext; intros; apply I').
  replace (combo x0 (S k) c (fun j => Q (residual N M b (gx (sts j))))) with (combo x0 (S k) c (fun j => Q (gf (sts j)))); [exact R|].
  apply functional_extensionality. intros i. unfold combo. f_equal. apply sumn_ext. intros j Hj. rewrite E by lia. reflexivity.
Qed.
Print Assumptions C90_minimal.

Lemma rate_arith : forall alpha beta F d v w x, 0 < alpha -> 0 < beta -> 0 < F -> alpha * F <= d -> w <= beta * beta * F -> v <= w -> 0 < v ->
  x * v = F * v - d * d -> x <= (1 - alpha / beta * (alpha / beta)) * F.
Proof.
  intros alpha beta F d v w x Pa Pb PF Hd Hw Hv Pv E.
  assert (K : alpha * F * (alpha * F) <= d * d) by (apply Rmult_le_compat; nra).
  set (r := alpha / beta). assert (Er : alpha = r * beta) by (unfold r; field; lra).
  assert (X : r * r * F * v <= r * r * F * (beta * beta * F)) by (apply Rmult_le_compat_l; [apply Rmult_le_pos; [apply Rle_0_sqr|lra]|lra]).
  rewrite Er in K. apply Rmult_le_reg_r with v; [exact Pv|]. nra.
Qed.

(** if the preconditioned operator is definite with bounds 0 < alpha and beta, an iteration of the first cycle never divides by
    zero unless the residual is exactly zero, and reduces the squared residual by the factor 1 - (alpha/beta)^2 at least *)
Theorem C90_rate : forall N M Q eps rnorm0 b x0 (sts : nat -> gcr) k alpha beta, 0 < alpha -> 0 < beta ->
  (forall f, alpha * sq N f <= sumn N (fun i => f i * sumn N (fun j => M i j * Q f j))) ->
  (forall f, sq N (fun i => sumn N (fun j => M i j * Q f j)) <= beta * beta * sq N f) ->
  sts 0%nat = gcr_start N M b x0 ->
  (forall i, (i < k)%nat -> step N M Q eps rnorm0 i (sts i) = Next (sts (S i))) ->
  sq N (residual N M b (gx (sts k))) <> 0 ->
  exists st', (step N M Q eps rnorm0 k (sts k) = Next st' \/ step N M Q eps rnorm0 k (sts k) = Converged st')
    /\ sq N (residual N M b (gx st')) <= (1 - (alpha / beta) * (alpha / beta)) * sq N (residual N M b (gx (sts k))).
Proof.
  intros N M Q eps rnorm0 b x0 sts k alpha beta Pa Pb Ha Hb H0 H NZ.
  pose proof (run_inv N M Q eps rnorm0 b x0 sts H0 k H) as I0. pose proof (run_orth N M Q eps rnorm0 b x0 sts H0 k H) as O.
  assert (Ef : sq N (gf (sts k)) = sq N (residual N M b (gx (sts k)))) by (apply dot_ext; intros; apply I0). rewrite <- Ef in *.
  specialize (Ha (gf (sts k))). specialize (Hb (gf (sts k))). fold (matv N M (Q (gf (sts k)))) in Hb.
  change (sumn N (fun i => gf (sts k) i * sumn N (fun j => M i j * Q (gf (sts k)) j))) with (dot N (gf (sts k)) (matv N M (Q (gf (sts k))))) in Ha.
  change (sq N (fun i => sumn N (fun j => M i j * Q (gf (sts k)) j))) with (dot N (matv N M (Q (gf (sts k)))) (matv N M (Q (gf (sts k))))) in Hb.
  assert (Pf : 0 < sq N (gf (sts k))) by (pose proof (dot_pos N (gf (sts k))); rewrite <- sq_dot in *; lra).
  destruct (step N M Q eps rnorm0 k (sts k)) as [|s|s] eqn:E.
  - exfalso. apply (step_breaks N M Q eps rnorm0 k (sts k) O) in E. nra.
  - exists s. split; [right; reflexivity|]. assert (I1 : Inv N M b s) by (eapply step_inv; [exact I0|right; exact E]).
    destruct (step_drop N M Q eps rnorm0 k (sts k) O s (or_intror E)) as [D P]. pose proof (v1_small N M Q k (sts k) O) as V.
    replace (sq N (residual N M b (gx s))) with (sq N (gf s)) by (apply dot_ext; intros; apply I1). rewrite Ef in *. clear - Pa Pb Ha Hb D P V Pf.
    set (F := sq N (residual N M b (gx (sts k)))) in *. set (d := dot N (gf (sts k)) (matv N M (Q (gf (sts k))))) in *. set (v := dot N (orth _ _ _ _) _) in *. set (w := dot N (matv _ _ _) _) in *.
    apply (rate_arith alpha beta F d v w); assumption.
  - exists s. split; [left; reflexivity|]. assert (I1 : Inv N M b s) by (eapply step_inv; [exact I0|left; exact E]).
    destruct (step_drop N M Q eps rnorm0 k (sts k) O s (or_introl E)) as [D P]. pose proof (v1_small N M Q k (sts k) O) as V.
    replace (sq N (residual N M b (gx s))) with (sq N (gf s)) by (apply dot_ext; intros; apply I1). rewrite Ef in *. clear - Pa Pb Ha Hb D P V Pf.
    set (F := sq N (residual N M b (gx (sts k)))) in *. set (d := dot N (gf (sts k)) (matv N M (Q (gf (sts k))))) in *. set (v := dot N (orth _ _ _ _) _) in *. set (w := dot N (matv _ _ _) _) in *.
    apply (rate_arith alpha beta F d v w); assumption.
Qed.
Print Assumptions C90_rate.

(** started from an exact solution the solver destroys it: it divides zero by zero and returns NaN *)
Theorem C90_exact_guess_refuted : forall N M Q x0 eps max_it,
  (forall f, (forall i, f i = 0) -> forall i, Q f i = 0) -> (0 < max_it)%nat ->
  kspgcr N M Q (fun i => sumn N (fun j => M i j * x0 j)) x0 eps max_it = Nan.
Proof.
  intros N M Q x0 eps max_it HQ Hm. unfold kspgcr. cbv zeta. set (b := fun i => sumn N (fun j => M i j * x0 j)). set (st := gcr_start N M b x0).
  destruct max_it as [|m]; [lia|]. cbn [gcr_loop]. change (gits st) with 0%nat. cbn [Nat.ltb Nat.leb].
  assert (F : forall i, gf st i = 0) by (intros i; unfold st, gcr_start, gf, axpy, matv, b; ring).
  cbn [cycle]. assert (B : step N M Q eps (nrm2 N (gf st)) 0 st = Breakdown); [|rewrite B; reflexivity].
  unfold step. cbv zeta. destruct (Req_EM_T _ 0) as [E|NE]; [reflexivity|]. exfalso. apply NE.
  assert (Z : forall i, orth 0 (new_val N 0 (matv N M (Q (gf st))) st) (gVV st) (matv N M (Q (gf st))) i = 0).
  { intros i. unfold orth. cbn [seq fold_left]. unfold axpy, matv. rewrite sumn_zero; [cbn; ring|]. intros j _. rewrite (HQ _ F). ring. }
  rewrite <- sqrt_0. f_equal. apply sumn_zero. intros i _. rewrite Z. ring.
Qed.
Print Assumptions C90_exact_guess_refuted.

(** for an operator that is not definite it can break down although the system has a solution and the guess is not it:
    a quarter turn of the plane *)
Definition turn : nat -> nat -> R := fun i j => if (i =? 0)%nat then (if (j =? 1)%nat then 1 else 0) else (if (j =? 0)%nat then -1 else 0).
Definition rhs2 : vec := fun i => if (i =? 0)%nat then 1 else 0.
Theorem C90_indefinite_refuted : forall max_it eps, (0 < max_it)%nat -> eps <= 1 ->
  kspgcr 2 turn (fun f => f) rhs2 (fun _ => 0) eps max_it = Nan
  /\ exists x, forall i, (i < 2)%nat -> residual 2 turn rhs2 x i = 0.
Proof.
  intros max_it eps Hm He. split.
  - unfold kspgcr. cbv zeta. set (st := gcr_start 2 turn rhs2 (fun _ => 0)). destruct max_it as [|m]; [lia|]. cbn [gcr_loop]. change (gits st) with 0%nat. cbn [Nat.ltb Nat.leb cycle].
    assert (F0 : forall i, gf st i = rhs2 i) by (intros i; unfold st, gcr_start, gf, axpy, matv, sumn; cbn [seq fold_right]; ring).
    set (v0 := matv 2 turn (gf st)). assert (V0 : v0 0%nat = 0 /\ v0 1%nat = -1) by (unfold v0, matv, sumn; cbn [seq fold_right]; rewrite !F0; unfold turn, rhs2; cbn; split; ring).
    set (v1 := orth 0 (new_val 2 0 v0 st) (gVV st) v0). assert (E1 : forall i, v1 i = v0 i) by (intros i; unfold v1, orth; cbn [seq fold_left]; unfold axpy, st, gcr_start, gVV; ring).
    assert (N1 : sqrt (dot 2 v1 v1) = 1) by (rewrite <- sqrt_1; f_equal; unfold dot, sumn; cbn [seq fold_right]; rewrite !E1; destruct V0 as [-> ->]; ring).
    assert (R1 : dot 2 (gf st) v1 = 0) by (unfold dot, sumn; cbn [seq fold_right]; rewrite !E1, !F0; destruct V0 as [-> ->]; unfold rhs2; cbn; ring).
    assert (Nf : nrm2 2 (gf st) = 1) by (unfold nrm2; rewrite <- sqrt_1; f_equal; unfold dot, sumn; cbn [seq fold_right]; rewrite !F0; unfold rhs2; cbn; ring).
    destruct (step_out 2 turn (fun f => f) eps (nrm2 2 (gf st)) 0 st) as [E|(w & s & nrm & Ew & Es & En & Pn & X)]; [rewrite E; reflexivity|].
    cbv zeta in X. fold v0 in Ew, Es, X. fold v1 in Ew. rewrite Ew in *. rewrite N1 in En. subst nrm. rewrite R1 in X.
    set (f' := axpy (gf st) (- (0 / 1)) (scalv (1 / 1) v1)) in *.
    assert (F' : forall i, f' i = rhs2 i) by (intros i; unfold f', axpy; rewrite F0; field).
    assert (Nf' : nrm2 2 f' = 1) by (unfold nrm2; rewrite <- sqrt_1; f_equal; unfold dot, sumn; cbn [seq fold_right]; rewrite !F'; unfold rhs2; cbn; ring).
    destruct X as [[L _]|[_ X]]; [rewrite Nf, Nf' in L; lra|]. rewrite X. set (st2 := Gcr _ _ _ _ _ _ _).
    assert (B : step 2 turn (fun f => f) eps (nrm2 2 (gf st)) 1 st2 = Breakdown); [|rewrite B; reflexivity].
    unfold step. cbv zeta. change (gf st2) with f'. set (w0 := matv 2 turn f').
    assert (W0 : forall i, w0 i = v0 i) by (intros i; unfold w0, v0, matv, sumn; cbn [seq fold_right]; rewrite !F', !F0; reflexivity).
    assert (S2 : forall i, gVV st2 0%nat i = v0 i) by (intros i; unfold st2, gVV, nupd, scalv; cbn [Nat.eqb]; rewrite E1; field).
    assert (S3 : forall i, gVV st2 1%nat i = 0) by (intros i; reflexivity).
    destruct (Req_EM_T _ 0) as [E|NE]; [reflexivity|]. exfalso. apply NE.
    assert (D : new_val 2 1 w0 st2 0%nat = 1) by (unfold new_val; cbn [Nat.ltb Nat.leb]; unfold dot, sumn; cbn [seq fold_right]; rewrite !W0, !S2; destruct V0 as [-> ->]; ring).
    assert (Z : forall i, orth 1 (new_val 2 1 w0 st2) (gVV st2) w0 i = 0) by (intros i; unfold orth; cbn [seq fold_left]; unfold axpy; rewrite W0, S2, S3, D; ring).
    rewrite <- sqrt_0. f_equal. apply sumn_zero. intros i _. rewrite Z. ring.
  - exists (fun i => if (i =? 1)%nat then 1 else 0). intros i Hi. unfold residual, sumn. cbn [seq fold_right]. destruct i as [|[|i]]; [| |lia]; unfold turn, rhs2; cbn; ring.
Qed.
Print Assumptions C90_indefinite_refuted.

(** case: M = [[2]] with the identity as preconditioner and right-hand side 6: one iteration finds x = 3 *)
Definition two : nat -> nat -> R := fun _ _ => 2.
Example C90_ex : forall max_it, (0 < max_it)%nat ->
  exists s, kspgcr 1 two (fun f => f) (fun _ => 6) (fun _ => 0) (1 / 10000) max_it = Out true s /\ gx s 0%nat = 3.
Proof.
  intros max_it Hm. unfold kspgcr. cbv zeta. set (st := gcr_start 1 two (fun _ => 6) (fun _ => 0)). destruct max_it as [|m]; [lia|].
  cbn [gcr_loop]. change (gits st) with 0%nat. cbn [Nat.ltb Nat.leb cycle].
  assert (F0 : forall i, gf st i = 6) by (intros i; unfold st, gcr_start, gf, axpy, matv, sumn; cbn [seq fold_right]; ring).
  set (v0 := matv 1 two (gf st)). assert (V0 : forall i, v0 i = 12) by (intros i; unfold v0, matv, sumn, two; cbn [seq fold_right]; rewrite !F0; ring).
  destruct (step_out 1 two (fun f => f) (1 / 10000) (nrm2 1 (gf st)) 0 st) as [E|(w & s & nrm & Ew & Es & En & Pn & X)].
  - exfalso. unfold step in E. cbv zeta in E. destruct (Req_EM_T _ 0) as [E0|]; [|destruct (Rlt_dec _ _); discriminate].
    apply sqrt_eq_0 in E0; [|apply dot_pos]. fold v0 in E0. unfold dot, sumn, orth in E0. cbn [seq fold_right fold_left] in E0. unfold axpy, st, gcr_start, gVV in E0. rewrite !V0 in E0. lra.
  - cbv zeta in X. fold v0 in Ew, Es, X.
    assert (W : forall i, w i = 12) by (intros i; rewrite Ew; unfold orth; cbn [seq fold_left]; unfold axpy, st, gcr_start, gVV; rewrite V0; ring).
    assert (S1 : forall i, s i = 6) by (intros i; rewrite Es; unfold orth; cbn [seq fold_left]; unfold axpy; rewrite F0; unfold st, gcr_start, gSS; ring).
    assert (Nn : nrm = 12) by (rewrite En; replace (dot 1 w w) with (12 * 12) by (unfold dot, sumn; cbn [seq fold_right]; rewrite !W; ring); apply sqrt_square; lra).
    assert (R : dot 1 (gf st) w / nrm = 6) by (rewrite Nn; unfold dot, sumn; cbn [seq fold_right]; rewrite F0, W; field). rewrite R in X.
    assert (Nf : nrm2 1 (gf st) = 6) by (unfold nrm2; replace (dot 1 (gf st) (gf st)) with (6 * 6) by (unfold dot, sumn; cbn [seq fold_right]; rewrite !F0; ring); apply sqrt_square; lra).
    assert (Nf' : nrm2 1 (axpy (gf st) (Ropp 6) (scalv (1 / nrm) w)) = 0) by (unfold nrm2; rewrite <- sqrt_0; f_equal; unfold dot, sumn, axpy, scalv; cbn [seq fold_right]; rewrite !F0, !W, Nn; field).
    destruct X as [[L X]|[L X]]; [|rewrite Nf, Nf' in L; lra]. rewrite X. eexists. split; [reflexivity|]. cbn [bump gx]. unfold axpy, scalv. rewrite S1, Nn. unfold st, gcr_start, gx. field.
Qed.

(** ** C91: the Powell-Hestenes iterations *)
(** Specification: the two equations that the solver solves, written out. *)
Definition momentum (k : blocks) (bu : vec) (s : vec * vec) : vec :=
  fun i => bu i - sumn (kn k) (fun j => kAJ k i j * fst s j) - sumn (km k) (fun l => kBJ k i l * snd s l).
Definition continuity (k : blocks) (bp : vec) (s : vec * vec) : vec :=
  fun l => bp l - sumn (kn k) (fun j => kCJ k l j * fst s j) - kD1 k l * snd s l.
(** the Krylov solver's own residual for the velocity [du] and pressure [dp] of the previous iteration *)
Definition inner_residual (k : blocks) (bu bp dp du : vec) : vec :=
  residual (kn k) (schur k) (ph_rhs k bu bp dp) du.
(** every pressure unknown is compressible (coefficient D1 > 0, inverse D) or incompressible (no coefficient, penalty D > 0) *)
Definition pressure_blocks (k : blocks) (gamma : R) : Prop :=
  forall l, (l < km k)%nat -> (kW k l = 0 /\ 0 < kD1 k l /\ kD k l * kD1 k l = 1) \/ (kW k l = 1 /\ kD1 k l = 0 /\ kD k l = gamma).
Definition same_divergence (k : blocks) : Prop := forall l j, (l < km k)%nat -> (j < kn k)%nat -> kCc k l j = kCJ k l j.
(** the pressure gradient is minus the transposed divergence *)
Definition gradient_is_transpose (k : blocks) : Prop := forall i l, (i < kn k)%nat -> (l < km k)%nat -> kBJ k i l = - kCJ k l i.
Definition exact_solver (k : blocks) (ksp : (nat -> nat -> R) -> vec -> vec -> vec) : Prop :=
  forall rhs x i, (i < kn k)%nat -> residual (kn k) (schur k) rhs (ksp (schur k) rhs x) i = 0.

Lemma momentum_res : forall k bu s i, res_u k bu s i = momentum k bu s i.
Proof. intros. unfold res_u, momentum, axpy, matv. ring. Qed.
Lemma continuity_res : forall k bp s i, res_p k bp s i = continuity k bp s i.
Proof. intros. unfold res_p, continuity, axpy, matv, diagv. ring. Qed.

(** after every iteration the momentum residual is exactly what the Krylov solver left *)
Theorem C91_momentum : forall k gamma ksp bu bp du dp i, pressure_blocks k gamma -> same_divergence k ->
  momentum k bu (ph_iter k ksp bu bp (du, dp)) i = inner_residual k bu bp dp (fst (ph_iter k ksp bu bp (du, dp))) i.
Proof.
  intros k gamma ksp bu bp du dp i HB HC. unfold ph_iter. cbv zeta. cbn [fst snd]. set (v := ksp (schur k) (ph_rhs k bu bp dp) du).
  unfold momentum, inner_residual, residual, ph_rhs. cbv zeta. cbn [fst snd]. unfold axpy, matv, diagv.
  assert (E : sumn (kn k) (fun j => schur k i j * v j) = sumn (kn k) (fun j => kAJ k i j * v j) - sumn (km k) (fun l => kBJ k i l * (kD k l * sumn (kn k) (fun j => kCJ k l j * v j)))).
  { unfold schur. rewrite (sumn_ext (kn k) _ (fun j => kAJ k i j * v j - sumn (km k) (fun l => kBJ k i l * (kD k l * kCJ k l j) * v j))).
    2:{ intros j Hj. rewrite Rmult_minus_distr_r. f_equal. rewrite <- sumn_scal_r. apply sumn_ext. intros l Hl. rewrite (HC l j Hl Hj). ring. }
    rewrite sumn_minus. f_equal. rewrite sumn_swap. apply sumn_ext. intros l Hl. rewrite <- !sumn_scal. apply sumn_ext. intros. ring. }
  rewrite E. clear E.
  assert (G : sumn (km k) (fun l => kBJ k i l * (dp l + 1 * (kD k l * (bp l + -1 * sumn (kn k) (fun j => kCJ k l j * v j) + -1 * (kD1 k l * dp l)))))
            = sumn (km k) (fun l => kBJ k i l * (kD k l * bp l)) + sumn (km k) (fun l => kBJ k i l * (kW k l * dp l)) - sumn (km k) (fun l => kBJ k i l * (kD k l * sumn (kn k) (fun j => kCJ k l j * v j)))).
  { rewrite <- sumn_plus, <- sumn_minus. apply sumn_ext. intros l Hl. destruct (HB l Hl) as [(W & _ & D)|(W & D1 & D)].
    - rewrite W. replace (kD k l * (bp l + -1 * sumn (kn k) (fun j => kCJ k l j * v j) + -1 * (kD1 k l * dp l))) with (kD k l * bp l - kD k l * sumn (kn k) (fun j => kCJ k l j * v j) - (kD k l * kD1 k l) * dp l) by ring. rewrite D. ring.
    - rewrite W, D1. ring. }
  rewrite G. ring.
Qed.
Print Assumptions C91_momentum.

(** in a compressible cell the continuity equation holds exactly after every iteration *)
Theorem C91_compressible : forall k ksp bu bp du dp l, kD k l * kD1 k l = 1 ->
  continuity k bp (ph_iter k ksp bu bp (du, dp)) l = 0.
Proof.
  intros k ksp bu bp du dp l D. unfold ph_iter, continuity. cbv zeta. cbn [fst snd]. set (v := ksp _ _ _). unfold axpy, matv, diagv. set (c := sumn _ _).
  replace (kD1 k l * (dp l + 1 * (kD k l * (bp l + -1 * c + -1 * (kD1 k l * dp l))))) with (kD1 k l * dp l + (kD k l * kD1 k l) * (bp l - c - kD1 k l * dp l)) by ring. rewrite D. ring.
Qed.
Print Assumptions C91_compressible.

Section TwoIterations.
  Variables (k : blocks) (gamma : R) (ksp : (nat -> nat -> R) -> vec -> vec -> vec) (bu bp : vec).
  Hypothesis Hg : 0 < gamma.
  Hypothesis HB : pressure_blocks k gamma.
  Hypothesis HC : same_divergence k.
  Hypothesis HT : gradient_is_transpose k.
  Hypothesis HE : exact_solver k ksp.
  Variable s0 : vec * vec.
  Notation s1 := (ph_iter k ksp bu bp s0).
  Notation s2 := (ph_iter k ksp bu bp s1).
  Notation du := (fun i => fst s2 i - fst s1 i).
  Notation dq := (fun l => snd s2 l - snd s1 l).

  Lemma mom0 : forall s i, (i < kn k)%nat -> momentum k bu (ph_iter k ksp bu bp s) i = 0.
  Proof.
    intros [u p] i Hi. rewrite (C91_momentum k gamma ksp bu bp u p i HB HC). unfold inner_residual. unfold ph_iter. cbv zeta. cbn [fst]. apply HE. exact Hi.
  Qed.
  (** the velocity change balances the pressure change *)
  Lemma balance : forall i, (i < kn k)%nat -> sumn (kn k) (fun j => kAJ k i j * du j) = sumn (km k) (fun l => kCJ k l i * dq l).
  Proof.
    intros i Hi. pose proof (mom0 s0 i Hi) as M1. pose proof (mom0 s1 i Hi) as M2. unfold momentum in M1, M2.
    rewrite (sumn_ext (kn k) _ (fun j => kAJ k i j * fst s2 j - kAJ k i j * fst s1 j)) by (intros; ring). rewrite sumn_minus.
    rewrite (sumn_ext (km k) _ (fun l => kBJ k i l * snd s1 l - kBJ k i l * snd s2 l)) by (intros l Hl; rewrite (HT i l Hi Hl); ring). rewrite sumn_minus. lra.
  Qed.
  (** cell by cell: pressure change and change of the divergence *)
  Lemma cell : forall l, (l < km k)%nat ->
    (0 < kD1 k l /\ continuity k bp s1 l = 0 /\ continuity k bp s2 l = 0 /\ sumn (kn k) (fun j => kCJ k l j * du j) = - kD1 k l * dq l)
    \/ (dq l = gamma * continuity k bp s2 l /\ sumn (kn k) (fun j => kCJ k l j * du j) = continuity k bp s1 l - continuity k bp s2 l).
  Proof.
    intros l Hl. assert (Ed : sumn (kn k) (fun j => kCJ k l j * du j) = sumn (kn k) (fun j => kCJ k l j * fst s2 j) - sumn (kn k) (fun j => kCJ k l j * fst s1 j)).
    { rewrite <- sumn_minus. apply sumn_ext. intros. ring. }
    cbv beta in *. rewrite Ed. destruct (HB l Hl) as [(W & P & D)|(W & D1 & D)].
    - left. assert (C1 : continuity k bp s1 l = 0) by (destruct s0; apply C91_compressible; exact D).
      assert (C2 : continuity k bp s2 l = 0) by (destruct s1 as [a c]; apply C91_compressible; exact D).
      split; [exact P|]. split; [exact C1|]. split; [exact C2|]. unfold continuity in C1, C2. lra.
    - right. split.
      + destruct s1 as [a c]. unfold ph_iter, continuity. cbv zeta. cbn [fst snd]. unfold axpy, matv, diagv. rewrite D1, D. ring.
      + unfold continuity. rewrite D1. ring.
  Qed.
  (** work of the velocity change *)
  Lemma work : sumn (kn k) (fun i => du i * sumn (kn k) (fun j => kAJ k i j * du j)) = sumn (km k) (fun l => dq l * sumn (kn k) (fun j => kCJ k l j * du j)).
  Proof.
    rewrite (sumn_ext (kn k) _ (fun i => sumn (km k) (fun l => du i * (kCJ k l i * dq l)))) by (intros i Hi; rewrite (balance i Hi); rewrite <- sumn_scal; reflexivity).
    rewrite sumn_swap. apply sumn_ext. intros l Hl. rewrite <- sumn_scal. apply sumn_ext. intros. ring.
  Qed.
  Lemma falls_by : forall beta, 0 <= beta ->
    beta * sumn (km k) (fun l => dq l * dq l) <= sumn (kn k) (fun i => du i * sumn (kn k) (fun j => kAJ k i j * du j)) ->
    (1 + gamma * beta) * (1 + gamma * beta) * sq (km k) (continuity k bp s2) <= sq (km k) (continuity k bp s1).
  Proof.
    intros beta Hb Hw. pose proof work as Wk. cbv beta in *. rewrite Wk, <- sumn_scal in Hw. clear Wk. set (f1 := continuity k bp s1) in *. set (f2 := continuity k bp s2) in *. set (a := 1 + gamma * beta).
    assert (A : a * sq (km k) f2 <= sumn (km k) (fun l => f1 l * f2 l)).
    { assert (L : 0 <= sumn (km k) (fun l => dq l * sumn (kn k) (fun j => kCJ k l j * du j) - beta * (dq l * dq l))) by (rewrite sumn_minus; lra).
      assert (G : sumn (km k) (fun l => dq l * sumn (kn k) (fun j => kCJ k l j * du j) - beta * (dq l * dq l)) <= sumn (km k) (fun l => gamma * (f1 l * f2 l - a * (f2 l * f2 l)))).
      { apply sumn_le. intros l Hl. pose proof (cell l Hl) as CL. cbv beta in *. destruct CL as [(P & C1 & C2 & E)|(E1 & E2)].
        - fold f1 in C1. fold f2 in C2. rewrite C1, C2, E. set (q := snd s2 l - snd s1 l). pose proof (Rle_0_sqr q) as Q0. unfold Rsqr in Q0. assert (0 <= kD1 k l * (q * q)) by (apply Rmult_le_pos; lra). assert (0 <= beta * (q * q)) by (apply Rmult_le_pos; lra). lra.
        - fold f1 in E2. fold f2 in E1, E2. rewrite E2, E1. unfold a. right. ring. }
      pose proof (Rle_trans _ _ _ L G) as P. rewrite sumn_scal, sumn_minus, sumn_scal in P. unfold sq.
      apply Rmult_le_reg_l with gamma; [exact Hg|]. lra. }
    assert (S0 : 0 <= sumn (km k) (fun l => (f1 l - a * f2 l) * (f1 l - a * f2 l))) by (apply sumn_nonneg; intros; apply Rle_0_sqr).
    rewrite (sumn_ext (km k) _ (fun l => f1 l * f1 l - (2 * a) * (f1 l * f2 l) + (a * a) * (f2 l * f2 l))) in S0 by (intros; ring).
    rewrite sumn_plus, sumn_minus, !sumn_scal in S0. unfold sq in *.
    assert (Pa : 0 <= a) by (unfold a; assert (0 <= gamma * beta) by (apply Rmult_le_pos; lra); lra).
    assert (A2 : a * (a * sumn (km k) (fun i => f2 i * f2 i)) <= a * sumn (km k) (fun l => f1 l * f2 l)) by (apply Rmult_le_compat_l; assumption). lra.
  Qed.
End TwoIterations.

(** with exact velocity solves and a positive velocity operator, the divergence left in the incompressible cells never grows *)
Theorem C91_divergence_falls : forall k gamma ksp bu bp s, 0 < gamma -> pressure_blocks k gamma -> same_divergence k -> gradient_is_transpose k -> exact_solver k ksp ->
  (forall x, 0 <= sumn (kn k) (fun i => x i * sumn (kn k) (fun j => kAJ k i j * x j))) ->
  sq (km k) (continuity k bp (ph_iter k ksp bu bp (ph_iter k ksp bu bp s))) <= sq (km k) (continuity k bp (ph_iter k ksp bu bp s)).
Proof.
  intros k gamma ksp bu bp s Hg HB HC HT HE HA. pose proof (falls_by k gamma ksp bu bp Hg HB HC HT HE s 0 (Rle_refl 0)) as F.
  rewrite Rmult_0_l in F. specialize (F (HA _)). nra.
Qed.
Print Assumptions C91_divergence_falls.

(** with an inf-sup bound beta the divergence shrinks by 1 + penalty*beta at every iteration: convergence for every penalty *)
Theorem C91_rate : forall k gamma beta ksp bu bp its, 0 < gamma -> 0 <= beta -> pressure_blocks k gamma -> same_divergence k -> gradient_is_transpose k -> exact_solver k ksp ->
  (forall x q, (forall i, (i < kn k)%nat -> sumn (kn k) (fun j => kAJ k i j * x j) = sumn (km k) (fun l => kCJ k l i * q l)) ->
     beta * sumn (km k) (fun l => q l * q l) <= sumn (kn k) (fun i => x i * sumn (kn k) (fun j => kAJ k i j * x j))) ->
  sq (km k) (continuity k bp (ph_run k ksp bu bp (S its))) * ((1 + gamma * beta) ^ its * (1 + gamma * beta) ^ its) <= sq (km k) (continuity k bp (ph_run k ksp bu bp 1)).
Proof.
  intros k gamma beta ksp bu bp its Hg Hb HB HC HT HE HI. induction its as [|its IH]; [cbn [pow]; lra|].
  eapply Rle_trans; [|exact IH]. change (ph_run k ksp bu bp (S (S its))) with (ph_iter k ksp bu bp (ph_run k ksp bu bp (S its))).
  change (ph_run k ksp bu bp (S its)) with (ph_iter k ksp bu bp (ph_run k ksp bu bp its)).
  set (s := ph_run k ksp bu bp its). pose proof (falls_by k gamma ksp bu bp Hg HB HC HT HE s beta Hb) as F.
  specialize (F (HI _ _ (fun i Hi => balance k gamma ksp bu bp HB HC HT HE s i Hi))). cbn [pow].
  set (a := 1 + gamma * beta) in *. assert (P : 0 <= a ^ its * a ^ its) by nra.
  match type of F with a * a * ?y <= ?z => replace (y * (a * a ^ its * (a * a ^ its))) with (a * a * y * (a ^ its * a ^ its)) by ring; apply (Rmult_le_compat_r _ (a * a * y) z P F) end.
Qed.
Print Assumptions C91_rate.

(** if the divergence residual vanishes the pair found solves the whole system *)
Theorem C91_solution : forall k gamma ksp bu bp du dp, pressure_blocks k gamma -> same_divergence k -> exact_solver k ksp ->
  let s := ph_iter k ksp bu bp (du, dp) in
  (forall l, (l < km k)%nat -> kD1 k l = 0 -> continuity k bp s l = 0) ->
  (forall i, (i < kn k)%nat -> momentum k bu s i = 0) /\ (forall l, (l < km k)%nat -> continuity k bp s l = 0).
Proof.
  intros k gamma ksp bu bp du dp HB HC HE s H. split.
  - intros i Hi. apply (mom0 k gamma ksp bu bp HB HC HE (du, dp) i Hi).
  - intros l Hl. destruct (HB l Hl) as [(_ & _ & D)|(_ & D1 & _)]; [apply C91_compressible; exact D|apply H; assumption].
Qed.
Print Assumptions C91_solution.

(** case: one velocity and two pressures, the first incompressible with penalty 3, the second compressible *)
Definition k_ex : blocks := Blocks 1 2 (fun _ _ => 2) (fun _ _ => -1) (fun _ _ => 1) (fun _ _ => 1)
  (fun l => if (l =? 0)%nat then 3 else 1 / 4) (fun l => if (l =? 0)%nat then 0 else 4) (fun l => if (l =? 0)%nat then 1 else 0).
Definition ksp_ex (K : nat -> nat -> R) (rhs x : vec) : vec := fun _ => rhs 0%nat / K 0%nat 0%nat.
Example C91_ex : pressure_blocks k_ex 3 /\ same_divergence k_ex /\ gradient_is_transpose k_ex /\ exact_solver k_ex ksp_ex
  /\ (forall x, 0 <= sumn (kn k_ex) (fun i => x i * sumn (kn k_ex) (fun j => kAJ k_ex i j * x j)))
  /\ continuity k_ex (fun _ => 0) (ph_run k_ex ksp_ex (fun _ => 21) (fun _ => 0) 1) 0%nat = -4
  /\ continuity k_ex (fun _ => 0) (ph_run k_ex ksp_ex (fun _ => 21) (fun _ => 0) 2) 0%nat = - (12 / 7).
Proof.
  assert (K00 : schur k_ex 0%nat 0%nat = 21 / 4) by (unfold schur, k_ex, sumn; cbn; field).
  split; [|split; [|split; [|split; [|split; [|split]]]]].
  - intros [|[|l]] H; cbn in H |- *; [right|left|lia]; (split; [reflexivity|]); split; lra.
  - intros l j _ _. reflexivity.
  - intros i l _ _. cbn. lra.
  - intros rhs x i Hi. change (kn k_ex) with 1%nat in *. assert (i = 0%nat) by lia. subst i. unfold residual, ksp_ex, sumn. cbn [seq fold_right]. rewrite K00. field.
  - intros x. unfold sumn, k_ex. cbn. nra.
  - unfold ph_run, ph_iter, continuity. cbv zeta. cbn [fst snd]. unfold ksp_ex, ph_rhs. rewrite K00. unfold axpy, matv, diagv, sumn, k_ex. cbn. field.
  - unfold ph_run, ph_iter, continuity. cbv zeta. cbn [fst snd]. unfold ksp_ex, ph_rhs. rewrite K00. unfold axpy, matv, diagv, sumn, k_ex. cbn. field.
Qed.
