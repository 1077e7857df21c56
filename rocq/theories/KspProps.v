(** * C117: the coupled Krylov solver and the correction of velocity and pressure *)
From Coq Require Import Reals List Arith ZArith Lra Lia Bool FunctionalExtensionality.
From Verif Require Import DiffModel LinSolve ReseedModel SolverModel SolverProofs SolverProps ParamModel OptionsModel DirectModel DirectProps.
Import ListNotations.
Local Open Scope R_scope.

(** Specification: the residual b - M x is [residual], its sum of squares [sq]; a stacked vector holds [dn d] velocities, then
    [dm d] pressures. *)
Lemma ksp_out : forall d solve AJ BJ CJ b x0 eps ok s, ksp_stokes d solve AJ BJ CJ b x0 eps = Out ok s ->
  let N := (dn d + dm d)%nat in let M := coupled d AJ BJ CJ in
  Inv N M b s /\ Fall N (nrm2 N (residual N M b x0)) s
  /\ (ok = true -> nrm2 N (gf s) < eps * nrm2 N (residual N M b x0)).
Proof.
  intros d solve AJ BJ CJ b x0 eps ok s H N M. unfold ksp_stokes in H. cbv zeta in H. fold N M in H.
  assert (E : gf (gcr_start N M b x0) = residual N M b x0) by (apply functional_extensionality; intros i; apply (proj1 (start_inv N M b x0))).
  rewrite E in H. apply (loop_out N M (ksp_pc d solve) eps _ b) in H.
  - destruct H as (I1 & F1 & _ & C & _). split; [exact I1|]. split; [exact F1|exact C].
  - apply start_inv.
  - split; [exact I|]. cbn [glog gcr_start]. rewrite E. reflexivity.
  - cbn [gits gcr_start]. lia.
  - cbn [gits gcr_start]. lia.
Qed.

(** converged: the residual fell below the tolerance times that of the start, the current velocity and pressure *)
Theorem C117_success : forall d solve AJ BJ CJ b x0 eps s, ksp_stokes d solve AJ BJ CJ b x0 eps = Out true s ->
  let N := (dn d + dm d)%nat in let M := coupled d AJ BJ CJ in
  sqrt (sq N (residual N M b (gx s))) < eps * sqrt (sq N (residual N M b x0)).
Proof.
  intros d solve AJ BJ CJ b x0 eps s H N M. destruct (ksp_out _ _ _ _ _ _ _ _ _ _ H) as ((If & _) & _ & C). cbv zeta in If, C. fold N M in If, C.
  specialize (C eq_refl). unfold nrm2 in C. rewrite (dot_ext N _ (residual N M b (gx s)) _ (residual N M b (gx s))) in C by (intros; apply If). exact C.
Qed.
Print Assumptions C117_success.

(** whether it converged or not, the result is no worse than the start *)
Theorem C117_never_worse : forall d solve AJ BJ CJ b x0 eps ok s, ksp_stokes d solve AJ BJ CJ b x0 eps = Out ok s ->
  let N := (dn d + dm d)%nat in let M := coupled d AJ BJ CJ in
  sq N (residual N M b (gx s)) <= sq N (residual N M b x0).
Proof.
  intros d solve AJ BJ CJ b x0 eps ok s H N M. destruct (ksp_out _ _ _ _ _ _ _ _ _ _ H) as ((If & _) & (F1 & F2) & _). cbv zeta in *. fold N M in If, F1, F2.
  assert (En : nrm2 N (gf s) = sqrt (sq N (residual N M b (gx s)))) by (unfold nrm2; f_equal; apply dot_ext; intros; apply If).
  assert (G : forall top l, falling top l -> match l with [] => True | a :: _ => a <= top end).
  { intros top l. induction l as [|x l IH]; intros Fl; [exact I|]. destruct Fl as [Fa Fb]. specialize (IH Fb). destruct l; lra. }
  specialize (G _ _ F1). assert (L : nrm2 N (gf s) <= nrm2 N (residual N M b x0)) by (rewrite F2; destruct (glog s); lra).
  rewrite En in L. unfold nrm2 in L. apply sqrt_le_0 in L; [exact L|apply dot_pos|apply dot_pos].
Qed.
Print Assumptions C117_never_worse.

(** the preconditioner solves A u - C' p = f_u and C u + p/D = f_p exactly: the system itself in compressible cells, and
    with a pressure term 1/penalty added in the incompressible ones *)
Theorem C117_preconditioner : forall d solve f, solves d solve -> (forall l, (l < dm d)%nat -> ddD d l <> 0) ->
  let s := ksp_pc d solve f in let n := dn d in
  (forall i, (i < n)%nat -> sumn n (fun j => dA d i j * s j) - sumn (dm d) (fun l => dC d l i * s (n + l)%nat) = f i)
  /\ (forall l, (l < dm d)%nat -> sumn n (fun j => dC d l j * s j) + / ddD d l * s (n + l)%nat = f (n + l)%nat).
Proof.
  intros d solve f HS HD s n. unfold s, ksp_pc. cbv zeta. fold n. set (fp := fun l => f (n + l)%nat). set (r := axpy f (-1) _). set (u := solve r).
  set (p := axpy _ _ _).
  assert (Su : forall j, (j < n)%nat -> stack n u p j = u j) by (intros j Hj; unfold stack; rewrite (proj2 (Nat.ltb_lt j n) Hj); reflexivity).
  assert (Sp : forall l, stack n u p (n + l)%nat = p l) by (intros l; unfold stack; rewrite (proj2 (Nat.ltb_ge (n + l) n)) by lia; f_equal; lia).
  assert (Ep : forall l, p l = ddD d l * fp l - ddD d l * sumn n (fun j => dC d l j * u j)) by (intros l; unfold p, axpy, diagv, matv; ring).
  split.
  - intros i Hi. rewrite (sumn_ext n _ (fun j => dA d i j * u j)) by (intros; rewrite Su; auto).
    rewrite (sumn_ext (dm d) _ (fun l => dC d l i * (ddD d l * fp l) - dC d l i * (ddD d l * sumn n (fun j => dC d l j * u j)))) by (intros; rewrite Sp, Ep; ring).
    rewrite sumn_minus. pose proof (HS r i Hi) as E. fold u in E. fold n in E. unfold augmented in E.
    rewrite (sumn_ext n _ (fun j => dA d i j * u j + sumn (dm d) (fun l => dC d l i * (ddD d l * dC d l j) * u j))) in E by (intros; rewrite Rmult_plus_distr_r; f_equal; rewrite <- sumn_scal_r; reflexivity).
    rewrite sumn_plus, sumn_swap in E.
    rewrite (sumn_ext (dm d) (fun i0 => sumn n (fun i1 => dC d i0 i * (ddD d i0 * dC d i0 i1) * u i1)) (fun l => dC d l i * (ddD d l * sumn n (fun j => dC d l j * u j)))) in E
      by (intros l Hl; rewrite <- !sumn_scal; apply sumn_ext; intros; ring).
    unfold r, axpy, matv, gradB, diagv in E.
    rewrite (sumn_ext (dm d) (fun j => - dC d j i * (ddD d j * fp j)) (fun l => (-1) * (dC d l i * (ddD d l * fp l)))) in E by (intros; ring). rewrite sumn_scal in E. lra.
  - intros l Hl. rewrite (sumn_ext n _ (fun j => dC d l j * u j)) by (intros; rewrite Su; auto). rewrite Sp, Ep. specialize (HD l Hl). unfold fp. field. exact HD.
Qed.
Print Assumptions C117_preconditioner.

Lemma sumn_cut : forall n m f, sumn (n + m) f = sumn n f + sumn m (fun l => f (n + l)%nat).
Proof.
  intros n m f. induction m as [|m IH]; [rewrite Nat.add_0_r; cbn; ring|]. rewrite <- plus_n_Sm, !sumn_S, IH. ring.
Qed.
Lemma sumn_diag : forall m l (a : vec) q, (l < m)%nat -> sumn m (fun j => (if (l =? j)%nat then q else 0) * a j) = q * a l.
Proof.
  intros m l a q. induction m as [|m IH]; intros H; [lia|]. rewrite sumn_S. destruct (Nat.eqb_spec l m) as [->|N].
  - rewrite sumn_zero; [ring|]. intros i Hi. destruct (Nat.eqb_spec m i); [lia|ring].
  - rewrite IH by lia. ring.
Qed.
(** the two rows of the coupled matrix *)
Lemma coupled_u : forall d AJ BJ CJ x i, (i < dn d)%nat -> sumn (dn d + dm d) (fun j => coupled d AJ BJ CJ i j * x j)
  = sumn (dn d) (fun j => AJ i j * x j) + sumn (dm d) (fun l => BJ i l * x (dn d + l)%nat).
Proof.
  intros d AJ BJ CJ x i Hi. rewrite sumn_cut. unfold coupled. cbv zeta. rewrite (proj2 (Nat.ltb_lt i (dn d)) Hi). f_equal; apply sumn_ext; intros j Hj.
  - rewrite (proj2 (Nat.ltb_lt j (dn d)) Hj). reflexivity.
  - rewrite (proj2 (Nat.ltb_ge (dn d + j) (dn d))) by lia. replace (dn d + j - dn d)%nat with j by lia. reflexivity.
Qed.
Lemma coupled_p : forall d AJ BJ CJ x l, (l < dm d)%nat -> sumn (dn d + dm d) (fun j => coupled d AJ BJ CJ (dn d + l) j * x j)
  = sumn (dn d) (fun j => CJ l j * x j) + ddD1 d l * x (dn d + l)%nat.
Proof.
  intros d AJ BJ CJ x l Hl. rewrite sumn_cut. unfold coupled. cbv zeta. rewrite (proj2 (Nat.ltb_ge (dn d + l) (dn d))) by lia. replace (dn d + l - dn d)%nat with l by lia. f_equal.
  - apply sumn_ext. intros j Hj. rewrite (proj2 (Nat.ltb_lt j (dn d)) Hj). reflexivity.
  - rewrite (sumn_ext (dm d) _ (fun j => (if (l =? j)%nat then ddD1 d l else 0) * x (dn d + j)%nat)).
    + apply (sumn_diag (dm d) l (fun j => x (dn d + j)%nat)). exact Hl.
    + intros j Hj. rewrite (proj2 (Nat.ltb_ge (dn d + j) (dn d))) by lia. f_equal.
      destruct (Nat.eqb_spec (dn d + l) (dn d + j)), (Nat.eqb_spec l j); try lia; reflexivity.
Qed.

(** the coupled matrix applied to [u; p] is A u + B p and C u + D1 p *)
Theorem C117_system : forall d AJ BJ CJ b x, let N := (dn d + dm d)%nat in let M := coupled d AJ BJ CJ in
  (forall i, (i < dn d)%nat -> residual N M b x i = b i - sumn (dn d) (fun j => AJ i j * x j) - sumn (dm d) (fun l => BJ i l * x (dn d + l)%nat))
  /\ (forall l, (l < dm d)%nat -> residual N M b x (dn d + l)%nat = b (dn d + l)%nat - sumn (dn d) (fun j => CJ l j * x j) - ddD1 d l * x (dn d + l)%nat).
Proof.
  intros d AJ BJ CJ b x N M. split; [intros i Hi|intros l Hl]; unfold residual, N, M; [rewrite coupled_u by exact Hi|rewrite coupled_p by exact Hl]; ring.
Qed.
Print Assumptions C117_system.

(** what the first iteration decides, for any restart length and limits *)
Lemma first_converges : forall N M Q eps r0 restart max fuel st s, gits st = 0%nat -> step N M Q eps r0 0 st = Converged s ->
  gcr_loop N M Q eps r0 (S restart) (S max) (S fuel) st = Out true (bump s).
Proof. intros N M Q eps r0 restart max fuel st s G E. cbn [gcr_loop cycle]. rewrite G, E. reflexivity. Qed.
Lemma first_breaks : forall N M Q eps r0 restart max fuel st, gits st = 0%nat -> step N M Q eps r0 0 st = Breakdown ->
  gcr_loop N M Q eps r0 (S restart) (S max) (S fuel) st = Nan.
Proof. intros N M Q eps r0 restart max fuel st G E. cbn [gcr_loop cycle]. rewrite G, E. reflexivity. Qed.

(** for a compressible Picard system (AJ = A, BJ = -C', CJ = C) the preconditioner is the inverse: one iteration gives the
    exact solution *)
Theorem C117_one_iteration : forall d solve b x0 eps, solves d solve -> 0 < eps ->
  (forall l, (l < dm d)%nat -> ddD d l * ddD1 d l = 1) ->
  let N := (dn d + dm d)%nat in let M := coupled d (dA d) (gradB d) (dC d) in
  (exists i, (i < N)%nat /\ residual N M b x0 i <> 0) ->
  exists s, ksp_stokes d solve (dA d) (gradB d) (dC d) b x0 eps = Out true s /\ forall i, (i < N)%nat -> residual N M b (gx s) i = 0.
Proof.
  intros d solve b x0 eps HS He HD N M (i0 & Hi0 & NZ). set (Q := ksp_pc d solve).
  assert (HD0 : forall l, (l < dm d)%nat -> ddD d l <> 0) by (intros l Hl E; specialize (HD l Hl); rewrite E in HD; lra).
  assert (MQ : forall f i, (i < N)%nat -> matv N M (Q f) i = f i).
  { intros f i Hi. destruct (C117_preconditioner d solve f HS HD0) as [Pu Pp]. fold Q in Pu, Pp. unfold matv. destruct (Nat.lt_ge_cases i (dn d)) as [L|L].
    - unfold N, M. rewrite coupled_u by exact L. rewrite <- (Pu i L). unfold gradB.
      rewrite (sumn_ext (dm d) (fun l => - dC d l i * Q f (dn d + l)%nat) (fun l => (-1) * (dC d l i * Q f (dn d + l)%nat))) by (intros; ring). rewrite sumn_scal. ring.
    - replace i with (dn d + (i - dn d))%nat by lia. set (l := (i - dn d)%nat). assert (Hl : (l < dm d)%nat) by (unfold l, N in *; lia).
      unfold N, M. rewrite coupled_p by exact Hl. rewrite <- (Pp l Hl). f_equal. f_equal. specialize (HD l Hl). specialize (HD0 l Hl). apply Rmult_eq_reg_l with (ddD d l); [|exact HD0]. rewrite HD. field. exact HD0. }
  set (st := gcr_start N M b x0). assert (F0 : forall i, gf st i = residual N M b x0 i) by apply (proj1 (start_inv N M b x0)).
  assert (P0 : 0 < dot N (gf st) (gf st)).
  { pose proof (dot_pos N (gf st)) as P. destruct (Req_dec (dot N (gf st) (gf st)) 0) as [E|E]; [|lra]. exfalso. apply NZ. rewrite <- F0. apply (dot_self_zero N); assumption. }
  unfold ksp_stokes. cbv zeta. fold N M Q st.
  set (v0 := matv N M (Q (gf st))). assert (V0 : forall i, (i < N)%nat -> v0 i = gf st i) by (intros; apply MQ; assumption).
  destruct (step_out N M Q eps (nrm2 N (gf st)) 0 st) as [E|(w & s & nrm & Ew & Es & En & Pn & X)].
  - exfalso. unfold step in E. cbv zeta in E. destruct (Req_EM_T _ 0) as [E0|]; [|destruct (Rlt_dec _ _); discriminate].
    apply sqrt_eq_0 in E0; [|apply dot_pos]. fold v0 in E0. rewrite (dot_ext N _ (gf st) _ (gf st)) in E0; [lra| |];
      intros i Hi; unfold orth; cbn [seq fold_left]; unfold axpy, st, gcr_start, gVV; rewrite Rmult_0_r, Rplus_0_r; apply V0; exact Hi.
  - cbv zeta in X. fold v0 in Ew, Es, X.
    assert (W : forall i, (i < N)%nat -> w i = gf st i) by (intros i Hi; rewrite Ew; unfold orth; cbn [seq fold_left]; unfold axpy, st, gcr_start, gVV; rewrite Rmult_0_r, Rplus_0_r; apply V0; exact Hi).
    assert (Ef : dot N (gf st) w = nrm * nrm) by (rewrite En; rewrite sqrt_sqrt by apply dot_pos; apply dot_ext; intros; [symmetry; apply W|]; auto).
    set (f' := axpy (gf st) (- (dot N (gf st) w / nrm)) (scalv (1 / nrm) w)) in *.
    assert (Z : forall i, (i < N)%nat -> f' i = 0) by (intros i Hi; unfold f', axpy, scalv; rewrite Ef, (W i Hi); field; lra).
    assert (Nf : nrm2 N f' = 0) by (unfold nrm2; rewrite <- sqrt_0; f_equal; apply sumn_zero; intros i Hi; rewrite (Z i Hi); ring).
    assert (Pr : 0 < nrm2 N (gf st)) by (apply sqrt_lt_R0; exact P0).
    destruct X as [[L X]|[L X]]; [|exfalso; apply L; rewrite Nf; nra].
    eexists. split; [exact (first_converges N M Q eps (nrm2 N (gf st)) 19 999 999 st _ eq_refl X)|]. intros i Hi.
    assert (I1 : Inv N M b (Gcr (axpy (gx st) (dot N (gf st) w / nrm) (scalv (1 / nrm) s)) f' (new_val N 0 v0 st) (gVV st) (gSS st) (gits st) (nrm2 N f' :: glog st))).
    { eapply step_inv; [apply (start_inv N M b x0)|right; exact X]. }
    rewrite <- (Z i Hi). symmetry. exact (proj1 I1 i).
Qed.
Print Assumptions C117_one_iteration.

(** if the start happens to be the solution - a model at rest, where velocity, pressure and right-hand side vanish - the
    correction returned is not a number *)
Theorem C117_rest_refuted : forall d solve AJ BJ CJ x0 eps, (forall f, (forall i, f i = 0) -> forall i, solve f i = 0) ->
  ksp_stokes d solve AJ BJ CJ (fun i => sumn (dn d + dm d) (fun j => coupled d AJ BJ CJ i j * x0 j)) x0 eps = Nan.
Proof.
  intros d solve AJ BJ CJ x0 eps HS. unfold ksp_stokes. cbv zeta. set (N := (dn d + dm d)%nat). set (M := coupled d AJ BJ CJ). set (Q := ksp_pc d solve).
  set (b := fun i => sumn N (fun j => M i j * x0 j)). set (st := gcr_start N M b x0).
  assert (F : forall i, gf st i = 0) by (intros i; unfold st, gcr_start, gf, axpy, matv, b; ring).
  assert (HQ : forall i, Q (gf st) i = 0).
  { assert (H1 : forall i, solve (axpy (gf st) (-1) (matv (dm d) (gradB d) (diagv (ddD d) (fun l => gf st (dn d + l)%nat)))) i = 0).
    { apply HS. intros i. unfold axpy, matv, diagv. rewrite F, sumn_zero; [ring|]. intros l _. rewrite F. ring. }
    intros i. unfold Q, ksp_pc. cbv zeta. unfold stack. destruct (i <? dn d)%nat; [apply H1|].
    unfold axpy at 1, diagv at 1 2, matv. rewrite F, sumn_zero; [ring|]. intros j _. rewrite H1. ring. }
  assert (B : step N M Q eps (nrm2 N (gf st)) 0 st = Breakdown).
  { unfold step. cbv zeta. destruct (Req_EM_T _ 0) as [E|NE]; [reflexivity|]. exfalso. apply NE.
    assert (Z : forall i, orth 0 (new_val N 0 (matv N M (Q (gf st))) st) (gVV st) (matv N M (Q (gf st))) i = 0).
    { intros i. unfold orth. cbn [seq fold_left]. unfold axpy, matv. rewrite sumn_zero; [cbn; ring|]. intros j _. rewrite HQ. ring. }
    rewrite <- sqrt_0. f_equal. apply sumn_zero. intros i _. rewrite Z. ring. }
  exact (first_breaks N M Q eps (nrm2 N (gf st)) 19 999 999 st eq_refl B).
Qed.
Print Assumptions C117_rest_refuted.

(** the tolerance is relative to the residual of the start: a Picard system with one velocity and one incompressible pressure
    (penalty 1e5), default tolerance; the correction is accepted although it leaves a residual 1000 times larger than the one
    to be removed *)
Definition d_g : dblocks := DBlocks 1 1 (fun _ _ => 1) (fun _ _ => 1) (fun _ => 100000) (fun _ => 0).
Definition solve_g (rhs : vec) : vec := fun _ => rhs 0%nat / 100001.
Definition b_g : vec := fun i => if (i =? 0)%nat then 0 else / 100000000.
Definition x_g : vec := fun i => if (i =? 0)%nat then 1001 / 100000000 else 1 + 1001 / 100000000.
Theorem C117_start_refuted : solves d_g solve_g /\ pressures d_g 100000
  /\ exists s, ksp_stokes d_g solve_g (dA d_g) (gradB d_g) (dC d_g) b_g x_g (/ 10000) = Out true s
     /\ sq 2 (residual 2 (coupled d_g (dA d_g) (gradB d_g) (dC d_g)) b_g (gx s)) = 1000 * 1000 * sq 2 b_g.
Proof.
  split; [intros rhs i Hi; cbn in Hi; assert (i = 0%nat) by lia; subst; unfold augmented, solve_g, sumn; cbn; field|].
  split; [intros l _; right; cbn; split; reflexivity|].
  unfold ksp_stokes. cbv zeta. change (dn d_g + dm d_g)%nat with 2%nat. set (M := coupled d_g (dA d_g) (gradB d_g) (dC d_g)). set (Q := ksp_pc d_g solve_g). set (st := gcr_start 2 M b_g x_g).
  assert (F0 : gf st 0%nat = 1) by (unfold st, gcr_start, gf, axpy, matv, sumn, M, coupled, gradB, b_g, x_g; cbn; field).
  assert (F1 : gf st 1%nat = - / 100000) by (unfold st, gcr_start, gf, axpy, matv, sumn, M, coupled, gradB, b_g, x_g; cbn; field).
  assert (Q0 : Q (gf st) 0%nat = 0) by (unfold Q, ksp_pc, stack, solve_g, axpy, matv, diagv, gradB, sumn; cbn [dn dm dA dC ddD ddD1 d_g seq fold_right Nat.ltb Nat.leb Nat.add]; rewrite F0, F1; field).
  assert (Q1 : Q (gf st) 1%nat = -1) by (unfold Q, ksp_pc, stack, solve_g, axpy, matv, diagv, gradB, sumn; cbn [dn dm dA dC ddD ddD1 d_g seq fold_right Nat.ltb Nat.leb Nat.add Nat.sub]; rewrite F0, F1; field).
  set (v0 := matv 2 M (Q (gf st))).
  assert (V0 : v0 0%nat = 1) by (unfold v0, matv, sumn; cbn [seq fold_right]; rewrite Q0, Q1; unfold M, coupled, gradB; cbn; ring).
  assert (V1 : v0 1%nat = 0) by (unfold v0, matv, sumn; cbn [seq fold_right]; rewrite Q0, Q1; unfold M, coupled, gradB; cbn; ring).
  assert (Nf : 1 <= nrm2 2 (gf st)).
  { unfold nrm2. rewrite <- sqrt_1 at 1. apply sqrt_le_1_alt. unfold dot, sumn. cbn [seq fold_right]. rewrite F0, F1. assert (0 <= - / 100000 * - / 100000) by nra. lra. }
  destruct (step_out 2 M Q (/ 10000) (nrm2 2 (gf st)) 0 st) as [E|(w & s & nrm & Ew & Es & En & Pn & X)].
  - exfalso. unfold step in E. cbv zeta in E. destruct (Req_EM_T _ 0) as [E0|]; [|destruct (Rlt_dec _ _); discriminate].
    apply sqrt_eq_0 in E0; [|apply dot_pos]. fold v0 in E0. unfold dot, sumn, orth in E0. cbn [seq fold_right fold_left] in E0. unfold axpy, st, gcr_start, gVV in E0. rewrite !V0, !V1 in E0. lra.
  - cbv zeta in X. fold v0 in Ew, Es, X.
    assert (W : forall i, w i = v0 i) by (intros i; rewrite Ew; unfold orth; cbn [seq fold_left]; unfold axpy, st, gcr_start, gVV; ring).
    assert (S1 : forall i, s i = Q (gf st) i) by (intros i; rewrite Es; unfold orth; cbn [seq fold_left]; unfold axpy, st, gcr_start, gSS; ring).
    assert (Nn : nrm = 1) by (rewrite En; rewrite <- sqrt_1; f_equal; unfold dot, sumn; cbn [seq fold_right]; rewrite !W, V0, V1; ring).
    assert (R : dot 2 (gf st) w / nrm = 1) by (rewrite Nn; unfold dot, sumn; cbn [seq fold_right]; rewrite !W, V0, V1, F0, F1; field). rewrite R, Nn in X.
    set (f' := axpy (gf st) (-(1)) (scalv (1 / 1) w)) in *.
    assert (G0 : f' 0%nat = 0) by (unfold f', axpy, scalv; rewrite F0, W, V0; field). assert (G1 : f' 1%nat = - / 100000) by (unfold f', axpy, scalv; rewrite F1, W, V1; field).
    assert (Nf' : nrm2 2 f' = / 100000).
    { unfold nrm2. replace (dot 2 f' f') with (/ 100000 * / 100000) by (unfold dot, sumn; cbn [seq fold_right]; rewrite G0, G1; ring). apply sqrt_square. lra. }
    destruct X as [[L X]|[L X]]; [|exfalso; apply L; rewrite Nf'; lra].
    eexists. split; [exact (first_converges 2 M Q (/ 10000) (nrm2 2 (gf st)) 19 999 999 st _ eq_refl X)|].
    cbn [bump gx]. set (x' := axpy _ _ _). assert (X0 : x' 0%nat = 1001 / 100000000) by (unfold x', axpy, scalv; rewrite S1, Q0; unfold st, gcr_start, gx, x_g; cbn; field).
    assert (X1 : x' 1%nat = 1001 / 100000000) by (unfold x', axpy, scalv; rewrite S1, Q1; unfold st, gcr_start, gx, x_g; cbn; field).
    unfold sq, residual, sumn. cbn [seq fold_right]. rewrite !X0, !X1. unfold M, coupled, gradB, b_g. cbn. field.
Qed.
Print Assumptions C117_start_refuted.

(** ** The correction *)
(** a correction that solves the (scaled) system "M dx = F" makes the linearised residual F + M (x' - x) vanish *)
Theorem C117_update : forall N M F sc ls dx x diag line, (diag = 0 \/ diag = 1)%Z -> line <> 1%Z -> (forall i, (i < N)%nat -> sc i <> 0) ->
  (let (M', F') := scaled_system diag sc M F in forall i, (i < N)%nat -> sumn N (fun j => M' i j * dx j) = F' i) ->
  let x' := defect_update diag line sc ls dx x in
  forall i, (i < N)%nat -> F i + sumn N (fun j => M i j * (x' j - x j)) = 0.
Proof.
  intros N M F sc ls dx x diag line [-> | ->] Hl HS H x' i Hi; unfold x', defect_update; unfold scaled_system in H; cbn [Z.eqb Pos.eqb] in *; apply Z.eqb_neq in Hl; rewrite Hl; specialize (H i Hi).
  - rewrite (sumn_ext N _ (fun j => (-1) * (M i j * dx j))) by (intros; ring). rewrite sumn_scal, H. ring.
  - rewrite (sumn_ext N _ (fun j => (-1) * (M i j * (dx j * sc j)))) by (intros; ring). rewrite sumn_scal.
    rewrite (sumn_ext N _ (fun j => sc i * (M i j * (dx j * sc j)))) in H by (intros; ring). rewrite sumn_scal in H.
    specialize (HS i Hi). assert (E : sumn N (fun j => M i j * (dx j * sc j)) = F i) by (apply Rmult_eq_reg_l with (sc i); [rewrite H; ring|exact HS]). rewrite E. ring.
Qed.
Print Assumptions C117_update.

(** with a line search the correction is shortened or lengthened: the linearised residual is multiplied by 1 + alpha *)
Theorem C117_line_search : forall N M F sc ls dx x diag, (diag = 0 \/ diag = 1)%Z -> (forall i, (i < N)%nat -> sc i <> 0) ->
  (let (M', F') := scaled_system diag sc M F in forall i, (i < N)%nat -> sumn N (fun j => M' i j * dx j) = F' i) ->
  let alpha := ls (if (diag =? 1)%Z then (fun i => dx i * sc i) else dx) in
  let x' := defect_update diag 1 sc ls dx x in
  forall i, (i < N)%nat -> F i + sumn N (fun j => M i j * (x' j - x j)) = (1 + alpha) * F i.
Proof.
  intros N M F sc ls dx x diag [-> | ->] HS H; cbn [scaled_system Z.eqb] in H.
  - intros alpha x' i Hi. unfold x', alpha. clear x' alpha. unfold defect_update. cbn [Z.eqb Pos.eqb]. specialize (H i Hi).
    rewrite (sumn_ext N _ (fun j => ls dx * (M i j * dx j))) by (intros; ring). rewrite sumn_scal, H. ring.
  - intros alpha x' i Hi. unfold x', alpha. clear x' alpha. unfold defect_update. cbn [Z.eqb Pos.eqb]. specialize (H i Hi). set (al := ls _).
    rewrite (sumn_ext N _ (fun j => al * (M i j * (dx j * sc j)))) by (intros; ring). rewrite sumn_scal.
    unfold scaled_system in H. cbn [Z.eqb] in H.
    rewrite (sumn_ext N _ (fun j => sc i * (M i j * (dx j * sc j)))) in H by (intros; ring). rewrite sumn_scal in H.
    specialize (HS i Hi). assert (E : sumn N (fun j => M i j * (dx j * sc j)) = F i) by (apply Rmult_eq_reg_l with (sc i); [rewrite H; ring|exact HS]). rewrite E. ring.
Qed.
Print Assumptions C117_line_search.

(** a value of diag_scaling other than 0 and 1 scales the system but not the correction back *)
Theorem C117_scaling_refuted : forall diag, diag <> 0%Z -> diag <> 1%Z -> exists M F sc dx x,
  sc 0%nat <> 0 /\ (let (M', F') := scaled_system diag sc M F in sumn 1 (fun j => M' 0%nat j * dx j) = F' 0%nat)
  /\ F 0%nat + sumn 1 (fun j => M 0%nat j * (defect_update diag 0 sc (fun _ => 0) dx x j - x j)) <> 0.
Proof.
  intros diag H0 H1. exists (fun _ _ => 4), (fun _ => 8), (fun _ => 1 / 2), (fun _ => 4), (fun _ => 0). split; [lra|].
  unfold scaled_system, defect_update. apply Z.eqb_neq in H0. apply Z.eqb_neq in H1. rewrite H0, H1. cbn. split; lra.
Qed.
Print Assumptions C117_scaling_refuted.

(** the solver that runs: the input reader never lets 0 through, and Newton or anisotropy force 2 *)
Theorem C117_dispatch : forall s s' direct0 ksp killer directc, consequences s = Val s' ->
  (newton s = 1 \/ anisotropy s = 1 \/ lin_solver s = 0 \/ lin_solver s = 2 -> dispatch (lin_solver s') direct0 ksp killer directc = killer)%Z
  /\ (newton s <> 1 -> anisotropy s <> 1 -> (lin_solver s = 1 -> dispatch (lin_solver s') direct0 ksp killer directc = ksp)
      /\ (lin_solver s = -1 -> dispatch (lin_solver s') direct0 ksp killer directc = directc))%Z
  /\ (forall other, dispatch (lin_solver s') direct0 ksp killer directc = dispatch (lin_solver s') other ksp killer directc).
Proof.
  intros s s' d0 k1 k2 dc H. unfold consequences in H. destruct (_ && _)%bool; [discriminate|]. injection H as H. rewrite <- H. clear H s'. unfold when.
  set (s1 := if (newton _ =? 1)%Z then _ else _).
  assert (L1 : lin_solver s1 = lin_solver s /\ newton s1 = newton s /\ anisotropy s1 = anisotropy s).
  { unfold s1. destruct (shear_style s =? 1)%Z; cbn; destruct (shear_style s =? 0)%Z; cbn; destruct (anisotropy s =? 1)%Z; cbn; destruct (newton s =? 0)%Z; cbn; destruct (newton s =? 1)%Z; cbn; auto. }
  destruct L1 as (L1 & L2 & L3). clearbody s1. rewrite L1, L2, L3.
  destruct (Z.eqb_spec (lin_solver s) 0) as [Z0|Z0]; cbn [orb lin_solver set_solver].
  { split; [intros; reflexivity|]. split; [|intros; reflexivity]. intros. split; intros; lia. }
  destruct (Z.eqb_spec (newton s) 1) as [N1|N1]; cbn [orb lin_solver set_solver].
  { split; [intros; reflexivity|]. split; [|intros; reflexivity]. intros. contradiction. }
  destruct (Z.eqb_spec (anisotropy s) 1) as [A1|A1]; cbn [orb lin_solver set_solver].
  { split; [intros; reflexivity|]. split; [|intros; reflexivity]. intros. contradiction. }
  rewrite L1. split; [intros [?|[?|[?|E]]]; try contradiction; rewrite E; reflexivity|]. split.
  - intros _ _. split; intros E; rewrite E; reflexivity.
  - intros other. unfold dispatch. apply Z.eqb_neq in Z0. rewrite Z0. reflexivity.
Qed.
Print Assumptions C117_dispatch.

(** any other value of lin_solver is accepted by the reader; then no equation is solved and the velocity and the pressure never
    change, whatever the line search *)
Theorem C117_unknown_solver_refuted : forall s s' direct0 ksp killer directc diag line sc ls x, consequences s = Val s' ->
  (newton s <> 1 -> anisotropy s <> 1 -> lin_solver s <> -1 -> lin_solver s <> 0 -> lin_solver s <> 1 -> lin_solver s <> 2 ->
  exists dx, dispatch (lin_solver s') direct0 ksp killer directc = Corr dx /\ forall i, defect_update diag line sc ls dx x i = x i)%Z.
Proof.
  intros s s' d0 k1 k2 dc diag line sc ls x H N1 A1 L1 L0 L2 L3. unfold consequences in H. destruct (_ && _)%bool; [discriminate|]. injection H as H. rewrite <- H. clear H s'. unfold when.
  set (s1 := if (newton _ =? 1)%Z then _ else _).
  assert (E1 : lin_solver s1 = lin_solver s /\ newton s1 = newton s /\ anisotropy s1 = anisotropy s).
  { unfold s1. destruct (shear_style s =? 1)%Z; cbn; destruct (shear_style s =? 0)%Z; cbn; destruct (anisotropy s =? 1)%Z; cbn; destruct (newton s =? 0)%Z; cbn; destruct (newton s =? 1)%Z; cbn; auto. }
  destruct E1 as (E1 & E2 & E3). clearbody s1. rewrite E1, E2, E3.
  apply Z.eqb_neq in N1, A1, L1, L0, L2, L3. rewrite N1, A1, L0. cbn [orb]. rewrite E1. unfold dispatch. rewrite L0, L1, L2, L3.
  eexists. split; [reflexivity|]. intros i. unfold defect_update. destruct (diag =? 1)%Z, (line =? 1)%Z; ring.
Qed.
Print Assumptions C117_unknown_solver_refuted.

(** case: one compressible pressure; the system u - p = 0, u + 2p = 3 is solved in one iteration: u = p = 1 *)
Definition d_c : dblocks := DBlocks 1 1 (fun _ _ => 1) (fun _ _ => 1) (fun _ => 1 / 2) (fun _ => 2).
Definition solve_c (rhs : vec) : vec := fun _ => rhs 0%nat / (3 / 2).
Example C117_ex : solves d_c solve_c /\ exists s, ksp_stokes d_c solve_c (dA d_c) (gradB d_c) (dC d_c) (fun i => if (i =? 0)%nat then 0 else 3) (fun _ => 0) (/ 10000) = Out true s
  /\ gx s 0%nat = 1 /\ gx s 1%nat = 1.
Proof.
  assert (S : solves d_c solve_c) by (intros rhs i Hi; cbn in Hi; assert (i = 0%nat) by lia; subst; unfold augmented, solve_c, sumn; cbn; field).
  split; [exact S|]. set (b := fun i : nat => if (i =? 0)%nat then 0 else 3).
  destruct (C117_one_iteration d_c solve_c b (fun _ => 0) (/ 10000) S) as (s & E & R).
  - lra.
  - intros l _. cbn. lra.
  - exists 1%nat. split; [cbn; lia|]. unfold residual, sumn, coupled, gradB, b. cbn. lra.
  - exists s. split; [exact E|]. pose proof (R 0%nat ltac:(cbn; lia)) as R0. pose proof (R 1%nat ltac:(cbn; lia)) as R1.
    unfold residual, sumn, coupled, gradB, b in R0, R1. cbn in R0, R1. split; lra.
Qed.
(** case: the switches "lin_solver = 3" of a Picard run pass the reader unchanged *)
Example C117_three_ex : exists s', consequences (mkswitches 9 0 0 0 0 0 0 0 3 []) = Val s' /\ lin_solver s' = 3%Z.
Proof. eexists. split; reflexivity. Qed.
