(** * Linear algebra and invariants for the solvers *)
From Coq Require Import Reals List Arith ZArith Lra Lia Bool.
From Verif Require Import DiffModel LinSolve ReseedModel SolverModel.
Import ListNotations.
Local Open Scope R_scope.

(** ** Specification: residual, norm, combinations of vectors *)
(** b - M x *)
Definition residual (N : nat) (M : nat -> nat -> R) (b x : vec) : vec := fun i => b i - sumn N (fun j => M i j * x j).
(** squared Euclidean norm of the first N entries *)
Definition sq (N : nat) (a : vec) : R := sumn N (fun i => a i * a i).
(** x0 + c_0 d_0 + ... + c_{k-1} d_{k-1} *)
Definition combo (x0 : vec) (k : nat) (c : nat -> R) (d : nat -> vec) : vec := fun i => x0 i + sumn k (fun j => c j * d j i).

(** ** Sums *)
Lemma sumn_minus : forall n f h, sumn n (fun i => f i - h i) = sumn n f - sumn n h.
Proof. induction n as [|n IH]; intros; [cbn; ring|]. rewrite !sumn_S, IH. ring. Qed.
Lemma sumn_swap : forall n m (f : nat -> nat -> R), sumn n (fun i => sumn m (fun j => f i j)) = sumn m (fun j => sumn n (fun i => f i j)).
Proof.
  induction n as [|n IH]; intros m f; [symmetry; apply (sumn_zero m); intros; reflexivity|].
  rewrite sumn_S, IH, <- sumn_plus. apply sumn_ext. intros. rewrite sumn_S. reflexivity.
Qed.
Lemma sumn_nonneg : forall n f, (forall i, (i < n)%nat -> 0 <= f i) -> 0 <= sumn n f.
Proof. induction n as [|n IH]; intros f H; [cbn; lra|]. rewrite sumn_S. assert (0 <= f n) by (apply H; lia). assert (0 <= sumn n f) by (apply IH; intros; apply H; lia). lra. Qed.
Lemma sumn_le : forall n f h, (forall i, (i < n)%nat -> f i <= h i) -> sumn n f <= sumn n h.
Proof. induction n as [|n IH]; intros f h H; [cbn; lra|]. rewrite !sumn_S. assert (f n <= h n) by (apply H; lia). assert (sumn n f <= sumn n h) by (apply IH; intros; apply H; lia). lra. Qed.
Lemma sumn_scal_r : forall n a f, sumn n (fun i => f i * a) = sumn n f * a.
Proof. intros. rewrite (sumn_ext n _ (fun i => a * f i)) by (intros; ring). rewrite sumn_scal. ring. Qed.

(** ** dot and matv *)
Section Alg.
  Variable N : nat.
  Variable M : nat -> nat -> R.
  Lemma dot_sym : forall a b, dot N a b = dot N b a.
  Proof. intros. apply sumn_ext. intros. ring. Qed.
  Lemma dot_axpy_l : forall a c b d, dot N (axpy a c b) d = dot N a d + c * dot N b d.
  Proof. intros. unfold dot, axpy. rewrite <- sumn_scal, <- sumn_plus. apply sumn_ext. intros. ring. Qed.
  Lemma dot_axpy_r : forall a c b d, dot N d (axpy a c b) = dot N d a + c * dot N d b.
  Proof. intros. rewrite dot_sym, dot_axpy_l, (dot_sym a), (dot_sym b). reflexivity. Qed.
  Lemma dot_scal_l : forall c a d, dot N (scalv c a) d = c * dot N a d.
  Proof. intros. unfold dot, scalv. rewrite <- sumn_scal. apply sumn_ext. intros. ring. Qed.
  Lemma dot_scal_r : forall c a d, dot N d (scalv c a) = c * dot N d a.
  Proof. intros. rewrite dot_sym, dot_scal_l, dot_sym. reflexivity. Qed.
  Lemma dot_zero_l : forall d, dot N (fun _ => 0) d = 0.
  Proof. intros. apply sumn_zero. intros. ring. Qed.
  Lemma dot_zero_r : forall d, dot N d (fun _ => 0) = 0.
  Proof. intros. apply sumn_zero. intros. ring. Qed.
  Lemma dot_pos : forall a, 0 <= dot N a a.
  Proof. intros. apply sumn_nonneg. intros. nra. Qed.
  Lemma dot_ext : forall a a' b b', (forall i, (i < N)%nat -> a i = a' i) -> (forall i, (i < N)%nat -> b i = b' i) -> dot N a b = dot N a' b'.
  Proof. intros. apply sumn_ext. intros. rewrite H, H0 by lia. reflexivity. Qed.
  Lemma dot_self_zero : forall a, dot N a a = 0 -> forall i, (i < N)%nat -> a i = 0.
  Proof.
    unfold dot. induction N as [|n IH]; intros a H i Hi; [lia|]. rewrite sumn_S in H.
    assert (0 <= sumn n (fun i => a i * a i)) by (apply sumn_nonneg; intros; nra).
    assert (0 <= a n * a n) by nra. destruct (Nat.eq_dec i n) as [->|]; [nra|]. apply IH; [lra|lia].
  Qed.
  Lemma cauchy : forall a b, dot N a b * dot N a b <= dot N a a * dot N b b.
  Proof.
    intros a b. destruct (Req_dec (dot N b b) 0) as [Z|NZ].
    - assert (E : dot N a b = 0) by (apply sumn_zero; intros i Hi; rewrite (dot_self_zero b Z i Hi); ring). rewrite E, Z. lra.
    - assert (P := dot_pos b). set (c := - (dot N a b / dot N b b)).
      assert (Q := dot_pos (axpy a c b)). rewrite dot_axpy_l, !dot_axpy_r, (dot_sym b a) in Q.
      assert (E : dot N a a + c * dot N a b + c * (dot N a b + c * dot N b b) = dot N a a - dot N a b * dot N a b / dot N b b) by (unfold c; field; exact NZ).
      rewrite E in Q. assert (K : dot N a b * dot N a b / dot N b b * dot N b b <= dot N a a * dot N b b) by (apply Rmult_le_compat_r; lra).
      replace (dot N a b * dot N a b / dot N b b * dot N b b) with (dot N a b * dot N a b) in K by (field; exact NZ). exact K.
  Qed.
  Lemma matv_axpy : forall a c b i, matv N M (axpy a c b) i = matv N M a i + c * matv N M b i.
  Proof. intros. unfold matv, axpy. rewrite <- sumn_scal, <- sumn_plus. apply sumn_ext. intros. ring. Qed.
  Lemma matv_scal : forall c a i, matv N M (scalv c a) i = c * matv N M a i.
  Proof. intros. unfold matv, scalv. rewrite <- sumn_scal. apply sumn_ext. intros. ring. Qed.
  Lemma matv_zero : forall i, matv N M (fun _ => 0) i = 0.
  Proof. intros. apply sumn_zero. intros. ring. Qed.
  Lemma matv_combo : forall x0 k c d i, matv N M (combo x0 k c d) i = matv N M x0 i + sumn k (fun j => c j * matv N M (d j) i).
  Proof.
    intros. unfold matv, combo. rewrite (sumn_ext N _ (fun j => M i j * x0 j + sumn k (fun l => M i j * (c l * d l j)))) by (intros; rewrite sumn_scal; ring).
    rewrite sumn_plus. f_equal. rewrite sumn_swap. apply sumn_ext. intros l Hl. rewrite <- sumn_scal. apply sumn_ext. intros. ring.
  Qed.
  Lemma sq_dot : forall a, sq N a = dot N a a. Proof. reflexivity. Qed.
  Lemma nrm2_sq : forall a, nrm2 N a * nrm2 N a = sq N a.
  Proof. intros. unfold nrm2. rewrite sqrt_sqrt by apply dot_pos. reflexivity. Qed.
  Lemma nrm2_le : forall a b, sq N a <= sq N b -> nrm2 N a <= nrm2 N b.
  Proof. intros. apply sqrt_le_1_alt. exact H. Qed.
End Alg.

(** ** The Krylov solver *)
Section G.
  Variable N : nat.
  Variable M : nat -> nat -> R.
  Variable Q : vec -> vec.
  Variables eps rnorm0 : R.
  Variable b : vec.

  Lemma orth_image : forall i1 val VV SS v s, (forall j i, matv N M (SS j) i = VV j i) -> (forall i, matv N M s i = v i) ->
    forall i, matv N M (orth i1 val SS s) i = orth i1 val VV v i.
  Proof.
    intros i1 val VV SS. unfold orth. generalize (seq 0 (S i1)) as l. induction l as [|j l IH]; intros v s H Hs i; cbn [fold_left]; [apply Hs|].
    apply IH; [exact H|]. intros k. rewrite matv_axpy, Hs, H. reflexivity.
  Qed.

  (** what every state satisfies: the tracked residual is the true one, stored directions map onto each other *)
  Definition Inv (st : gcr) : Prop :=
    (forall i, gf st i = residual N M b (gx st) i) /\ (forall j i, matv N M (gSS st j) i = gVV st j i).
  (** the printed norms decrease: the latest is the norm of the residual, each is at most the one before it *)
  Fixpoint falling (top : R) (l : list R) : Prop := match l with [] => True | a :: l' => a <= match l' with [] => top | c :: _ => c end /\ falling top l' end.
  Definition Fall (st : gcr) : Prop :=
    falling rnorm0 (glog st) /\ nrm2 N (gf st) = match glog st with [] => rnorm0 | a :: _ => a end.

  (** everything one step computes, for a step that does not break down *)
  Lemma step_out : forall i1 st, step N M Q eps rnorm0 i1 st = Breakdown \/
    exists v1 s1 nrm, v1 = orth i1 (new_val N i1 (matv N M (Q (gf st))) st) (gVV st) (matv N M (Q (gf st)))
      /\ s1 = orth i1 (new_val N i1 (matv N M (Q (gf st))) st) (gSS st) (Q (gf st))
      /\ nrm = sqrt (dot N v1 v1) /\ 0 < nrm
      /\ let rv := dot N (gf st) v1 / nrm in
         let x' := axpy (gx st) rv (scalv (1 / nrm) s1) in let f' := axpy (gf st) (- rv) (scalv (1 / nrm) v1) in
         let val := new_val N i1 (matv N M (Q (gf st))) st in
         (nrm2 N f' < eps * rnorm0 /\ step N M Q eps rnorm0 i1 st = Converged (Gcr x' f' val (gVV st) (gSS st) (gits st) (nrm2 N f' :: glog st)))
         \/ (~ nrm2 N f' < eps * rnorm0 /\ step N M Q eps rnorm0 i1 st = Next (Gcr x' f' val (nupd (gVV st) i1 (scalv (1 / nrm) v1)) (nupd (gSS st) i1 (scalv (1 / nrm) s1)) (S (gits st)) (nrm2 N f' :: glog st))).
  Proof.
    intros i1 st. unfold step. cbv zeta. destruct (Req_EM_T _ 0) as [E|NE]; [left; reflexivity|right].
    eexists. eexists. eexists. split; [reflexivity|]. split; [reflexivity|]. split; [reflexivity|]. split.
    - pose proof (sqrt_pos (dot N (orth i1 (new_val N i1 (matv N M (Q (gf st))) st) (gVV st) (matv N M (Q (gf st)))) (orth i1 (new_val N i1 (matv N M (Q (gf st))) st) (gVV st) (matv N M (Q (gf st)))))). lra.
    - destruct (Rlt_dec _ (eps * rnorm0)) as [L|L]; [left|right]; (split; [exact L|reflexivity]).
  Qed.

  Lemma unit_dot : forall v, 0 < sqrt (dot N v v) -> dot N (scalv (1 / sqrt (dot N v v)) v) (scalv (1 / sqrt (dot N v v)) v) = 1.
  Proof.
    intros v P. rewrite dot_scal_l, dot_scal_r. set (n := sqrt (dot N v v)) in *.
    replace (dot N v v) with (n * n) by (unfold n; apply sqrt_sqrt, dot_pos). field. lra.
  Qed.

  Lemma step_inv : forall i1 st st', Inv st -> (step N M Q eps rnorm0 i1 st = Next st' \/ step N M Q eps rnorm0 i1 st = Converged st') -> Inv st'.
  Proof.
    intros i1 st st' [If Iv] H. destruct (step_out i1 st) as [E|(v1 & s1 & nrm & Ev & Es & En & Pn & X)]; [rewrite E in H; destruct H; discriminate|].
    assert (Im : forall i, matv N M s1 i = v1 i) by (rewrite Ev, Es; apply orth_image; [exact Iv|reflexivity]).
    cbv zeta in X. set (rv := dot N (gf st) v1 / nrm) in *.
    assert (If' : forall i, axpy (gf st) (- rv) (scalv (1 / nrm) v1) i = residual N M b (axpy (gx st) rv (scalv (1 / nrm) s1)) i).
    { intros i. unfold residual. fold (matv N M (axpy (gx st) rv (scalv (1 / nrm) s1)) i). rewrite matv_axpy, matv_scal, Im. unfold axpy at 1. rewrite If. unfold residual, scalv, matv. ring. }
    destruct X as [[L X]|[L X]]; rewrite X in H; destruct H as [H|H]; inversion H; split; cbn [gf gx gSS gVV]; try exact If'; try exact Iv.
    intros j i. unfold nupd. destruct (j =? i1)%nat; [rewrite matv_scal, Im; unfold scalv; ring|apply Iv].
  Qed.

  Lemma step_fall : forall i1 st st', Fall st -> (step N M Q eps rnorm0 i1 st = Next st' \/ step N M Q eps rnorm0 i1 st = Converged st') -> Fall st'.
  Proof.
    intros i1 st st' [F1 F2] H. destruct (step_out i1 st) as [E|(v1 & s1 & nrm & Ev & Es & En & Pn & X)]; [rewrite E in H; destruct H; discriminate|].
    cbv zeta in X. set (rv := dot N (gf st) v1 / nrm) in *. set (f' := axpy (gf st) (- rv) (scalv (1 / nrm) v1)) in *.
    assert (D : nrm2 N f' <= nrm2 N (gf st)).
    { apply nrm2_le. rewrite !sq_dot. unfold f'. rewrite dot_axpy_l, !dot_axpy_r, (dot_sym N (scalv (1 / nrm) v1) (gf st)).
      replace (dot N (scalv (1 / nrm) v1) (scalv (1 / nrm) v1)) with 1 by (rewrite En; symmetry; apply unit_dot; rewrite <- En; exact Pn).
      rewrite dot_scal_r. replace (1 / nrm * dot N (gf st) v1) with rv by (unfold rv; field; lra). nra. }
    assert (L : falling rnorm0 (nrm2 N f' :: glog st)) by (cbn [falling]; split; [rewrite <- F2; exact D|exact F1]).
    destruct X as [[_ X]|[_ X]]; rewrite X in H; destruct H as [H|H]; inversion H; split; cbn [glog gf]; try exact L; reflexivity.
  Qed.

  Lemma step_conv : forall i1 st st', step N M Q eps rnorm0 i1 st = Converged st' -> nrm2 N (gf st') < eps * rnorm0 /\ gits st' = gits st.
  Proof.
    intros i1 st st' H. destruct (step_out i1 st) as [E|(v1 & s1 & nrm & _ & _ & _ & _ & X)]; [rewrite E in H; discriminate|]. cbv zeta in X.
    destruct X as [[L X]|[L X]]; rewrite X in H; inversion H. split; [exact L|reflexivity].
  Qed.
  Lemma step_next : forall i1 st st', step N M Q eps rnorm0 i1 st = Next st' -> ~ nrm2 N (gf st') < eps * rnorm0 /\ gits st' = S (gits st).
  Proof.
    intros i1 st st' H. destruct (step_out i1 st) as [E|(v1 & s1 & nrm & _ & _ & _ & _ & X)]; [rewrite E in H; discriminate|]. cbv zeta in X.
    destruct X as [[L X]|[L X]]; rewrite X in H; inversion H. split; [exact L|reflexivity].
  Qed.

  Lemma cycle_inv : forall k i1 st st', Inv st -> Fall st -> (cycle N M Q eps rnorm0 k i1 st = Next st' \/ cycle N M Q eps rnorm0 k i1 st = Converged st') -> Inv st' /\ Fall st'.
  Proof.
    induction k as [|k IH]; intros i1 st st' I F H; cbn [cycle] in H; [destruct H as [H|H]; inversion H; subst; auto|].
    destruct (step N M Q eps rnorm0 i1 st) as [|s|s] eqn:E.
    - destruct H; discriminate.
    - destruct H as [H|H]; inversion H; subst. split; [eapply step_inv|eapply step_fall]; eauto.
    - eapply IH; [eapply step_inv|eapply step_fall|]; eauto.
  Qed.
  Lemma cycle_next : forall k i1 st st', cycle N M Q eps rnorm0 k i1 st = Next st' -> gits st' = (gits st + k)%nat.
  Proof.
    induction k as [|k IH]; intros i1 st st' H; cbn [cycle] in H; [inversion H; lia|].
    destruct (step N M Q eps rnorm0 i1 st) as [|s|s] eqn:E; try discriminate. apply IH in H. apply step_next in E. destruct E as [_ E]. lia.
  Qed.
  Lemma cycle_conv : forall k i1 st st', cycle N M Q eps rnorm0 k i1 st = Converged st' -> nrm2 N (gf st') < eps * rnorm0 /\ (gits st <= gits st' < gits st + k)%nat.
  Proof.
    induction k as [|k IH]; intros i1 st st' H; cbn [cycle] in H; [discriminate|].
    destruct (step N M Q eps rnorm0 i1 st) as [|s|s] eqn:E; try discriminate.
    - inversion H; subst. apply step_conv in E. destruct E. split; [assumption|lia].
    - apply IH in H. apply step_next in E. destruct E as [_ E]. destruct H. split; [assumption|lia].
  Qed.

  Lemma bump_inv : forall st, Inv st -> Inv (bump st). Proof. intros st H. exact H. Qed.
  Lemma bump_fall : forall st, Fall st -> Fall (bump st). Proof. intros st H. exact H. Qed.

  Lemma loop_out : forall restart max_it fuel st ok s, Inv st -> Fall st -> (gits st <= max_it + restart)%nat -> (max_it <= gits st + fuel)%nat ->
    gcr_loop N M Q eps rnorm0 restart max_it fuel st = Out ok s ->
    Inv s /\ Fall s /\ (gits s <= max_it + restart)%nat /\ (ok = true -> nrm2 N (gf s) < eps * rnorm0) /\ (ok = false -> (max_it <= gits s)%nat).
  Proof.
    intros restart max_it fuel. induction fuel as [|fuel IH]; intros st ok s I F B Fu H; cbn [gcr_loop] in H;
      destruct (Nat.ltb_spec (gits st) max_it) as [L|L]; try (inversion H; subst; clear H; repeat split; try apply I; try apply F; try lia; discriminate); try lia.
    destruct (cycle N M Q eps rnorm0 restart 0 st) as [|s'|s'] eqn:E; try discriminate.
    - inversion H; subst. destruct (cycle_inv restart 0 st s' I F (or_intror E)) as [I' F']. apply cycle_conv in E. destruct E as [E1 E2].
      split; [exact I'|]. split; [exact F'|]. split; [cbn [bump gits]; lia|]. split; [intros _; exact E1|discriminate].
    - destruct (cycle_inv restart 0 st s' I F (or_introl E)) as [I' F']. apply cycle_next in E. apply IH in H; [exact H|exact I'|exact F'| |]; cbn [bump gits]; lia.
  Qed.

  (** more fuel than max_it changes nothing *)
  Lemma fuel_enough : forall restart max_it fuel st, (max_it <= gits st + fuel)%nat ->
    gcr_loop N M Q eps rnorm0 restart max_it (S fuel) st = gcr_loop N M Q eps rnorm0 restart max_it fuel st.
  Proof.
    intros restart max_it fuel. induction fuel as [|fuel IH]; intros st Fu.
    - cbn [gcr_loop]. destruct (Nat.ltb_spec (gits st) max_it); [lia|reflexivity].
    - remember (S fuel) as f1 eqn:Ef. cbn [gcr_loop]. rewrite Ef. cbn [gcr_loop]. destruct (gits st <? max_it)%nat eqn:L; [|reflexivity].
      destruct (cycle N M Q eps rnorm0 restart 0 st) as [|s'|s'] eqn:E; try reflexivity. apply cycle_next in E. subst f1. apply IH. cbn [bump gits]. lia.
  Qed.
End G.

(** ** The first cycle *)
Section First.
  Variable N : nat.
  Variable M : nat -> nat -> R.
  Variable Q : vec -> vec.
  Variables eps rnorm0 : R.
  Variable b : vec.

  (** the state before step [k] of the first cycle *)
  Definition Orth (k : nat) (st : gcr) : Prop :=
    (forall i j, (i < k)%nat -> (j < k)%nat -> dot N (gVV st i) (gVV st j) = if (i =? j)%nat then 1 else 0)
    /\ (forall j, (j < k)%nat -> dot N (gf st) (gVV st j) = 0)
    /\ (forall j, (k <= j)%nat -> gval st j = 0 /\ gVV st j = (fun _ => 0) /\ gSS st j = (fun _ => 0)).

  Lemma fold_dot : forall l val (VV : nat -> vec) v w, dot N (fold_left (fun v i2 => axpy v (- val i2) (VV i2)) l v) w = dot N v w - fold_right (fun i a => val i * dot N (VV i) w + a) 0 l.
  Proof.
    induction l as [|i l IH]; intros val VV v w; cbn [fold_left fold_right]; [ring|]. rewrite IH, dot_axpy_l. ring.
  Qed.
  Lemma orth_dot : forall i1 val (VV : nat -> vec) v w, dot N (orth i1 val VV v) w = dot N v w - sumn (S i1) (fun i => val i * dot N (VV i) w).
  Proof. intros. unfold orth. apply fold_dot. Qed.
  Lemma sumn_pick : forall k j (a : nat -> R), (j < k)%nat -> sumn k (fun i => a i * (if (i =? j)%nat then 1 else 0)) = a j.
  Proof.
    induction k as [|k IH]; intros j a H; [lia|]. rewrite sumn_S. destruct (Nat.eq_dec j k) as [->|].
    - rewrite Nat.eqb_refl, sumn_zero; [ring|]. intros i Hi. destruct (Nat.eqb_spec i k); [lia|ring].
    - rewrite IH by lia. destruct (Nat.eqb_spec k j); [lia|ring].
  Qed.

  Section S1.
    Variables (k : nat) (st : gcr).
    Hypothesis O : Orth k st.
    Notation v0 := (matv N M (Q (gf st))).
    Notation val := (new_val N k v0 st).
    Notation v1 := (orth k val (gVV st) v0).
    Notation s1 := (orth k val (gSS st) (Q (gf st))).
    Lemma val_lt : forall i, (i < k)%nat -> val i = dot N v0 (gVV st i).
    Proof. intros i H. unfold new_val. destruct (Nat.ltb_spec i k); [reflexivity|lia]. Qed.
    Lemma v1_perp : forall j, (j < k)%nat -> dot N v1 (gVV st j) = 0.
    Proof.
      intros j Hj. destruct O as (O1 & O2 & O3). rewrite orth_dot, sumn_S.
      destruct (O3 k ltac:(lia)) as (_ & Ek & _). rewrite Ek, dot_zero_l.
      rewrite (sumn_ext k _ (fun i => val i * (if (i =? j)%nat then 1 else 0))) by (intros i Hi; rewrite O1 by lia; reflexivity).
      rewrite sumn_pick by exact Hj. rewrite val_lt by exact Hj. ring.
    Qed.
    Lemma f_v1 : dot N (gf st) v1 = dot N (gf st) v0.
    Proof.
      destruct O as (O1 & O2 & O3). rewrite dot_sym, orth_dot, sumn_S. destruct (O3 k ltac:(lia)) as (_ & Ek & _). rewrite Ek, dot_zero_l.
      rewrite sumn_zero; [rewrite (dot_sym N v0); ring|]. intros i Hi. rewrite (dot_sym N (gVV st i)), O2 by exact Hi. ring.
    Qed.
    Lemma v1_small : dot N v1 v1 <= dot N v0 v0.
    Proof.
      assert (E : dot N v1 v1 = dot N v1 v0).
      { rewrite (dot_sym N v1 v0). rewrite orth_dot at 1. destruct O as (O1 & O2 & O3). rewrite sumn_S. destruct (O3 k ltac:(lia)) as (_ & Ek & _). rewrite Ek, dot_zero_l.
        rewrite sumn_zero; [ring|]. intros i Hi. rewrite (dot_sym N (gVV st i)), v1_perp by exact Hi. ring. }
      pose proof (cauchy N v1 v0) as C. rewrite <- E in C. pose proof (dot_pos N v1). pose proof (dot_pos N v0). nra.
    Qed.
    Lemma step_orth : forall st', step N M Q eps rnorm0 k st = Next st' -> Orth (S k) st'.
    Proof.
      intros st' H. pose proof v1_perp as VP. destruct (step_out N M Q eps rnorm0 k st) as [E|(w & s & nrm & Ev & Es & En & Pn & X)]; [rewrite E in H; discriminate|]. cbv zeta in X.
      destruct X as [[_ X]|[_ X]]; rewrite X in H; inversion H; clear H X. rewrite <- Ev in VP. destruct O as (O1 & O2 & O3).
      assert (U : dot N (scalv (1 / nrm) w) (scalv (1 / nrm) w) = 1) by (rewrite En; apply unit_dot; rewrite <- En; exact Pn).
      assert (P : forall j, (j < k)%nat -> dot N (scalv (1 / nrm) w) (gVV st j) = 0) by (intros; rewrite dot_scal_l, VP by assumption; ring).
      split; [|split]; cbn [gVV gf gval gSS].
      - intros i j Hi Hj. unfold nupd. destruct (Nat.eqb_spec i k) as [->|], (Nat.eqb_spec j k) as [->|].
        + rewrite Nat.eqb_refl. exact U.
        + destruct (Nat.eqb_spec k j); [lia|]. apply P. lia.
        + destruct (Nat.eqb_spec i k); [lia|]. rewrite dot_sym. apply P. lia.
        + apply O1; lia.
      - intros j Hj. unfold nupd. destruct (Nat.eqb_spec j k) as [->|].
        + rewrite dot_axpy_l, U, dot_scal_r. field. lra.
        + rewrite dot_axpy_l, P, O2 by lia. ring.
      - intros j Hj. destruct (O3 j ltac:(lia)) as (A & B & C). unfold new_val, nupd. destruct (Nat.ltb_spec j k); [lia|]. destruct (Nat.eqb_spec j k); [lia|]. auto.
    Qed.
    (** a step that does not break down lowers the squared residual by (f.v)^2/|v|^2 *)
    Lemma step_drop : forall st', (step N M Q eps rnorm0 k st = Next st' \/ step N M Q eps rnorm0 k st = Converged st') ->
      sq N (gf st') * dot N v1 v1 = sq N (gf st) * dot N v1 v1 - dot N (gf st) v0 * dot N (gf st) v0 /\ 0 < dot N v1 v1.
    Proof.
      intros st' H. pose proof f_v1 as FV. destruct (step_out N M Q eps rnorm0 k st) as [E|(w & s & nrm & Ev & Es & En & Pn & X)]; [rewrite E in H; destruct H; discriminate|]. cbv zeta in X.
      rewrite <- Ev in *. assert (Nn : nrm * nrm = dot N w w) by (rewrite En; apply sqrt_sqrt, dot_pos).
      assert (K : forall x, gf x = axpy (gf st) (- (dot N (gf st) w / nrm)) (scalv (1 / nrm) w) -> sq N (gf x) * dot N w w = sq N (gf st) * dot N w w - dot N (gf st) v0 * dot N (gf st) v0).
      { intros x ->. rewrite !sq_dot, dot_axpy_l, !dot_axpy_r, !dot_scal_l, !dot_scal_r, (dot_sym N w (gf st)), <- FV, <- Nn. field. lra. }
      split; [|nra]. apply K. destruct X as [[_ X]|[_ X]]; rewrite X in H; destruct H as [H|H]; inversion H; reflexivity.
    Qed.
    Lemma step_breaks : step N M Q eps rnorm0 k st = Breakdown -> dot N (gf st) v0 = 0.
    Proof.
      intros H. unfold step in H. cbv zeta in H. destruct (Req_EM_T _ 0) as [E|NE].
      - rewrite <- f_v1. apply sqrt_eq_0 in E; [|apply dot_pos]. apply sumn_zero. intros i Hi. rewrite (dot_self_zero N _ E i Hi). ring.
      - destruct (Rlt_dec _ (eps * rnorm0)); discriminate.
    Qed.
  End S1.
End First.

(** ** Runs of the first cycle *)
Section Runs.
  Variable N : nat.
  Variable M : nat -> nat -> R.
  Variable Q : vec -> vec.
  Variables eps rnorm0 : R.
  Variables b x0 : vec.
  Variable sts : nat -> gcr.
  Hypothesis start : sts 0%nat = gcr_start N M b x0.

  Lemma start_orth : Orth N 0 (gcr_start N M b x0).
  Proof. split; [intros; lia|split; [intros; lia|]]. intros j _. repeat split. Qed.
  Lemma start_inv : Inv N M b (gcr_start N M b x0).
  Proof. split; intros; [unfold residual, gcr_start, gf, gx, axpy, matv; ring|apply matv_zero]. Qed.

  Lemma run_orth : forall k, (forall i, (i < k)%nat -> step N M Q eps rnorm0 i (sts i) = Next (sts (S i))) -> Orth N k (sts k).
  Proof.
    induction k as [|k IH]; intros H; [rewrite start; apply start_orth|].
    eapply step_orth; [apply IH; intros; apply H; lia|apply H; lia].
  Qed.
  Lemma run_inv : forall k, (forall i, (i < k)%nat -> step N M Q eps rnorm0 i (sts i) = Next (sts (S i))) -> Inv N M b (sts k).
  Proof.
    induction k as [|k IH]; intros H; [rewrite start; apply start_inv|].
    eapply step_inv; [apply IH; intros; apply H; lia|left; apply H; lia].
  Qed.
  (** a vector orthogonal to the stored directions is orthogonal to the images of all preconditioned residuals so far *)
  Lemma run_perp : forall k, (forall i, (i < k)%nat -> step N M Q eps rnorm0 i (sts i) = Next (sts (S i))) ->
    forall w, (forall i, (i < k)%nat -> dot N w (gVV (sts k) i) = 0) ->
    (forall j, (j < k)%nat -> dot N w (matv N M (Q (gf (sts j)))) = 0) /\ dot N w (gf (sts 0%nat)) = dot N w (gf (sts k)).
  Proof.
    induction k as [|k IH]; intros H w W; [split; [intros; lia|reflexivity]|].
    assert (H' : forall i, (i < k)%nat -> step N M Q eps rnorm0 i (sts i) = Next (sts (S i))) by (intros; apply H; lia).
    pose proof (H k ltac:(lia)) as Hk. pose proof (run_orth k H') as O. destruct O as (O1 & O2 & O3).
    destruct (step_out N M Q eps rnorm0 k (sts k)) as [E|(v & s & nrm & Ev & Es & En & Pn & X)]; [rewrite E in Hk; discriminate|]. cbv zeta in X.
    destruct X as [[_ X]|[_ X]]; rewrite X in Hk; inversion Hk as [Hs]; clear Hk X.
    assert (Wi : forall i, (i < k)%nat -> dot N w (gVV (sts k) i) = 0).
    { intros i Hi. pose proof (W i ltac:(lia)) as Wi. rewrite <- Hs in Wi. cbn [gVV] in Wi. unfold nupd in Wi. destruct (Nat.eqb_spec i k); [lia|exact Wi]. }
    assert (Wv : dot N w v = 0).
    { pose proof (W k ltac:(lia)) as Wk. rewrite <- Hs in Wk. cbn [gVV] in Wk. unfold nupd in Wk. rewrite Nat.eqb_refl, dot_scal_r in Wk.
      apply Rmult_integral in Wk. destruct Wk as [Wk|Wk]; [|exact Wk]. exfalso. assert (1 / nrm <> 0) by (unfold Rdiv; apply Rmult_integral_contrapositive_currified; [lra|apply Rinv_neq_0_compat; lra]). contradiction. }
    destruct (IH H' w Wi) as [I1 I2]. split.
    - intros j Hj. destruct (Nat.eq_dec j k) as [->|]; [|apply I1; lia].
      rewrite Ev, dot_sym, orth_dot, sumn_S in Wv. destruct (O3 k ltac:(lia)) as (_ & Ek & _). rewrite Ek, dot_zero_l in Wv.
      rewrite sumn_zero in Wv; [rewrite dot_sym; lra|]. intros i Hi. rewrite (dot_sym N (gVV (sts k) i)), Wi by exact Hi. ring.
    - rewrite I2. cbn [gf]. rewrite dot_axpy_r, dot_scal_r, Wv. ring.
  Qed.

  Lemma run_min : forall k st', (forall i, (i < k)%nat -> step N M Q eps rnorm0 i (sts i) = Next (sts (S i))) ->
    (step N M Q eps rnorm0 k (sts k) = Next st' \/ step N M Q eps rnorm0 k (sts k) = Converged st') ->
    forall c, sq N (gf st') <= sq N (residual N M b (combo x0 (S k) c (fun j => Q (gf (sts j))))).
  Proof.
    intros k st' H Hk c. pose proof (run_orth k H) as O. pose proof (v1_perp N M Q k (sts k) O) as VP. destruct O as (O1 & O2 & O3).
    destruct (step_out N M Q eps rnorm0 k (sts k)) as [E|(v & s & nrm & Ev & Es & En & Pn & X)]; [rewrite E in Hk; destruct Hk; discriminate|]. cbv zeta in X. rewrite <- Ev in VP.
    assert (F : gf st' = axpy (gf (sts k)) (- (dot N (gf (sts k)) v / nrm)) (scalv (1 / nrm) v)) by (destruct X as [[_ X]|[_ X]]; rewrite X in Hk; destruct Hk as [Hk|Hk]; inversion Hk; reflexivity).
    clear X Hk. assert (Nn : nrm * nrm = dot N v v) by (rewrite En; apply sqrt_sqrt, dot_pos).
    set (w := gf st') in *.
    assert (Wv : dot N w v = 0) by (rewrite F, dot_axpy_l, dot_scal_l, <- Nn; field; lra).
    assert (Wi : forall i, (i < k)%nat -> dot N w (gVV (sts k) i) = 0) by (intros i Hi; rewrite F, dot_axpy_l, dot_scal_l, VP, O2 by exact Hi; ring).
    destruct (run_perp k H w Wi) as [I1 I2].
    assert (I1k : forall j, (j < S k)%nat -> dot N w (matv N M (Q (gf (sts j)))) = 0).
    { intros j Hj. destruct (Nat.eq_dec j k) as [->|]; [|apply I1; lia].
      pose proof Wv as Wv'. rewrite Ev, dot_sym, orth_dot, sumn_S in Wv'. destruct (O3 k ltac:(lia)) as (_ & Ek & _). rewrite Ek, dot_zero_l in Wv'.
      rewrite sumn_zero in Wv'; [rewrite dot_sym; lra|]. intros i Hi. rewrite (dot_sym N (gVV (sts k) i)), Wi by exact Hi. ring. }
    assert (Ww : dot N w (gf (sts 0%nat)) = dot N w w) by (rewrite I2, F at 1; rewrite F; rewrite !dot_axpy_l, !dot_axpy_r, !dot_scal_l, !dot_scal_r, (dot_sym N v (gf (sts k))), <- Nn; field; lra).
    set (g := residual N M b (combo x0 (S k) c (fun j => Q (gf (sts j))))).
    assert (Eg : dot N w g = dot N w w).
    { rewrite <- Ww. assert (Gi : forall i, g i = gf (sts 0%nat) i - sumn (S k) (fun j => c j * matv N M (Q (gf (sts j))) i)).
      { intros i. unfold g, residual. fold (matv N M (combo x0 (S k) c (fun j => Q (gf (sts j)))) i). rewrite matv_combo. replace (gf (sts 0%nat) i) with (b i - matv N M x0 i) by (rewrite start; unfold gcr_start, gf, axpy; ring). ring. }
      unfold dot. rewrite (sumn_ext N _ (fun i => w i * gf (sts 0%nat) i - sumn (S k) (fun j => c j * (w i * matv N M (Q (gf (sts j))) i)))).
      2:{ intros i _. rewrite Gi, Rmult_minus_distr_l, <- (sumn_scal (S k) (w i)). f_equal. apply sumn_ext. intros. ring. }
      rewrite sumn_minus, sumn_swap. rewrite (sumn_zero (S k)); [ring|]. intros j Hj. rewrite sumn_scal. pose proof (I1k j Hj) as Z. unfold dot in Z. rewrite Z. ring. }
    rewrite !sq_dot. pose proof (dot_pos N (axpy g (-1) w)) as P. rewrite dot_axpy_l, !dot_axpy_r, (dot_sym N g w), Eg in P. lra.
  Qed.
End Runs.
