(** * C116, C117: the direct solver, the coupled Krylov solver and the correction of velocity and pressure *)
From Coq Require Import Reals List Arith ZArith Lra Lia Bool FunctionalExtensionality.
From Verif Require Import DiffModel LinSolve ReseedModel SolverModel SolverProofs SolverProps StopProps OptionsModel DirectModel.
Import ListNotations.
Local Open Scope R_scope.

(** ** C116: the direct solver *)
(** Specification: the momentum equation A u - C' p = bu and the continuity equation C u + D1 p = bp, written out. *)
Definition mom_eq (d : dblocks) (bu u p : vec) : vec :=
  fun i => bu i - sumn (dn d) (fun j => dA d i j * u j) + sumn (dm d) (fun l => dC d l i * p l).
Definition cont_eq (d : dblocks) (bp u p : vec) : vec :=
  fun l => bp l - sumn (dn d) (fun j => dC d l j * u j) - ddD1 d l * p l.
(** the matrix that is factorised: A + C' D C *)
Definition augmented (d : dblocks) : nat -> nat -> R :=
  fun i j => dA d i j + sumn (dm d) (fun l => dC d l i * (ddD d l * dC d l j)).
(** the factorisation solves exactly *)
Definition solves (d : dblocks) (solve : vec -> vec) : Prop :=
  forall rhs i, (i < dn d)%nat -> sumn (dn d) (fun j => augmented d i j * solve rhs j) = rhs i.
(** every pressure unknown is compressible or incompressible with penalty gamma *)
Definition pressures (d : dblocks) (gamma : R) : Prop :=
  forall l, (l < dm d)%nat -> (0 < ddD1 d l /\ ddD d l * ddD1 d l = 1) \/ (ddD1 d l = 0 /\ ddD d l = gamma).

Lemma dres_u_eq : forall d bu s i, dres_u d bu s i = mom_eq d bu (fst s) (snd s) i.
Proof.
  intros. unfold dres_u, mom_eq, axpy, matv, gradB.
  rewrite (sumn_ext (dm d) (fun j => - dC d j i * snd s j) (fun j => (-1) * (dC d j i * snd s j))) by (intros; ring). rewrite sumn_scal. ring.
Qed.
Lemma dres_p_eq : forall d bp s l, dres_p d bp s l = cont_eq d bp (fst s) (snd s) l.
Proof. intros. unfold dres_p, cont_eq, axpy, matv, diagv. ring. Qed.
Lemma dschur_eq : forall d i j, dschur d i j = augmented d i j.
Proof.
  intros. unfold dschur, augmented, gradB.
  rewrite (sumn_ext (dm d) (fun l => - dC d l i * (ddD d l * dC d l j)) (fun l => (-1) * (dC d l i * (ddD d l * dC d l j)))) by (intros; ring).
  rewrite sumn_scal. ring.
Qed.

(** the blocks and the exact solver of the Powell-Hestenes iteration of C91 that the direct solver realises *)
Definition as_blocks (d : dblocks) : blocks :=
  Blocks (dn d) (dm d) (dA d) (gradB d) (dC d) (dC d) (ddD d) (ddD1 d) (fun l => 1 - ddD d l * ddD1 d l).
Definition as_ksp (n : nat) (solve : vec -> vec) (K : nat -> nat -> R) (rhs x : vec) : vec :=
  axpy x 1 (solve (axpy rhs (-1) (matv n K x))).

Lemma iter_same : forall d solve bu bp s, direct_iter d solve bu bp s = ph_iter (as_blocks d) (as_ksp (dn d) solve) bu bp s.
Proof.
  intros d solve bu bp [u p]. unfold direct_iter, ph_iter. cbv zeta. cbn [fst snd].
  assert (E : axpy (dres_u d bu (u, p)) (-1) (matv (dm d) (gradB d) (diagv (ddD d) (dres_p d bp (u, p))))
            = axpy (ph_rhs (as_blocks d) bu bp p) (-1) (matv (dn d) (schur (as_blocks d)) u)).
  { apply functional_extensionality. intros i. unfold dres_u, dres_p, ph_rhs. cbv zeta. cbn [as_blocks kn km kAJ kBJ kCJ kCc kD kD1 kW fst snd].
    unfold axpy, matv, diagv, schur. cbn [as_blocks kn km kAJ kBJ kCJ kCc kD kD1 kW].
    assert (S1 : sumn (dn d) (fun j => (dA d i j - sumn (dm d) (fun l => gradB d i l * (ddD d l * dC d l j))) * u j)
               = sumn (dn d) (fun j => dA d i j * u j) - sumn (dm d) (fun l => gradB d i l * (ddD d l * sumn (dn d) (fun j => dC d l j * u j)))).
    { rewrite (sumn_ext (dn d) _ (fun j => dA d i j * u j - sumn (dm d) (fun l => gradB d i l * (ddD d l * dC d l j) * u j))).
      2:{ intros j Hj. rewrite Rmult_minus_distr_r. f_equal. rewrite <- sumn_scal_r. reflexivity. }
      rewrite sumn_minus. f_equal. rewrite sumn_swap. apply sumn_ext. intros l Hl. rewrite <- !sumn_scal. apply sumn_ext. intros. ring. }
    rewrite S1.
    rewrite (sumn_ext (dm d) (fun j => gradB d i j * (ddD d j * (bp j + -1 * sumn (dn d) (fun j0 => dC d j j0 * u j0) + -1 * (ddD1 d j * p j))))
                             (fun l => gradB d i l * (ddD d l * bp l) - gradB d i l * (ddD d l * sumn (dn d) (fun j => dC d l j * u j)) - gradB d i l * (ddD d l * ddD1 d l * p l))) by (intros; ring).
    rewrite (sumn_ext (dm d) (fun j => gradB d i j * ((1 - ddD d j * ddD1 d j) * p j)) (fun l => gradB d i l * p l - gradB d i l * (ddD d l * ddD1 d l * p l))) by (intros; ring).
    rewrite !sumn_minus. ring. }
  rewrite E. unfold as_ksp at 1. cbn [as_blocks kn]. f_equal.
  unfold as_ksp. cbn [as_blocks kn km kAJ kBJ kCJ kCc kD kD1 kW]. set (du := solve _).
  apply functional_extensionality. intros l. unfold dres_p. cbn [fst snd]. unfold axpy, diagv, matv.
  rewrite (sumn_ext (dn d) (fun j => dC d l j * (u j + 1 * du j)) (fun j => dC d l j * u j + dC d l j * du j)) by (intros; ring).
  rewrite sumn_plus. ring.
Qed.
Lemma as_pressures : forall d gamma, pressures d gamma -> pressure_blocks (as_blocks d) gamma.
Proof.
  intros d gamma H l Hl. cbn [as_blocks km] in Hl. destruct (H l Hl) as [[P D]|[D1 D]]; cbn [as_blocks kW kD kD1]; [left|right]; repeat split; try assumption; try (rewrite D; ring); rewrite D1; ring.
Qed.
Lemma as_exact : forall d solve, solves d solve -> exact_solver (as_blocks d) (as_ksp (dn d) solve).
Proof.
  intros d solve H rhs x i Hi. cbn [as_blocks kn] in Hi |- *. unfold residual, as_ksp, axpy.
  set (K := schur (as_blocks d)). assert (EK : K = augmented d) by (apply functional_extensionality; intros a; apply functional_extensionality; intros b; apply (dschur_eq d a b)).
  set (r := fun i0 => rhs i0 + -1 * matv (dn d) K x i0).
  rewrite (sumn_ext (dn d) _ (fun j => K i j * x j + K i j * solve r j)) by (intros; ring). rewrite sumn_plus.
  assert (S : sumn (dn d) (fun j => K i j * solve r j) = r i) by (rewrite EK; apply H; exact Hi). rewrite S. unfold r, matv. ring.
Qed.
Lemma as_mom : forall d bu s i, momentum (as_blocks d) bu s i = mom_eq d bu (fst s) (snd s) i.
Proof. intros. rewrite <- dres_u_eq. unfold momentum, dres_u, axpy, matv. cbn [as_blocks kn km kAJ kBJ]. ring. Qed.
Lemma as_cont : forall d bp s l, continuity (as_blocks d) bp s l = cont_eq d bp (fst s) (snd s) l.
Proof. intros. reflexivity. Qed.

(** after every update, the momentum equation holds exactly, whatever the pressure blocks and the start *)
Theorem C116_momentum : forall d solve bu bp s i, solves d solve -> (i < dn d)%nat ->
  let s' := direct_iter d solve bu bp s in mom_eq d bu (fst s') (snd s') i = 0.
Proof.
  intros d solve bu bp s i HS Hi s'. unfold s', direct_iter. cbv zeta. cbn [fst snd].
  set (fu := dres_u d bu s). set (fp := dres_p d bp s). set (r := axpy fu (-1) _). set (du := solve r).
  pose proof (HS r i Hi) as E. fold du in E. unfold augmented in E.
  rewrite (sumn_ext (dn d) _ (fun j => dA d i j * du j + sumn (dm d) (fun l => dC d l i * (ddD d l * dC d l j) * du j))) in E by (intros; rewrite Rmult_plus_distr_r; f_equal; rewrite <- sumn_scal_r; reflexivity).
  rewrite sumn_plus, sumn_swap in E.
  assert (Fu : fu i = mom_eq d bu (fst s) (snd s) i) by apply dres_u_eq.
  unfold mom_eq in *. unfold axpy, diagv. unfold matv.
  rewrite (sumn_ext (dn d) (fun j => dA d i j * (fst s j + 1 * du j)) (fun j => dA d i j * fst s j + dA d i j * du j)) by (intros; ring). rewrite sumn_plus.
  rewrite (sumn_ext (dm d) (fun l => dC d l i * (snd s l + 1 * (ddD d l * (fp l + -1 * sumn (dn d) (fun j => dC d l j * du j)))))
     (fun l => dC d l i * snd s l + (dC d l i * (ddD d l * fp l) - dC d l i * (ddD d l * sumn (dn d) (fun j => dC d l j * du j))))) by (intros; ring).
  rewrite sumn_plus, sumn_minus.
  rewrite (sumn_ext (dm d) (fun i0 => sumn (dn d) (fun i1 => dC d i0 i * (ddD d i0 * dC d i0 i1) * du i1)) (fun l => dC d l i * (ddD d l * sumn (dn d) (fun j => dC d l j * du j)))) in E
    by (intros l Hl; rewrite <- !sumn_scal; apply sumn_ext; intros; ring).
  unfold r, axpy, matv, gradB, diagv in E.
  rewrite (sumn_ext (dm d) (fun j => - dC d j i * (ddD d j * fp j)) (fun l => (-1) * (dC d l i * (ddD d l * fp l)))) in E by (intros; ring). rewrite sumn_scal in E. lra.
Qed.
Print Assumptions C116_momentum.

(** it is the same iteration as that of the Newton solver (C91), with exact velocity solves *)
Theorem C116_same_iteration : forall d gamma solve, solves d solve -> pressures d gamma ->
  let k := as_blocks d in let ksp := as_ksp (dn d) solve in
  pressure_blocks k gamma /\ same_divergence k /\ gradient_is_transpose k /\ exact_solver k ksp
  /\ (forall bu bp s, direct_iter d solve bu bp s = ph_iter k ksp bu bp s)
  /\ (forall bu s i, momentum k bu s i = mom_eq d bu (fst s) (snd s) i)
  /\ (forall bp s l, continuity k bp s l = cont_eq d bp (fst s) (snd s) l).
Proof.
  intros d gamma solve HS HP k ksp. split; [apply as_pressures; exact HP|]. split; [intros l j _ _; reflexivity|]. split; [intros i l _ _; reflexivity|].
  split; [apply as_exact; exact HS|]. split; [intros; apply iter_same|]. split; [intros; apply as_mom|intros; apply as_cont].
Qed.
Print Assumptions C116_same_iteration.

(** continuity holds exactly in compressible cells, and the divergence left in the others never grows *)
Theorem C116_continuity : forall d gamma solve bu bp s0 k, 0 < gamma -> solves d solve -> pressures d gamma ->
  (forall x, 0 <= sumn (dn d) (fun i => x i * sumn (dn d) (fun j => dA d i j * x j))) ->
  let r := fun k l => cont_eq d bp (fst (direct_run d solve bu bp s0 k)) (snd (direct_run d solve bu bp s0 k)) l in
  (forall l, (l < dm d)%nat -> 0 < ddD1 d l -> r (S k) l = 0)
  /\ sumn (dm d) (fun l => r (S (S k)) l * r (S (S k)) l) <= sumn (dm d) (fun l => r (S k) l * r (S k) l).
Proof.
  intros d gamma solve bu bp s0 k Hg HS HP HA r. destruct (C116_same_iteration d gamma solve HS HP) as (B & SD & GT & EX & IT & MO & CO). split.
  - intros l Hl Pl. unfold r. cbn [direct_run]. rewrite IT, <- CO. destruct (direct_run d solve bu bp s0 k) as [u p].
    apply C91_compressible. destruct (HP l Hl) as [[_ D]|[D1 _]]; [exact D|lra].
  - pose proof (C91_divergence_falls (as_blocks d) gamma (as_ksp (dn d) solve) bu bp (direct_run d solve bu bp s0 k) Hg B SD GT EX HA) as F.
    unfold r. cbn [direct_run]. rewrite !IT. exact F.
Qed.
Print Assumptions C116_continuity.

(** with an inf-sup bound beta it shrinks by 1 + penalty*beta per update, from any start *)
Theorem C116_rate : forall d gamma beta solve bu bp s0 its, 0 < gamma -> 0 <= beta -> solves d solve -> pressures d gamma ->
  (forall x q, (forall i, (i < dn d)%nat -> sumn (dn d) (fun j => dA d i j * x j) = sumn (dm d) (fun l => dC d l i * q l)) ->
     beta * sumn (dm d) (fun l => q l * q l) <= sumn (dn d) (fun i => x i * sumn (dn d) (fun j => dA d i j * x j))) ->
  let r := fun k l => cont_eq d bp (fst (direct_run d solve bu bp s0 k)) (snd (direct_run d solve bu bp s0 k)) l in
  sumn (dm d) (fun l => r (S its) l * r (S its) l) * ((1 + gamma * beta) ^ its * (1 + gamma * beta) ^ its) <= sumn (dm d) (fun l => r 1%nat l * r 1%nat l).
Proof.
  intros d gamma beta solve bu bp s0 its Hg Hb HS HP HI r. destruct (C116_same_iteration d gamma solve HS HP) as (B & SD & GT & EX & IT & MO & CO).
  induction its as [|its IH]; [cbn [pow]; lra|]. eapply Rle_trans; [|exact IH].
  pose proof (falls_by (as_blocks d) gamma (as_ksp (dn d) solve) bu bp Hg B SD GT EX (direct_run d solve bu bp s0 its) beta Hb) as F.
  specialize (F (HI _ _ (fun i Hi => balance (as_blocks d) gamma (as_ksp (dn d) solve) bu bp B SD GT EX (direct_run d solve bu bp s0 its) i Hi))).
  rewrite <- !IT in F. change (direct_iter d solve bu bp (direct_run d solve bu bp s0 its)) with (direct_run d solve bu bp s0 (S its)) in F.
  change (direct_iter d solve bu bp (direct_run d solve bu bp s0 (S its))) with (direct_run d solve bu bp s0 (S (S its))) in F.
  change (sq (km (as_blocks d)) (continuity (as_blocks d) bp (direct_run d solve bu bp s0 (S (S its))))) with (sumn (dm d) (fun l => r (S (S its)) l * r (S (S its)) l)) in F.
  change (sq (km (as_blocks d)) (continuity (as_blocks d) bp (direct_run d solve bu bp s0 (S its)))) with (sumn (dm d) (fun l => r (S its) l * r (S its) l)) in F.
  cbn [pow]. set (a := 1 + gamma * beta) in *. assert (P : 0 <= a ^ its * a ^ its) by nra.
  match type of F with a * a * ?y <= ?z => replace (y * (a * a ^ its * (a * a ^ its))) with (a * a * y * (a ^ its * a ^ its)) by ring; apply (Rmult_le_compat_r _ (a * a * y) z P F) end.
Qed.
Print Assumptions C116_rate.

(** a state that an update does not change in any pressure solves the system, provided no D vanishes; with exact solves the
    pair found is then the solution of both equations *)
Theorem C116_fixed_point : forall d solve bu bp s, solves d solve -> (forall l, (l < dm d)%nat -> ddD d l <> 0) ->
  let s' := direct_iter d solve bu bp s in
  (forall i, (i < dn d)%nat -> fst s' i = fst s i) -> (forall l, (l < dm d)%nat -> snd s' l = snd s l) ->
  (forall i, (i < dn d)%nat -> mom_eq d bu (fst s) (snd s) i = 0) /\ (forall l, (l < dm d)%nat -> cont_eq d bp (fst s) (snd s) l = 0).
Proof.
  intros d solve bu bp s HS HD s' EU EP. split.
  - intros i Hi. rewrite <- (C116_momentum d solve bu bp s i HS Hi). fold s'. unfold mom_eq. f_equal; [f_equal|]; apply sumn_ext; intros; [rewrite EU|rewrite EP]; auto.
  - intros l Hl. specialize (EP l Hl). unfold s', direct_iter in EP. cbv zeta in EP. cbn [fst snd] in EP. unfold axpy at 1 in EP. unfold diagv in EP. unfold axpy, matv in EP.
    set (r := fun i0 => dres_u d bu s i0 + _) in EP. set (du := solve r) in EP.
    assert (Z : forall j, (j < dn d)%nat -> du j = 0).
    { intros j Hj. specialize (EU j Hj). unfold s', direct_iter in EU. cbv zeta in EU. cbn [fst] in EU. unfold axpy at 1 in EU. change (solve _ j) with (du j) in EU. lra. }
    rewrite sumn_zero in EP by (intros j Hj; rewrite (Z j Hj); ring). rewrite <- dres_p_eq. specialize (HD l Hl).
    assert (X : ddD d l * dres_p d bp s l = 0) by lra. apply Rmult_integral in X. destruct X; [contradiction|assumption].
Qed.
Print Assumptions C116_fixed_point.

(** the factorised matrix is A + C'DC when A is symmetric: an exact factorisation then meets the assumption [solves] *)
Theorem C116_factor : forall d solve, (forall i j, (i < dn d)%nat -> (j < dn d)%nat -> dA d i j = dA d j i) ->
  (forall rhs i, (i < dn d)%nat -> sumn (dn d) (fun j => factorised d i j * solve rhs j) = rhs i) -> solves d solve.
Proof.
  intros d solve HA H rhs i Hi. rewrite <- (H rhs i Hi). apply sumn_ext. intros j Hj. f_equal. unfold factorised, lower_part.
  destruct (j <=? i)%nat; rewrite dschur_eq; [reflexivity|]. unfold augmented. rewrite (HA i j Hi Hj). f_equal. apply sumn_ext. intros. ring.
Qed.
Print Assumptions C116_factor.

(** an accepted state was updated at least twice; the state tested last meets the tolerances in the positive direction, if
    some residual was positive at the start; it is the returned one, or the one before it after 20 updates *)
Theorem C116_accepted : forall t m (r : nat -> nat -> R) k, (0 < m)%nat -> (exists l, (l < m)%nat /\ 0 < r 0%nat l) -> 0 <= rel_div t ->
  direct_outcome t m (finite r) = Done k ->
  (2 <= k <= 20)%nat /\ exists tested l0, (tested = k \/ (k = 20 /\ tested = 19))%nat /\ (l0 < m)%nat
    /\ forall l, (l < m)%nat -> r tested l <= Rmax (abs_div t) (rel_div t * r 0%nat l0).
Proof.
  intros t m r k Hm (lp & Hlp & Pp) Hr H. unfold direct_outcome in H.
  assert (G : forall left k0 a b, dloop t m (finite r) left k0 = (a, b) ->
     (a = b /\ (1 < b < k0 + left)%nat) \/ (b = (k0 + left)%nat /\ a = pred b)).
  { intros left. induction left as [|left IH]; intros k0 a b; cbn [dloop]; [intros E; inversion E; right; split; lia|].
    destruct (dstops t m (finite r) k0) eqn:S.
    - intros E. inversion E; subst. left. split; [reflexivity|]. unfold dstops in S. apply andb_prop in S. destruct S as [S _]. apply Nat.ltb_lt in S. lia.
    - intros E. apply IH in E. destruct E as [[? ?]|[? ?]]; [left|right]; split; lia. }
  destruct (dloop t m (finite r) 20 0) as [a b] eqn:E. apply G in E. destruct (dfails t m (finite r) a) eqn:F; [discriminate|]. inversion H; subst b. clear H.
  split; [destruct E as [[? ?]|[? ?]]; lia|].
  destruct (max_val_fin m (r 0%nat) Hm) as (M0 & l0 & E0 & H0 & A0 & B0). destruct (max_val_fin m (r a) Hm) as (M & l1 & E1 & H1 & A1 & B1).
  exists a, l0. split; [destruct E as [[? ?]|[? ?]]; [left|right]; lia|]. split; [exact H0|]. intros l Hl. apply Rle_trans with M; [apply B1; exact Hl|].
  unfold dfails, maxdiv in F. change (finite r a) with (fun l => Fin (r a l)) in F. change (finite r 0) with (fun l => Fin (r 0%nat l)) in F. rewrite E0, E1 in F.
  assert (P0 : 0 < M0) by (specialize (B0 lp Hlp); lra). rewrite <- A0. cbn [fabsf fdiv fltb] in F. destruct (Req_EM_T M0 0) as [Z|_]; [lra|]. cbn [fltb] in F.
  destruct (Rlt_dec (abs_div t) (Rabs M)) as [L1|L1].
  - destruct (Rlt_dec (rel_div t) (M / M0)) as [L2|L2]; [discriminate|]. apply Rle_trans with (rel_div t * M0); [|apply Rmax_r].
    apply Rnot_lt_le in L2. apply (Rmult_le_compat_r M0) in L2; [|lra]. unfold Rdiv in L2. rewrite Rmult_assoc, Rinv_l in L2 by lra. lra.
  - apply Rle_trans with (abs_div t); [|apply Rmax_l]. pose proof (Rle_abs M). lra.
Qed.
Print Assumptions C116_accepted.

(** the run ends only if some cell violates the absolute tolerance, and then with code 1 *)
Theorem C116_exit : forall t m (r : nat -> nat -> R), (0 < m)%nat -> (forall k, direct_outcome t m (finite r) <> Done k) ->
  direct_outcome t m (finite r) = Exits 1 /\ exists k l, (k < 20)%nat /\ (l < m)%nat /\ abs_div t < Rabs (r k l).
Proof.
  intros t m r Hm H. unfold direct_outcome in *.
  assert (G : forall left k0 a b, dloop t m (finite r) left k0 = (a, b) -> (a = pred k0 \/ a < k0 + left)%nat).
  { intros left. induction left as [|left IH]; intros k0 a b; cbn [dloop]; [intros E; inversion E; lia|]. destruct (dstops _ _ _ _); intros E; [inversion E; lia|apply IH in E; lia]. }
  destruct (dloop t m (finite r) 20 0) as [a b] eqn:E. apply G in E. destruct (dfails t m (finite r) a) eqn:F; [|exfalso; apply (H b); reflexivity].
  split; [reflexivity|]. destruct (max_val_fin m (r a) Hm) as (M & l1 & E1 & H1 & A1 & B1). exists a, l1. split; [lia|]. split; [exact H1|].
  unfold dfails, maxdiv in F. change (finite r a) with (fun l => Fin (r a l)) in F. rewrite E1 in F. apply andb_prop in F. destruct F as [F _]. cbn [fabsf fltb] in F.
  destruct (Rlt_dec _ _) as [L|]; [|discriminate]. rewrite <- A1. exact L.
Qed.
Print Assumptions C116_exit.

(** *** What is accepted although it should not be *)
Definition residuals (d : dblocks) (solve : vec -> vec) (bu bp : vec) (s0 : vec * vec) : nat -> nat -> R :=
  fun k l => cont_eq d bp (fst (direct_run d solve bu bp s0 k)) (snd (direct_run d solve bu bp s0 k)) l.
Lemma stops_now : forall t m f, (dstops t m f 0 = false) -> (dstops t m f 1 = false) -> dstops t m f 2 = true -> dfails t m f 2 = false ->
  direct_outcome t m f = Done 2%nat.
Proof. intros t m f A B C D. unfold direct_outcome. cbn [dloop]. rewrite A, B, C, D. reflexivity. Qed.
(** one velocity, one incompressible pressure: the residual of the maximum is signed, so a divergence of -999 is accepted where
    the first one was 1, whatever the (positive) tolerances *)
Definition d_neg : dblocks := DBlocks 1 1 (fun _ _ => 999) (fun _ _ => 1) (fun _ => 1) (fun _ => 0).
Definition solve_neg (rhs : vec) : vec := fun _ => rhs 0%nat / 1000.
Theorem C116_negative_refuted : forall t, 0 <= rel_div t -> 0 <= abs_div t ->
  let r := residuals d_neg solve_neg (fun _ => 1000999) (fun _ => 1) (fun _ => 0, fun _ => 0) in
  solves d_neg solve_neg /\ pressures d_neg 1
  /\ r 0%nat 0%nat = 1 /\ r 2%nat 0%nat = -999 /\ direct_outcome t 1 (finite r) = Done 2%nat.
Proof.
  intros t Hr Ha r.
  assert (S : solves d_neg solve_neg).
  { intros rhs i Hi. cbn in Hi. assert (i = 0%nat) by lia. subst. unfold augmented, solve_neg, sumn. cbn. field. }
  split; [exact S|]. split; [intros l _; right; cbn; split; reflexivity|].
  assert (R0 : r 0%nat 0%nat = 1) by (unfold r, residuals, cont_eq, sumn; cbn; ring).
  assert (R2 : r 2%nat 0%nat = -999).
  { unfold r, residuals. cbn [direct_run]. unfold direct_iter. cbv zeta. cbn [fst snd]. unfold dres_u, dres_p, cont_eq, axpy, matv, diagv, sumn, solve_neg, gradB. cbn. field. }
  split; [exact R0|]. split; [exact R2|].
  assert (D2 : fltb (fdiv (maxdiv 1 (finite r) 2) (maxdiv 1 (finite r) 0)) (Fin (rel_div t)) = true /\ fltb (Fin (rel_div t)) (fdiv (maxdiv 1 (finite r) 2) (maxdiv 1 (finite r) 0)) = false).
  { assert (X : forall k, maxdiv 1 (finite r) k = Fin (r k 0%nat)) by (intros k; unfold maxdiv, max_val; cbn [seq fold_left]; unfold finite; cbn [fltb]; destruct (Rlt_dec _ _); reflexivity).
    rewrite !X, R0, R2. cbn [fdiv]. destruct (Req_EM_T 1 0); [lra|]. cbn [fltb]. destruct (Rlt_dec (-999 / 1) (rel_div t)); [|exfalso; lra]. destruct (Rlt_dec (rel_div t) (-999 / 1)); [exfalso; lra|]. split; reflexivity. }
  destruct D2 as [D2 D3]. apply stops_now; [reflexivity|reflexivity| |].
  - unfold dstops. rewrite D2. rewrite orb_true_r. reflexivity.
  - unfold dfails. rewrite D3. apply andb_false_r.
Qed.
Print Assumptions C116_negative_refuted.

(** residuals that are not numbers are accepted after 20 updates *)
Theorem C116_nan_refuted : forall t m, direct_outcome t m (fun _ _ => NaN) = Done 20%nat.
Proof.
  intros t m. assert (X : forall k, maxdiv m (fun _ _ => NaN) k = NaN).
  { intros k. unfold maxdiv, max_val. generalize (seq 0 m). intros l. induction l as [|a l IH]; [reflexivity|]. cbn [fold_left fltb]. exact IH. }
  assert (S : forall k, dstops t m (fun _ _ => NaN) k = false) by (intros k; unfold dstops; rewrite !X; apply andb_false_r).
  assert (F : forall k, dfails t m (fun _ _ => NaN) k = false) by (intros k; unfold dfails; rewrite !X; reflexivity).
  unfold direct_outcome. cbn [dloop]. rewrite !S, F. reflexivity.
Qed.
Print Assumptions C116_nan_refuted.

(** the momentum residual is never looked at: with a matrix that is positive definite but not symmetric (a stress boundary
    makes it so, C33), the lower part is factorised, the iteration diverges, and the result is accepted *)
Definition d_uns : dblocks := DBlocks 2 1 (fun i j => if (i =? j)%nat then 1 else if (i <? j)%nat then - (4 / 5) else 4 / 5) (fun _ _ => 0) (fun _ => 1) (fun _ => 0).
Definition solve_uns (rhs : vec) : vec := fun i => if (i =? 0)%nat then (25 * rhs 0%nat - 20 * rhs 1%nat) / 9 else (25 * rhs 1%nat - 20 * rhs 0%nat) / 9.
Theorem C116_unsymmetric_refuted : forall t, 0 < abs_div t ->
  let bu : vec := fun i => if (i =? 0)%nat then 1 else 0 in
  let s := direct_run d_uns solve_uns bu (fun _ => 0) (fun _ => 0, fun _ => 0) in
  (forall rhs i, (i < 2)%nat -> sumn 2 (fun j => factorised d_uns i j * solve_uns rhs j) = rhs i)
  /\ (forall x, sumn 2 (fun i => x i * sumn 2 (fun j => dA d_uns i j * x j)) = x 0%nat * x 0%nat + x 1%nat * x 1%nat)
  /\ direct_outcome t 1 (finite (residuals d_uns solve_uns bu (fun _ => 0) (fun _ => 0, fun _ => 0))) = Done 2%nat
  /\ mom_eq d_uns bu (fst (s 0%nat)) (snd (s 0%nat)) 0%nat = 1 /\ mom_eq d_uns bu (fst (s 2%nat)) (snd (s 2%nat)) 0%nat = 1024 / 81.
Proof.
  intros t Ha bu s. split; [|split; [|split; [|split]]].
  - intros rhs i Hi. assert (C : i = 0%nat \/ i = 1%nat) by lia. destruct C as [-> | ->]; unfold factorised, lower_part, dschur, gradB, solve_uns, sumn; cbn; field.
  - intros x. unfold sumn. cbn. field.
  - set (r := residuals _ _ _ _ _). assert (R0 : forall k, r k 0%nat = 0).
    { intros k. unfold r, residuals. set (st := direct_run _ _ _ _ _ _). unfold cont_eq, sumn. cbn. ring. }
    assert (X : forall k, maxdiv 1 (finite r) k = Fin 0) by (intros k; unfold maxdiv, max_val; cbn [seq fold_left]; unfold finite; cbn [fltb]; destruct (Rlt_dec _ _); rewrite R0; reflexivity).
    assert (A : Rabs 0 = 0) by apply Rabs_R0.
    apply stops_now; [reflexivity|reflexivity| |].
    + unfold dstops. rewrite !X. cbn [fabsf fltb]. rewrite A. destruct (Rlt_dec 0 (abs_div t)); [reflexivity|contradiction].
    + unfold dfails. rewrite !X. cbn [fabsf fltb]. rewrite A. destruct (Rlt_dec (abs_div t) 0); [lra|reflexivity].
  - unfold s. cbn [direct_run]. unfold mom_eq, sumn, bu. cbn. field.
  - unfold s. cbn [direct_run]. unfold direct_iter. cbv zeta. cbn [fst snd]. unfold mom_eq, dres_u, dres_p, axpy, matv, diagv, sumn, solve_uns, gradB, bu. cbn. field.
Qed.
Print Assumptions C116_unsymmetric_refuted.

(** the assembled gradient block is ignored.  With the out-of-plane option the divergence is c = 3/2 times the transposed
    gradient (C33): what the iteration converges to is the solution with its pressure divided by c *)
Theorem C116_out_of_plane_refuted : forall d solve (B : nat -> nat -> R) c bu bp s, solves d solve -> (forall l, (l < dm d)%nat -> ddD d l <> 0) ->
  (forall i l, (i < dn d)%nat -> (l < dm d)%nat -> dC d l i = - (c * B i l)) ->
  (forall i, (i < dn d)%nat -> fst (direct_iter d solve bu bp s) i = fst s i) -> (forall l, (l < dm d)%nat -> snd (direct_iter d solve bu bp s) l = snd s l) ->
  (forall i, (i < dn d)%nat -> sumn (dn d) (fun j => dA d i j * fst s j) + sumn (dm d) (fun l => B i l * (c * snd s l)) = bu i)
  /\ (forall i, (i < dn d)%nat -> bu i - sumn (dn d) (fun j => dA d i j * fst s j) - sumn (dm d) (fun l => B i l * snd s l) = (c - 1) * sumn (dm d) (fun l => B i l * snd s l)).
Proof.
  intros d solve B c bu bp s HS HD HC EU EP. destruct (C116_fixed_point d solve bu bp s HS HD EU EP) as [M _].
  assert (K : forall i, (i < dn d)%nat -> bu i = sumn (dn d) (fun j => dA d i j * fst s j) + c * sumn (dm d) (fun l => B i l * snd s l)).
  { intros i Hi. specialize (M i Hi). unfold mom_eq in M.
    rewrite (sumn_ext (dm d) _ (fun l => (- c) * (B i l * snd s l))) in M by (intros l Hl; rewrite (HC i l Hi Hl); ring). rewrite sumn_scal in M. lra. }
  split; intros i Hi; rewrite (K i Hi).
  - rewrite (sumn_ext (dm d) _ (fun l => c * (B i l * snd s l))) by (intros; ring). rewrite sumn_scal. reflexivity.
  - ring.
Qed.
Print Assumptions C116_out_of_plane_refuted.
(** case: the pressure found is 1, that of the assembled equations 3/2 *)
Definition d_two : dblocks := DBlocks 1 1 (fun _ _ => 2) (fun _ _ => 3 / 2) (fun _ => 1) (fun _ => 0).
Definition solve_two (rhs : vec) : vec := fun _ => rhs 0%nat / (17 / 4).
Example C116_out_of_plane_ex : let B : nat -> nat -> R := fun _ _ => -1 in let bu : vec := fun _ => 1 / 2 in let bp : vec := fun _ => 3 / 2 in
  let s : vec * vec := (fun _ => 1, fun _ => 1) in
  solves d_two solve_two /\ pressures d_two 1 /\ (forall i l, dC d_two l i = - (3 / 2 * B i l))
  /\ fst (direct_iter d_two solve_two bu bp s) 0%nat = 1 /\ snd (direct_iter d_two solve_two bu bp s) 0%nat = 1
  /\ bu 0%nat - sumn 1 (fun j => dA d_two 0%nat j * 1) - sumn 1 (fun l => B 0%nat l * 1) = - (1 / 2)
  /\ bu 0%nat - sumn 1 (fun j => dA d_two 0%nat j * 1) - sumn 1 (fun l => B 0%nat l * (3 / 2)) = 0.
Proof.
  cbv zeta. split; [|split; [|split; [|split; [|split; [|split]]]]].
  - intros rhs i Hi. cbn in Hi. assert (i = 0%nat) by lia. subst. unfold augmented, solve_two, sumn. cbn. field.
  - intros l _. right. cbn. split; reflexivity.
  - intros. cbn. lra.
  - unfold direct_iter. cbv zeta. cbn [fst snd]. unfold dres_u, dres_p, axpy, matv, diagv, sumn, solve_two, gradB. cbn. field.
  - unfold direct_iter. cbv zeta. cbn [fst snd]. unfold dres_u, dres_p, axpy, matv, diagv, sumn, solve_two, gradB. cbn. field.
  - unfold sumn. cbn. field.
  - unfold sumn. cbn. field.
Qed.

(** case: one velocity, an incompressible pressure with penalty 3 and a compressible one, from a start that is not zero *)
Definition d_ex : dblocks := DBlocks 1 2 (fun _ _ => 2) (fun _ _ => 1) (fun l => if (l =? 0)%nat then 3 else 1 / 4) (fun l => if (l =? 0)%nat then 0 else 4).
Definition solve_ex (rhs : vec) : vec := fun _ => rhs 0%nat / (21 / 4).
Example C116_ex : let r := residuals d_ex solve_ex (fun _ => 21) (fun _ => 0) (fun _ => 1, fun _ => 2) in
  solves d_ex solve_ex /\ pressures d_ex 3 /\ (forall rhs i, (i < 1)%nat -> sumn 1 (fun j => factorised d_ex i j * solve_ex rhs j) = rhs i)
  /\ (forall x, 0 <= sumn (dn d_ex) (fun i => x i * sumn (dn d_ex) (fun j => dA d_ex i j * x j)))
  /\ r 1%nat 0%nat = - (92 / 21) /\ r 1%nat 1%nat = 0 /\ r 2%nat 0%nat = - (92 / 21) * (3 / 7).
Proof.
  intros r. split; [|split; [|split; [|split; [|split; [|split]]]]].
  - intros rhs i Hi. cbn in Hi. assert (i = 0%nat) by lia. subst. unfold augmented, solve_ex, sumn. cbn. field.
  - intros [|[|l]] H; cbn in H |- *; [right; split; reflexivity|left; split; lra|lia].
  - intros rhs i Hi. assert (i = 0%nat) by lia. subst. unfold factorised, lower_part, dschur, gradB, solve_ex, sumn. cbn. field.
  - intros x. unfold sumn. cbn. nra.
  - unfold r, residuals. cbn [direct_run]. unfold direct_iter. cbv zeta. cbn [fst snd]. unfold cont_eq, dres_u, dres_p, axpy, matv, diagv, sumn, solve_ex, gradB. cbn. field.
  - unfold r, residuals. cbn [direct_run]. unfold direct_iter. cbv zeta. cbn [fst snd]. unfold cont_eq, dres_u, dres_p, axpy, matv, diagv, sumn, solve_ex, gradB. cbn. field.
  - unfold r, residuals. cbn [direct_run]. unfold direct_iter. cbv zeta. cbn [fst snd]. unfold cont_eq, dres_u, dres_p, axpy, matv, diagv, sumn, solve_ex, gradB. cbn. field.
Qed.
