(** * C92, C93, C94: acceptance of the linear solution, pressure blocks, compressible cells *)
From Coq Require Import Reals List Arith ZArith Lra Lia Bool Permutation.
From Verif Require Import DiffModel LinSolve ReseedModel SolverModel SolverProofs SolverProps.
Import ListNotations.
Local Open Scope R_scope.

(** ** C92: which solutions the linear solver accepts *)
(** [p k l] and [u k i]: continuity and momentum residuals left by iteration [k], finite unless said otherwise. *)
Definition finite (r : nat -> nat -> R) : nat -> nat -> fl := fun k i => Fin (r k i).

Lemma max_val_fin : forall m a, (0 < m)%nat -> exists M l0, max_val m (fun l => Fin (a l)) = Fin M /\ (l0 < m)%nat /\ M = a l0 /\ (forall l, (l < m)%nat -> a l <= M).
Proof.
  intros m a Hm. unfold max_val.
  assert (G : forall l M0, (exists l0, (l0 < m)%nat /\ M0 = a l0) -> (forall x, In x l -> (x < m)%nat) ->
    exists M l0, fold_left (fun m0 k => if fltb m0 (Fin (a k)) then Fin (a k) else m0) l (Fin M0) = Fin M /\ (l0 < m)%nat /\ M = a l0 /\ M0 <= M /\ forall x, In x l -> a x <= M).
  { intros l. induction l as [|x l IH]; intros M0 (l0 & H0 & E0) Hl; cbn [fold_left].
    - exists M0, l0. repeat split; [exact H0|exact E0|lra|intros x []].
    - cbn [fltb]. destruct (Rlt_dec M0 (a x)) as [L|L].
      + destruct (IH (a x)) as (M & l1 & E & H1 & E1 & L1 & B); [exists x; split; [apply Hl; left; reflexivity|reflexivity]|intros; apply Hl; right; assumption|].
        exists M, l1. repeat split; [exact E|exact H1|exact E1|lra|]. intros y [->|Hy]; [exact L1|apply B; exact Hy].
      + destruct (IH M0) as (M & l1 & E & H1 & E1 & L1 & B); [exists l0; split; assumption|intros; apply Hl; right; assumption|].
        exists M, l1. repeat split; [exact E|exact H1|exact E1|lra|]. intros y [->|Hy]; [lra|apply B; exact Hy]. }
  destruct (G (seq 0 m) (a 0%nat)) as (M & l0 & E & H0 & E0 & _ & B); [exists 0%nat; split; [exact Hm|reflexivity]|intros x Hx; apply in_seq in Hx; lia|].
  exists M, l0. repeat split; [exact E|exact H0|exact E0|]. intros l Hl. apply B, in_seq. lia.
Qed.

(** accepted, with a positive largest residual in the first iteration: no cell gains more than the tolerances allow *)
Theorem C92_accepted : forall t n m u p nitmax k, (0 < m)%nat ->
  (exists l, (l < m)%nat /\ 0 < p 0%nat l) -> 0 <= rel_div t ->
  ph_outcome t n m u (finite p) nitmax = Done k ->
  exists l0, (l0 < m)%nat /\ forall l, (l < m)%nat -> p k l <= Rmax (abs_div t) (rel_div t * p 0%nat l0).
Proof.
  intros t n m u p nitmax k Hm (lp & Hlp & Pp) Hr H. unfold ph_outcome in H. destruct nitmax as [|left]; [discriminate|]. cbv zeta in H.
  set (k' := last_it t n m u (finite p) left 0) in *. destruct (fails t m (finite p) k') eqn:F; [discriminate|]. inversion H as [E]. rewrite E in *. clear E H.
  destruct (max_val_fin m (p 0%nat) Hm) as (M0 & l0 & E0 & H0 & A0 & B0). destruct (max_val_fin m (p k) Hm) as (M & l1 & E1 & H1 & A1 & B1).
  exists l0. split; [exact H0|]. intros l Hl. apply Rle_trans with M; [apply B1; exact Hl|].
  unfold fails, maxdiv in F. change (finite p k) with (fun l => Fin (p k l)) in F. change (finite p 0) with (fun l => Fin (p 0%nat l)) in F. rewrite E0, E1 in F.
  assert (P0 : 0 < M0) by (specialize (B0 lp Hlp); lra). rewrite <- A0. cbn [fabsf fdiv fltb] in F. destruct (Req_EM_T M0 0) as [Z|_]; [lra|]. cbn [fltb] in F.
  destruct (Rlt_dec (abs_div t) (Rabs M)) as [L1|L1].
  - destruct (Rlt_dec (rel_div t) (M / M0)) as [L2|L2]; [discriminate|]. apply Rle_trans with (rel_div t * M0); [|apply Rmax_r].
    apply Rnot_lt_le in L2. apply (Rmult_le_compat_r M0) in L2; [|lra]. unfold Rdiv in L2. rewrite Rmult_assoc, Rinv_l in L2 by lra. lra.
  - apply Rle_trans with (abs_div t); [|apply Rmax_l]. pose proof (Rle_abs M). lra.
Qed.
Print Assumptions C92_accepted.

(** if moreover the residuals of all cells cancel (closed box), losses are bounded too, by the same amount times m - 1 *)
Theorem C92_accepted_closed : forall t n m u p nitmax k, (0 < m)%nat ->
  (exists l, (l < m)%nat /\ 0 < p 0%nat l) -> 0 <= rel_div t -> sumn m (p k) = 0 ->
  ph_outcome t n m u (finite p) nitmax = Done k ->
  exists l0, (l0 < m)%nat /\ forall l, (l < m)%nat -> Rabs (p k l) <= INR m * Rmax (abs_div t) (rel_div t * p 0%nat l0).
Proof.
  intros t n m u p nitmax k Hm HP Hr HS H. destruct (C92_accepted t n m u p nitmax k Hm HP Hr H) as (l0 & H0 & B). exists l0. split; [exact H0|].
  set (X := Rmax (abs_div t) (rel_div t * p 0%nat l0)) in *.
  assert (C : forall c, sumn m (fun _ => c) = INR m * c).
  { intros c. clear. induction m as [|m IH]; [cbn; ring|]. rewrite sumn_S, IH, S_INR. ring. }
  assert (Hm1 : 1 <= INR m) by (replace 1 with (INR 1) by reflexivity; apply le_INR; lia).
  assert (X0 : 0 <= X).
  { assert (L : sumn m (p k) <= sumn m (fun _ => X)) by (apply sumn_le; exact B). rewrite HS, C in L. nra. }
  intros l Hl.
  assert (E : sumn m (fun j => p k j - (if (j =? l)%nat then p k l else 0)) = - p k l).
  { rewrite sumn_minus, HS. assert (G : forall a q, (l < a)%nat -> sumn a (fun j => if (j =? l)%nat then q else 0) = q).
    { clear. intros a q. induction a as [|a IH]; intros Ha; [lia|]. rewrite sumn_S. destruct (Nat.eqb_spec a l) as [->|NE].
      - rewrite sumn_zero; [ring|]. intros i Hi. destruct (Nat.eqb_spec i l); [lia|reflexivity].
      - rewrite IH by lia. ring. }
    rewrite (G m (p k l) Hl). ring. }
  assert (L : sumn m (fun j => p k j - (if (j =? l)%nat then p k l else 0)) <= sumn m (fun _ => X)).
  { apply sumn_le. intros j Hj. destruct (Nat.eqb_spec j l) as [->|_]; [lra|]. specialize (B j Hj). lra. }
  rewrite E, C in L. specialize (B l Hl). apply Rabs_le. nra.
Qed.
Print Assumptions C92_accepted_closed.

(** when the program exits, some cell violates the absolute tolerance *)
Theorem C92_exit : forall t n m u p nitmax c, (0 < m)%nat -> ph_outcome t n m u (finite p) nitmax = Exits c ->
  exists k l, (k < nitmax)%nat /\ (l < m)%nat /\ abs_div t < Rabs (p k l).
Proof.
  intros t n m u p nitmax c Hm H. unfold ph_outcome in H. destruct nitmax as [|left]; [discriminate|]. cbv zeta in H.
  assert (G : forall left k, (last_it t n m u (finite p) left k <= k + left)%nat).
  { clear. intros left. induction left as [|left IH]; intros k; cbn [last_it]; destruct (stops _ _ _ _ _ _); try lia. specialize (IH (S k)). lia. }
  specialize (G left 0%nat). set (k := last_it t n m u (finite p) left 0) in *. destruct (fails t m (finite p) k) eqn:F; [|discriminate].
  destruct (max_val_fin m (p k) Hm) as (M & l1 & E1 & H1 & A1 & B1). exists k, l1. split; [lia|]. split; [exact H1|].
  unfold fails, maxdiv in F. change (finite p k) with (fun l => Fin (p k l)) in F. rewrite E1 in F. apply andb_prop in F. destruct F as [F _]. cbn [fabsf fltb] in F.
  destruct (Rlt_dec _ _) as [L|]; [|discriminate]. rewrite <- A1. exact L.
Qed.
Print Assumptions C92_exit.

(** an early stop is only accepted when the momentum residual passed its test too: no velocity node is pushed in the
    positive direction by more than the tolerances *)
Theorem C92_early : forall t n m u p nitmax k, (0 < n)%nat -> (exists i, (i < n)%nat /\ 0 < u 0%nat i) -> 0 <= rel_mom t ->
  ph_outcome t n m (finite u) p nitmax = Done k -> (S k < nitmax)%nat ->
  (1 < k)%nat /\ exists i0, (i0 < n)%nat /\ forall i, (i < n)%nat -> u k i <= Rmax (abs_mom t) (rel_mom t * u 0%nat i0).
Proof.
  intros t n m u p nitmax k Hn (ip & Hip & Pp) Hr H Hk. unfold ph_outcome in H. destruct nitmax as [|left]; [discriminate|]. cbv zeta in H.
  assert (G : forall left k0, (last_it t n m (finite u) p left k0 < k0 + left)%nat -> stops t n m (finite u) p (last_it t n m (finite u) p left k0) = true).
  { clear. intros left. induction left as [|left IH]; intros k0; cbn [last_it]; destruct (stops _ _ _ _ _ k0) eqn:E; try lia; try (intros; exact E). intros L. apply IH. lia. }
  specialize (G left 0%nat). set (k' := last_it t n m (finite u) p left 0) in *. destruct (fails t m p k'); [discriminate|]. inversion H as [E]. rewrite E in *. specialize (G ltac:(lia)).
  unfold stops in G. apply andb_prop in G. destruct G as [G1 G2]. apply andb_prop in G1. destruct G1 as [G0 _]. apply Nat.ltb_lt in G0. split; [exact G0|].
  destruct (max_val_fin n (u 0%nat) Hn) as (M0 & l0 & E0 & H0 & A0 & B0). destruct (max_val_fin n (u k) Hn) as (M & l1 & E1 & H1 & A1 & B1).
  unfold maxru in G2. change (finite u k) with (fun l => Fin (u k l)) in G2. change (finite u 0) with (fun l => Fin (u 0%nat l)) in G2. rewrite E0, E1 in G2.
  exists l0. split; [exact H0|]. intros i Hi. apply Rle_trans with M; [apply B1; exact Hi|]. rewrite <- A0.
  assert (P0 : 0 < M0) by (specialize (B0 ip Hip); lra). cbn [fabsf fdiv fltb] in G2. destruct (Req_EM_T M0 0) as [Z|_]; [lra|]. cbn [fltb] in G2. apply orb_prop in G2.
  destruct G2 as [G2|G2]; destruct (Rlt_dec _ _) as [L|]; try discriminate.
  - apply Rle_trans with (abs_mom t); [|apply Rmax_l]. pose proof (Rle_abs M). lra.
  - apply Rle_trans with (rel_mom t * M0); [|apply Rmax_r]. apply Rlt_le, (Rmult_le_compat_r M0) in L; [|lra]. unfold Rdiv in L. rewrite Rmult_assoc, Rinv_l in L by lra. lra.
Qed.
Print Assumptions C92_early.

(** the size of the residual is not what is tested: any loss, however large, is accepted next to a small gain *)
Theorem C92_signed_refuted : forall t n u X, 0 < abs_div t -> 0 <= X -> forall nitmax, (0 < nitmax)%nat ->
  exists k, ph_outcome t n 2 u (finite (fun _ l => if (l =? 0)%nat then 0 else - X)) nitmax = Done k.
Proof.
  intros t n u X Ha HX nitmax Hn. unfold ph_outcome. destruct nitmax as [|left]; [lia|]. cbv zeta. set (k := last_it _ _ _ _ _ _ _).
  exists k. set (p := finite _). assert (E : forall k, maxdiv 2 p k = Fin 0).
  { intros k0. unfold maxdiv, max_val, p, finite. cbn [seq fold_left Nat.eqb]. cbn [fltb]. destruct (Rlt_dec 0 0) as [|_]; [lra|]. cbn [fltb]. destruct (Rlt_dec 0 (- X)) as [|_]; [lra|reflexivity]. }
  unfold fails. rewrite E. cbn [fabsf fltb]. rewrite Rabs_R0. destruct (Rlt_dec (abs_div t) 0) as [|_]; [lra|]. reflexivity.
Qed.
Print Assumptions C92_signed_refuted.

(** a first iteration with only losses makes the relative test accept anything afterwards *)
Theorem C92_negative_refuted : forall t n u X, 0 <= rel_div t -> 0 < X -> forall nitmax, (1 < nitmax)%nat ->
  exists k, ph_outcome t n 1 u (finite (fun k _ => if (k =? 0)%nat then -1 else X)) nitmax = Done k /\ (0 < k)%nat.
Proof.
  intros t n u X Hr HX nitmax Hn. unfold ph_outcome. destruct nitmax as [|left]; [lia|]. cbv zeta. set (p := finite _). set (k := last_it _ _ _ _ _ _ _). exists k.
  assert (K : (0 < k)%nat).
  { unfold k. destruct left as [|left]; [lia|]. cbn [last_it]. change (stops t n 1 u p 0) with false. cbn [Nat.ltb].
    assert (G : forall left k0, (k0 <= last_it t n 1 u p left k0)%nat).
    { intros l. induction l as [|l IH]; intros k0; cbn [last_it]; destruct (stops _ _ _ _ _ _); try lia. specialize (IH (S k0)). lia. }
    specialize (G left 1%nat). lia. }
  split; [|exact K]. assert (E : maxdiv 1 p k = Fin X) by (unfold maxdiv, max_val, p, finite; cbn [seq fold_left]; destruct k; [lia|]; cbn [Nat.eqb fltb]; destruct (Rlt_dec X X); [lra|reflexivity]).
  assert (E0 : maxdiv 1 p 0 = Fin (-1)) by (unfold maxdiv, max_val, p, finite; cbn [seq fold_left Nat.eqb fltb]; destruct (Rlt_dec (-1) (-1)); [lra|reflexivity]).
  unfold fails. rewrite E, E0. cbn [fabsf fdiv]. destruct (Req_EM_T (-1) 0) as [|_]; [lra|]. cbn [fltb]. destruct (Rlt_dec (rel_div t) (X / -1)) as [L|_]; [|rewrite andb_false_r; reflexivity].
  exfalso. unfold Rdiv in L. replace (/ -1) with (-1) in L by field. lra.
Qed.
Print Assumptions C92_negative_refuted.

(** residuals that are not numbers are accepted *)
Theorem C92_nan_refuted : forall t n m u nitmax, (0 < nitmax)%nat -> exists k, ph_outcome t n m u (fun _ _ => NaN) nitmax = Done k.
Proof.
  intros t n m u nitmax Hn. unfold ph_outcome. destruct nitmax as [|left]; [lia|]. cbv zeta. set (k := last_it _ _ _ _ _ _ _). exists k.
  assert (E : maxdiv m (fun _ _ => NaN) k = NaN).
  { unfold maxdiv, max_val. generalize (seq 0 m). intros l. induction l as [|x l IH]; [reflexivity|]. cbn [fold_left fltb]. exact IH. }
  unfold fails. rewrite E. reflexivity.
Qed.
Print Assumptions C92_nan_refuted.

(** momentum balance is not required of the solution returned at the last iteration *)
Theorem C92_momentum_refuted : forall t X nitmax, 0 < abs_div t -> 0 < X -> abs_mom t <= X -> rel_mom t <= 1 -> (0 < nitmax)%nat ->
  exists k, ph_outcome t 1 1 (finite (fun _ _ => X)) (finite (fun _ _ => 0)) nitmax = Done k /\ S k = nitmax.
Proof.
  intros t X nitmax Ha HX Hm Hr Hn. destruct nitmax as [|left]; [lia|]. exists left. split; [|reflexivity].
  assert (Eu : forall k, maxru 1 (finite (fun _ _ => X)) k = Fin X) by (intros; unfold maxru, max_val, finite; cbn [seq fold_left fltb]; destruct (Rlt_dec X X); reflexivity).
  assert (Ep : forall k, maxdiv 1 (finite (fun _ _ => 0)) k = Fin 0) by (intros; unfold maxdiv, max_val, finite; cbn [seq fold_left fltb]; destruct (Rlt_dec 0 0); reflexivity).
  assert (St : forall k, stops t 1 1 (finite (fun _ _ => X)) (finite (fun _ _ => 0)) k = false).
  { intros k. unfold stops. rewrite !Eu. cbn [fabsf fdiv]. destruct (Req_EM_T X 0) as [|_]; [lra|]. cbn [fltb]. rewrite Rabs_right by lra.
    destruct (Rlt_dec X (abs_mom t)) as [|_]; [lra|]. replace (X / X) with 1 by (field; lra). destruct (Rlt_dec 1 (rel_mom t)) as [|_]; [lra|]. apply andb_false_r. }
  assert (L : forall left k, last_it t 1 1 (finite (fun _ _ => X)) (finite (fun _ _ => 0)) left k = (k + left)%nat).
  { intros l. induction l as [|l IH]; intros k; cbn [last_it]; rewrite St; [lia|]. rewrite IH. lia. }
  unfold ph_outcome. cbv zeta. rewrite L. cbn [Nat.add]. unfold fails. rewrite !Ep. cbn [fabsf fltb]. rewrite Rabs_R0. destruct (Rlt_dec (abs_div t) 0) as [|_]; [lra|]. reflexivity.
Qed.
Print Assumptions C92_momentum_refuted.

(** with a maximum of zero iterations the outcome is undefined, whatever the residuals *)
Theorem C92_zero_iterations_refuted : forall t n m u p, ph_outcome t n m u p 0 = UB.
Proof. reflexivity. Qed.
Print Assumptions C92_zero_iterations_refuted.

(** case: two cells whose residual falls by ten per iteration, tolerance 1e-2 relative: accepted at the third iteration *)
Definition p_ex (k l : nat) : R := if (l =? 0)%nat then / 10 ^ k else - / 10 ^ k.
Definition t_ex : tols := Tols (1 / 1000000) (1 / 50) (1 / 1000000) (1 / 50).
Example C92_ex : ph_outcome t_ex 2 2 (finite p_ex) (finite p_ex) 5 = Done 2%nat /\ (exists l, (l < 2)%nat /\ 0 < p_ex 0%nat l) /\ sumn 2 (p_ex 2) = 0.
Proof.
  assert (E : forall k, max_val 2 (finite p_ex k) = Fin (/ 10 ^ k)).
  { intros k. unfold max_val, finite, p_ex. cbn [seq fold_left Nat.eqb fltb]. assert (P : 0 < / 10 ^ k) by (apply Rinv_0_lt_compat, pow_lt; lra).
    destruct (Rlt_dec (/ 10 ^ k) (/ 10 ^ k)) as [|_]; [lra|]. cbn [fltb]. destruct (Rlt_dec (/ 10 ^ k) (- / 10 ^ k)) as [|_]; [lra|]. reflexivity. }
  assert (S2 : stops t_ex 2 2 (finite p_ex) (finite p_ex) 2 = true).
  { unfold stops, maxdiv, maxru. rewrite !E. cbn [Nat.ltb Nat.leb andb fabsf fdiv]. destruct (Req_EM_T (/ 10 ^ 0) 0) as [Z|_]; [exfalso; simpl in Z; lra|]. cbn [fltb t_ex rel_div rel_mom].
    destruct (Rlt_dec (/ 10 ^ 2 / / 10 ^ 0) (1 / 50)) as [_|N]; [rewrite !orb_true_r; reflexivity|]. exfalso. apply N. simpl. lra. }
  split; [|split].
  - unfold ph_outcome. cbv zeta. assert (L : last_it t_ex 2 2 (finite p_ex) (finite p_ex) 4 0 = 2%nat).
    { cbn [last_it]. change (stops t_ex 2 2 (finite p_ex) (finite p_ex) 0) with false. change (stops t_ex 2 2 (finite p_ex) (finite p_ex) 1) with false. cbn [Nat.ltb]. rewrite S2. reflexivity. }
    rewrite L. unfold fails, maxdiv. rewrite !E. cbn [fabsf fdiv]. destruct (Req_EM_T (/ 10 ^ 0) 0) as [Z|_]; [exfalso; simpl in Z; lra|]. cbn [fltb t_ex rel_div abs_div].
    destruct (Rlt_dec (1 / 50) (/ 10 ^ 2 / / 10 ^ 0)) as [N|_]; [exfalso; simpl in N; lra|]. rewrite andb_false_r. reflexivity.
  - exists 0%nat. split; [lia|]. unfold p_ex. cbn. lra.
  - unfold sumn, p_ex. cbn. lra.
Qed.

(** ** C93: the pressure blocks *)
(** Specification: the diagonal entries that the unknown of cell [k] must have. *)
Definition right_entries (c : cells) (penalty : R) (D1 D W : nat -> R) (k : nat) : Prop :=
  let i := peqn c k in
  (pcomp c k = 0%Z -> D1 i = 0 /\ D i = penalty /\ W i = 1) /\ (pcomp c k = 1%Z -> D1 i = pcoef c k /\ D i = 1 / pcoef c k /\ W i = 0).
Definition in_flow (c : cells) (k : nat) : Prop := (k < ncell c)%nat /\ ptype c k <> 30%Z /\ ptype c k <> 31%Z.
(** the numbering gives different unknowns to different cells *)
Definition numbered (c : cells) : Prop :=
  (forall k, in_flow c k -> (peqn c k < npress c)%nat) /\ (forall k k', in_flow c k -> in_flow c k' -> peqn c k = peqn c k' -> k = k').

Lemma active_flow : forall c k, (k < ncell c)%nat -> active c k = true <-> in_flow c k.
Proof.
  intros c k Hk. unfold active, in_flow. rewrite andb_true_iff, !negb_true_iff, !Z.eqb_neq. tauto.
Qed.

(** the fresh entries of cells not yet visited, the right ones of cells visited *)
Lemma killer_fill : forall c penalty, numbered c -> (forall k, in_flow c k -> pcomp c k = 0%Z \/ pcomp c k = 1%Z) ->
  forall l s, NoDup l -> (forall k, In k l -> (k < ncell c)%nat) ->
  (forall k, In k l -> in_flow c k -> dD1 s (peqn c k) = 1 /\ dD s (peqn c k) = 1 /\ dW s (peqn c k) = 1) ->
  exists s', fill (fill_killer c penalty) l s = Done s'
    /\ (forall k, In k l -> in_flow c k -> right_entries c penalty (dD1 s') (dD s') (dW s') k)
    /\ (forall i, (forall k, In k l -> in_flow c k -> peqn c k <> i) -> dD1 s' i = dD1 s i /\ dD s' i = dD s i /\ dW s' i = dW s i).
Proof.
  intros c penalty (HN1 & HN2) HP l. induction l as [|k l IH]; intros s ND HL HF; cbn [fill].
  - exists s. split; [reflexivity|]. split; [intros k []|intros; repeat split; reflexivity].
  - inversion ND as [|? ? NI ND']; subst. unfold fill_killer at 1. destruct (active c k) eqn:A.
    + apply active_flow in A; [|apply HL; left; reflexivity]. cbv zeta. rewrite (proj2 (Nat.ltb_lt _ _) (HN1 k A)). set (s1 := Diags _ _ _).
      destruct (HF k (or_introl eq_refl) A) as (F1 & F2 & F3).
      assert (R1 : right_entries c penalty (dD1 s1) (dD s1) (dW s1) k).
      { unfold right_entries, s1. cbv zeta. cbn [dD1 dD dW]. split; intros E; rewrite E; cbn [Z.eqb Pos.eqb]; unfold nupd; rewrite !Nat.eqb_refl, ?F1, ?F2, ?F3; repeat split; ring. }
      assert (O1 : forall i, i <> peqn c k -> dD1 s1 i = dD1 s i /\ dD s1 i = dD s i /\ dW s1 i = dW s i).
      { intros i Hi. unfold s1. cbn [dD1 dD dW]. destruct (HP k A) as [E|E]; rewrite E; cbn [Z.eqb Pos.eqb]; unfold nupd; rewrite ?(proj2 (Nat.eqb_neq _ _) Hi), ?(proj2 (Nat.eqb_neq _ _) (not_eq_sym Hi)); repeat split; reflexivity. }
      destruct (IH s1 ND') as (s' & E' & R' & O').
      * intros k' Hk'. apply HL. right. exact Hk'.
      * intros k' Hk' A'. destruct (O1 (peqn c k')) as (-> & -> & ->); [intros E; apply NI; rewrite <- (HN2 k' k A' A E); exact Hk'|]. apply HF; [right; exact Hk'|exact A'].
      * exists s'. split; [exact E'|]. split.
        -- intros k' [->|Hk'] A'; [|apply R'; assumption]. destruct (O' (peqn c k')) as (e1 & e2 & e3); [intros k2 H2 A2 E; apply NI; rewrite <- (HN2 k2 k' A2 A' E); exact H2|].
           unfold right_entries in *. cbv zeta in *. rewrite e1, e2, e3. exact R1.
        -- intros i Hi. destruct (O' i) as (-> & -> & ->); [intros k' Hk'; apply Hi; right; exact Hk'|]. apply O1. intros E. apply (Hi k (or_introl eq_refl) A). symmetry. exact E.
    + destruct (IH s ND') as (s' & E' & R' & O'); [intros k' Hk'; apply HL; right; exact Hk'|intros k' Hk'; apply HF; right; exact Hk'|].
      assert (NA : ~ in_flow c k) by (intros A'; apply active_flow in A'; [congruence|apply HL; left; reflexivity]).
      exists s'. split; [exact E'|]. split; [intros k' [->|Hk'] A'; [contradiction|apply R'; assumption]|].
      intros i Hi. apply O'. intros k' Hk'. apply Hi. right. exact Hk'.
Qed.

(** the default solver gives every cell its entries, in whatever order the threads run the cells *)
Theorem C93_entries : forall c penalty order, numbered c -> (forall k, in_flow c k -> pcomp c k = 0%Z \/ pcomp c k = 1%Z) ->
  Permutation order (seq 0 (ncell c)) ->
  exists s, fill (fill_killer c penalty) order diags0 = Done s /\ forall k, in_flow c k -> right_entries c penalty (dD1 s) (dD s) (dW s) k.
Proof.
  intros c penalty order HN HP PM. destruct (killer_fill c penalty HN HP order diags0) as (s & E & R & _).
  - apply (Permutation_NoDup (Permutation_sym PM)), seq_NoDup.
  - intros k Hk. apply (Permutation_in _ PM), in_seq in Hk. lia.
  - intros. repeat split; reflexivity.
  - exists s. split; [exact E|]. intros k A. apply R; [|exact A]. apply (Permutation_in _ (Permutation_sym PM)), in_seq. destruct A. lia.
Qed.
Print Assumptions C93_entries.

(** so its blocks meet what the convergence of the iterations (C91) asks for, if every unknown belongs to a cell *)
Theorem C93_consistent : forall c penalty order n AJ BJ CJ, numbered c -> (forall k, in_flow c k -> pcomp c k = 0%Z \/ pcomp c k = 1%Z /\ 0 < pcoef c k) ->
  (forall i, (i < npress c)%nat -> exists k, in_flow c k /\ peqn c k = i) -> Permutation order (seq 0 (ncell c)) ->
  exists s, fill (fill_killer c penalty) order diags0 = Done s
    /\ pressure_blocks (Blocks n (npress c) AJ BJ CJ CJ (dD s) (dD1 s) (dW s)) penalty.
Proof.
  intros c penalty order n AJ BJ CJ HN HP HS PM. destruct (C93_entries c penalty order HN) as (s & E & R); [intros k A; destruct (HP k A) as [|[]]; auto|exact PM|].
  exists s. split; [exact E|]. intros i Hi. cbn [km kW kD kD1] in *. destruct (HS i Hi) as (k & A & <-). destruct (R k A) as [R0 R1]. destruct (HP k A) as [Z|[Z P]].
  - right. destruct (R0 Z) as (a & b & d). repeat split; assumption.
  - left. destruct (R1 Z) as (a & b & d). rewrite a, b, d. repeat split; [exact P|field; lra].
Qed.
Print Assumptions C93_consistent.

Lemma comp_fill : forall c penalty, (forall k, in_flow c k -> peqn c k = k /\ (k < npress c)%nat) -> (forall k, in_flow c k -> pcomp c k = 0%Z \/ pcomp c k = 1%Z) ->
  forall l s, NoDup l -> (forall k, In k l -> (k < ncell c)%nat) ->
  (forall k, In k l -> in_flow c k -> dD1 s k = 1 /\ dD s k = 1) ->
  exists s', fill (fill_comp c penalty) l s = Done s'
    /\ (forall k, In k l -> in_flow c k -> (pcomp c k = 0%Z -> dD1 s' k = 0 /\ dD s' k = penalty) /\ (pcomp c k = 1%Z -> dD1 s' k = pcoef c k /\ dD s' k = 1 / pcoef c k))
    /\ (forall i, ~ In i l -> dD1 s' i = dD1 s i /\ dD s' i = dD s i).
Proof.
  intros c penalty HN HP l. induction l as [|k l IH]; intros s ND HL HF; cbn [fill].
  - exists s. split; [reflexivity|]. split; [intros k []|intros; repeat split; reflexivity].
  - inversion ND as [|? ? NI ND']; subst. unfold fill_comp at 1. destruct (active c k) eqn:A.
    + apply active_flow in A; [|apply HL; left; reflexivity]. destruct (HN k A) as [Ek Lk]. cbv zeta. rewrite Ek, (proj2 (Nat.ltb_lt _ _) Lk).
      destruct (HF k (or_introl eq_refl) A) as (F1 & F2).
      assert (G : exists s1, (if Z.eqb (pcomp c k) 1 then Done (Diags (if Z.eqb (pcomp c k) 1 then nupd (if Z.eqb (pcomp c k) 0 then nupd (dD1 s) k (dD1 s k * 0) else dD1 s) k (pcoef c k) else (if Z.eqb (pcomp c k) 0 then nupd (dD1 s) k (dD1 s k * 0) else dD1 s))
          (nupd (if Z.eqb (pcomp c k) 0 then nupd (dD s) k (dD s k * penalty) else dD s) k (1 / (if Z.eqb (pcomp c k) 1 then nupd (if Z.eqb (pcomp c k) 0 then nupd (dD1 s) k (dD1 s k * 0) else dD1 s) k (pcoef c k) else (if Z.eqb (pcomp c k) 0 then nupd (dD1 s) k (dD1 s k * 0) else dD1 s)) k)) (dW s))
          else Done (Diags (if Z.eqb (pcomp c k) 1 then nupd (if Z.eqb (pcomp c k) 0 then nupd (dD1 s) k (dD1 s k * 0) else dD1 s) k (pcoef c k) else (if Z.eqb (pcomp c k) 0 then nupd (dD1 s) k (dD1 s k * 0) else dD1 s)) (if Z.eqb (pcomp c k) 0 then nupd (dD s) k (dD s k * penalty) else dD s) (dW s))) = Done s1
          /\ ((pcomp c k = 0%Z -> dD1 s1 k = 0 /\ dD s1 k = penalty) /\ (pcomp c k = 1%Z -> dD1 s1 k = pcoef c k /\ dD s1 k = 1 / pcoef c k))
          /\ (forall i, i <> k -> dD1 s1 i = dD1 s i /\ dD s1 i = dD s i)).
      { destruct (HP k A) as [E|E]; rewrite E; cbn [Z.eqb Pos.eqb]; eexists; (split; [reflexivity|]); cbn [dD1 dD]; unfold nupd.
        - split; [split; [intros _; rewrite !Nat.eqb_refl, F1, F2; split; ring|discriminate]|]. intros i Hi. rewrite ?(proj2 (Nat.eqb_neq _ _) Hi), ?(proj2 (Nat.eqb_neq _ _) (not_eq_sym Hi)). split; reflexivity.
        - split; [split; [discriminate|intros _; rewrite !Nat.eqb_refl; split; ring]|]. intros i Hi. rewrite ?(proj2 (Nat.eqb_neq _ _) Hi), ?(proj2 (Nat.eqb_neq _ _) (not_eq_sym Hi)). split; reflexivity. }
      destruct G as (s1 & -> & R1 & O1). destruct (IH s1 ND') as (s' & E' & R' & O').
      * intros k' Hk'. apply HL. right. exact Hk'.
      * intros k' Hk' A'. destruct (O1 k') as (-> & ->); [intros ->; contradiction|]. apply HF; [right; exact Hk'|exact A'].
      * exists s'. split; [exact E'|]. split.
        -- intros k' [->|Hk'] A'; [|apply R'; assumption]. destruct (O' k' NI) as (-> & ->). exact R1.
        -- intros i Hi. destruct (O' i) as (-> & ->); [intros X; apply Hi; right; exact X|]. apply O1. intros ->. apply Hi. left. reflexivity.
    + destruct (IH s ND') as (s' & E' & R' & O'); [intros k' Hk'; apply HL; right; exact Hk'|intros k' Hk'; apply HF; right; exact Hk'|].
      assert (NA : ~ in_flow c k) by (intros A'; apply active_flow in A'; [congruence|apply HL; left; reflexivity]).
      exists s'. split; [exact E'|]. split; [intros k' [->|Hk'] A'; [contradiction|apply R'; assumption]|].
      intros i Hi. apply O'. intros X. apply Hi. right. exact X.
Qed.

(** the two other compressible solvers do so only if cells and unknowns have the same numbers, that is without air *)
Theorem C93_other_solvers : forall c penalty order, (forall k, in_flow c k -> peqn c k = k /\ (k < npress c)%nat) -> (forall k, in_flow c k -> pcomp c k = 0%Z \/ pcomp c k = 1%Z) ->
  Permutation order (seq 0 (ncell c)) ->
  exists s, fill (fill_comp c penalty) order diags0 = Done s
    /\ forall k, in_flow c k -> (pcomp c k = 0%Z -> dD1 s k = 0 /\ dD s k = penalty) /\ (pcomp c k = 1%Z -> dD1 s k = pcoef c k /\ dD s k = 1 / pcoef c k).
Proof.
  intros c penalty order HN HP PM. destruct (comp_fill c penalty HN HP order diags0) as (s & E & R & _).
  - apply (Permutation_NoDup (Permutation_sym PM)), seq_NoDup.
  - intros k Hk. apply (Permutation_in _ PM), in_seq in Hk. lia.
  - intros. repeat split; reflexivity.
  - exists s. split; [exact E|]. intros k A. apply R; [|exact A]. apply (Permutation_in _ (Permutation_sym PM)), in_seq. destruct A. lia.
Qed.
Print Assumptions C93_other_solvers.

(** with one air cell before them, the compressible cells get wrong entries that depend on the order of the threads:
    cell 1 is air, cells 2 and 3 are compressible with coefficients 2 and 4 *)
Definition air_ex : cells := Cells 5 4 (fun k => if (k =? 1)%nat then 30%Z else (-1)%Z) (fun k => match k with 0 => 0 | 2 => 1 | 3 => 2 | _ => 3 end)%nat
  (fun k => if ((k =? 2) || (k =? 3))%nat then 1%Z else 0%Z) (fun k => if (k =? 2)%nat then 2 else 4).
Lemma air_numbered : numbered air_ex.
Proof.
  assert (F : forall k : nat, in_flow air_ex k -> (k = 0 \/ k = 2 \/ k = 3 \/ k = 4)%nat).
  { intros k (Hk & T & _). cbn in Hk, T. destruct k as [|[|[|[|[|k]]]]]; try lia. cbn in T. congruence. }
  split.
  - intros k A. destruct (F k A) as [?|[?|[?|?]]]; subst k; cbn; lia.
  - intros k k' A A' E. destruct (F k A) as [?|[?|[?|?]]]; destruct (F k' A') as [?|[?|[?|?]]]; subst k k'; cbn in E; try reflexivity; discriminate.
Qed.
Theorem C93_air_refuted : forall penalty, numbered air_ex /\ exists s s',
  fill (fill_comp air_ex penalty) [0; 1; 2; 3; 4]%nat diags0 = Done s /\ fill (fill_comp air_ex penalty) [0; 1; 3; 2; 4]%nat diags0 = Done s'
  /\ pcomp air_ex 2 = 1%Z /\ peqn air_ex 2 = 1%nat /\ pcoef air_ex 2 = 2 /\ dD s 1%nat = 1 /\ dD s' 1%nat = 1 / 4.
Proof.
  intros penalty. split; [exact air_numbered|]. eexists. eexists. split; [reflexivity|]. split; [reflexivity|].
  split; [reflexivity|]. split; [reflexivity|]. split; [reflexivity|]. split; cbn; [field|reflexivity].
Qed.
Print Assumptions C93_air_refuted.

(** and with more air the access leaves the diagonal *)
Definition air_ex2 : cells := Cells 2 1 (fun k => if (k =? 0)%nat then 30%Z else (-1)%Z) (fun _ => 0%nat) (fun _ => 1%Z) (fun _ => 2).
Theorem C93_bounds_refuted : forall penalty, numbered air_ex2 /\ fill (fill_comp air_ex2 penalty) [0; 1]%nat diags0 = UB.
Proof.
  intros penalty. split; [|reflexivity]. split.
  - intros k _. cbn. lia.
  - intros k k' (A & T & _) (A' & T' & _) _. cbn in *. destruct k as [|[|k]], k' as [|[|k']]; try lia; cbn in *; congruence.
Qed.
Print Assumptions C93_bounds_refuted.

(** case: the default solver on the grid with the air cell *)
Example C93_ex : exists s, fill (fill_killer air_ex 10) [0; 1; 3; 2; 4]%nat diags0 = Done s /\ dD s 1%nat = 1 / 2 /\ dD1 s 1%nat = 2 /\ dW s 1%nat = 0 /\ dD s 0%nat = 10 /\ dW s 0%nat = 1.
Proof.
  destruct (C93_entries air_ex 10 [0; 1; 3; 2; 4]%nat air_numbered) as (s & E & R).
  - intros k _. cbn. destruct ((k =? 2) || (k =? 3))%nat; [right|left]; reflexivity.
  - cbn. do 2 apply perm_skip. apply perm_swap.
  - exists s. split; [exact E|]. destruct (R 2%nat) as [_ R2]; [repeat split; cbn; [lia|discriminate|discriminate]|]. destruct (R 0%nat) as [R0 _]; [repeat split; cbn; [lia|discriminate|discriminate]|].
    destruct (R2 eq_refl) as (a & b & c). destruct (R0 eq_refl) as (a0 & b0 & c0). cbn in *. repeat split; assumption.
Qed.

(** ** C94: which cells are treated as compressible *)
Lemma detect_fold : forall ptype bet l comp cc, NoDup l ->
  fold_left (fun comp cc => if negb (Z.eqb (ptype cc) 30) then (if Rlt_dec (/ 10 ^ 13) (bet cc) then nupd comp cc 1%Z else comp) else comp) l comp cc
  = if existsb (Nat.eqb cc) l && negb (Z.eqb (ptype cc) 30) && (if Rlt_dec (/ 10 ^ 13) (bet cc) then true else false) then 1%Z else comp cc.
Proof.
  intros ptype bet l. induction l as [|k l IH]; intros comp cc ND; [reflexivity|]. inversion ND as [|? ? NI ND']; subst. cbn [fold_left existsb]. rewrite IH by exact ND'.
  destruct (Nat.eqb_spec cc k) as [->|NE]; cbn [orb].
  - assert (X : existsb (Nat.eqb k) l = false).
    { destruct (existsb (Nat.eqb k) l) eqn:E; [|reflexivity]. apply existsb_exists in E. destruct E as (y & Hy & Ey). apply Nat.eqb_eq in Ey. subst y. contradiction. }
    rewrite X. cbn [andb]. destruct (negb (Z.eqb (ptype k) 30)); cbn [andb]; [|reflexivity]. destruct (Rlt_dec (/ 10 ^ 13) (bet k)); [unfold nupd; rewrite Nat.eqb_refl; reflexivity|reflexivity].
  - assert (Y : (if negb (Z.eqb (ptype k) 30) then (if Rlt_dec (/ 10 ^ 13) (bet k) then nupd comp k 1%Z else comp) else comp) cc = comp cc).
    { destruct (negb (Z.eqb (ptype k) 30)); [|reflexivity]. destruct (Rlt_dec (/ 10 ^ 13) (bet k)); [|reflexivity]. unfold nupd. rewrite ?(proj2 (Nat.eqb_neq _ _) NE), ?(proj2 (Nat.eqb_neq _ _) (not_eq_sym NE)). reflexivity. }
    rewrite Y. reflexivity.
Qed.
(** every rock cell whose compressibility exceeds the threshold is marked; no other mark changes *)
Theorem C94_marked : forall n ptype bet comp cc,
  ((cc < n)%nat -> ptype cc <> 30%Z -> / 10 ^ 13 < bet cc -> detect n ptype bet comp cc = 1%Z)
  /\ (~ ((cc < n)%nat /\ ptype cc <> 30%Z /\ / 10 ^ 13 < bet cc) -> detect n ptype bet comp cc = comp cc).
Proof.
  intros n ptype bet comp cc. unfold detect. rewrite (detect_fold ptype bet (seq 0 n) comp cc (seq_NoDup n 0)). split.
  - intros H1 H2 H3. assert (X : existsb (Nat.eqb cc) (seq 0 n) = true) by (apply existsb_exists; exists cc; split; [apply in_seq; lia|apply Nat.eqb_refl]).
    rewrite X, (proj2 (Z.eqb_neq _ _) H2). cbn [andb negb]. destruct (Rlt_dec (/ 10 ^ 13) (bet cc)); [reflexivity|contradiction].
  - intros H. destruct (existsb (Nat.eqb cc) (seq 0 n)) eqn:X; cbn [andb]; [|reflexivity]. apply existsb_exists in X. destruct X as (y & Hy & Ey). apply Nat.eqb_eq in Ey. subst y. apply in_seq in Hy.
    destruct (Z.eqb_spec (ptype cc) 30); cbn [andb negb]; [reflexivity|]. destruct (Rlt_dec (/ 10 ^ 13) (bet cc)); [|reflexivity]. exfalso. apply H. repeat split; [lia|assumption|assumption].
Qed.
Print Assumptions C94_marked.

(** marks are never removed: a cell once compressible stays marked when incompressible material moves in, and its entry
    in the pressure block is then zero, so that the inverse the solver takes does not exist *)
Theorem C94_sticky_refuted : forall n ptype bet1 bet2 comp cc, (cc < n)%nat -> ptype cc <> 30%Z -> / 10 ^ 13 < bet1 cc -> bet2 cc = 0 ->
  detect n ptype bet2 (detect n ptype bet1 comp) cc = 1%Z /\ forall dt vol d, bet2 cc / dt * vol * d * d = 0.
Proof.
  intros n ptype bet1 bet2 comp cc H1 H2 H3 H4. split.
  - rewrite (proj2 (C94_marked n ptype bet2 _ cc)); [apply C94_marked; assumption|]. intros (_ & _ & B). rewrite H4 in B. assert (0 < / 10 ^ 13) by (apply Rinv_0_lt_compat, pow_lt; lra). lra.
  - intros. rewrite H4. unfold Rdiv. ring.
Qed.
Print Assumptions C94_sticky_refuted.

Example C94_ex : detect 3 (fun k => if (k =? 2)%nat then 30%Z else (-1)%Z) (fun k => if (k =? 0)%nat then 0 else 1) (fun _ => 0%Z) 1%nat = 1%Z
  /\ detect 3 (fun k => if (k =? 2)%nat then 30%Z else (-1)%Z) (fun k => if (k =? 0)%nat then 0 else 1) (fun _ => 0%Z) 0%nat = 0%Z
  /\ detect 3 (fun k => if (k =? 2)%nat then 30%Z else (-1)%Z) (fun k => if (k =? 0)%nat then 0 else 1) (fun _ => 0%Z) 2%nat = 0%Z.
Proof.
  split; [|split].
  - apply C94_marked; [lia|discriminate|]. assert (H : / 10 ^ 13 < / 1) by (apply Rinv_lt_contravar; [rewrite Rmult_1_l; apply pow_lt; lra|]; replace 1 with (1 ^ 13) by apply pow1; apply Rlt_pow_R1 || (simpl; lra)). cbn [Nat.eqb]. lra.
  - apply C94_marked. intros (_ & _ & B). cbn [Nat.eqb] in B. assert (0 < / 10 ^ 13) by (apply Rinv_0_lt_compat, pow_lt; lra). lra.
  - apply C94_marked. intros (_ & T & _). cbn in T. congruence.
Qed.
