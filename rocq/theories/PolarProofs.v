(** * Polar mode: the rows as heat exchange, comparison of solutions, the transposed solve *)
From Coq Require Import Reals ZArith List Bool Arith Lra Lia.
From Verif Require Import GridModel RheoModel DiffModel DiffProofs DiffCore LinSolve PolarModel.
Import ListNotations.
Local Open Scope R_scope.

Section PRows.
  Variable g : dgrid.
  Variable p : pcoord.
  Notation ncx := (g_ncx g).
  Notation ncz := (g_ncz g).
  Notation cellp c := (cell g (fst c) (snd c)).
  Notation fluidp c := (fluid g (fst c) (snd c)).
  Notation prowp c := (prow g p (fst c) (snd c)).
  Definition pastep (s : list (Z * R) * (nat -> nat)) (c : nat * nat) : list (Z * R) * (nat -> nat) :=
    let '(k, l) := c in
    if fluid g k l then (fst s ++ prow g p k l, upd (snd s) (Z.to_nat (eqn_t g (cell g k l))) (length (fst s))) else s.
  Lemma pasm_filter : forall L s, fold_left pastep L s = fold_left pastep (filter (fun c => fluidp c) L) s.
  Proof.
    induction L as [|[k l] L IH]; intros s; [reflexivity|]. cbn [fold_left filter fst snd]. unfold pastep at 2.
    destruct (fluid g k l) eqn:F; cbn [fold_left]; [unfold pastep at 3; rewrite F; apply IH|apply IH].
  Qed.
  Lemma pasm_fold : forall L s n, (forall c, In c L -> fluidp c = true) -> map (pos g) L = seq n (length L) ->
    let r := fold_left pastep L s in
    fst r = fst s ++ concat (map (fun c => prowp c) L) /\
    (forall i, (i < length L)%nat -> snd r (n + i)%nat = (length (fst s) + length (concat (map (fun c => prowp c) (firstn i L))))%nat).
  Proof.
    induction L as [|[k l] L IH]; intros s n Hf Hp; cbn zeta; [cbn; split; [now rewrite app_nil_r|lia]|].
    cbn [map length seq] in Hp. injection Hp as P1 P2. cbn [fold_left].
    assert (F : fluid g k l = true) by (apply (Hf (k, l)); now left).
    assert (E : pastep s (k, l) = (fst s ++ prow g p k l, upd (snd s) n (length (fst s)))) by (unfold pastep; rewrite F; unfold pos in P1; cbn [fst snd] in P1; rewrite P1; reflexivity).
    rewrite E. destruct (IH (fst s ++ prow g p k l, upd (snd s) n (length (fst s))) (S n) ltac:(intros; apply Hf; now right) P2) as [I1 I2].
    cbn [fst snd] in I1, I2. split; [rewrite I1; cbn [map concat fst snd]; now rewrite app_assoc|].
    intros i Hi. destruct i as [|i].
    - cbn [firstn map concat length]. rewrite Nat.add_0_r.
      assert (K : forall L' s' m, (forall c, In c L' -> (m < pos g c)%nat) -> (forall c, In c L' -> fluidp c = true) -> snd (fold_left pastep L' s') m = snd s' m).
      { clear. induction L' as [|[k l] L' IH]; intros s' m H Hf; [reflexivity|]. cbn [fold_left]. rewrite IH by (intros; (apply H || apply Hf); now right).
        unfold pastep. assert (F : fluid g k l = true) by (apply (Hf (k, l)); now left). rewrite F. cbn [snd]. unfold upd.
        destruct (Nat.eqb_spec m (Z.to_nat (eqn_t g (cell g k l)))) as [->|_]; [|reflexivity].
        specialize (H (k, l) (or_introl eq_refl)). unfold pos in H. cbn [fst snd] in H. lia. }
      rewrite K; [cbn [snd]; unfold upd; rewrite Nat.eqb_refl; lia| |intros; apply Hf; now right].
      intros c Hc. assert (In (pos g c) (seq (S n) (length L))) by (rewrite <- P2; now apply in_map). apply in_seq in H. lia.
    - cbn [length] in Hi. specialize (I2 i ltac:(lia)). replace (n + S i)%nat with (S n + i)%nat by lia. rewrite I2.
      cbn [firstn map concat fst snd]. rewrite !app_length. lia.
  Qed.
  Lemma pasm_facts : fst (passemble g p) = concat (map (fun c => prowp c) (fl g)) /\
    (forall i, (i <= neq g)%nat -> snd (passemble g p) i = length (concat (map (fun c => prowp c) (firstn i (fl g))))).
  Proof.
    unfold passemble. change (fold_left _ (cells g) ([], fun _ => 0%nat)) with (fold_left pastep (cells g) ([], fun _ : nat => 0%nat)).
    rewrite pasm_filter. fold (fl g). destruct (number_facts g) as (HN & _ & _).
    destruct (pasm_fold (fl g) ([], fun _ => 0%nat) 0 ltac:(intros [k l] H; apply (in_fl g) in H; apply H) ltac:(rewrite (pos_seq g), HN; reflexivity)) as [H1 H2].
    set (r := fold_left pastep (fl g) ([], fun _ => 0%nat)) in *. cbn [fst snd app length] in *. rewrite H1. split; [reflexivity|].
    intros i Hi. unfold upd. destruct (Nat.eqb_spec i (neq g)) as [->|Hne].
    - rewrite HN, firstn_all. reflexivity.
    - specialize (H2 i ltac:(lia)). cbn [plus] in H2. rewrite H2. reflexivity.
  Qed.
  Lemma pcsr_is_row : forall c, In c (fl g) -> pcsr_row g p (pos g c) = prowp c.
  Proof.
    intros c Hc. destruct pasm_facts as [H1 H2]. unfold pcsr_row. destruct (passemble g p) as [J Ic]. cbn [fst snd] in *.
    destruct (eqn_pos g c Hc) as [_ Hp]. rewrite !H2 by lia. destruct (number_facts g) as (HN & _ & _).
    assert (Hnth : nth_error (fl g) (pos g c) = Some c).
    { apply In_nth_error in Hc. destruct Hc as [n Hn]. assert (nth_error (map (pos g) (fl g)) n = Some (pos g c)) by now apply map_nth_error.
      rewrite (pos_seq g) in H. assert (n < neq g)%nat by (rewrite HN; apply nth_error_Some; congruence).
      rewrite nth_error_nth' with (d := 0%nat) in H by (rewrite seq_length; lia). rewrite seq_nth in H by lia. injection H as H. cbn in H. now subst n. }
    rewrite H1. destruct (nth_error_split (fl g) (pos g c) Hnth) as (l1 & l2 & E & L).
    rewrite E, <- L.
    assert (F1 : firstn (length l1) (l1 ++ c :: l2) = l1) by (rewrite firstn_app, firstn_all, Nat.sub_diag; cbn [firstn]; apply app_nil_r).
    assert (F2 : firstn (S (length l1)) (l1 ++ c :: l2) = l1 ++ [c]) by (rewrite firstn_app, (firstn_all2 l1) by lia; replace (S (length l1) - length l1)%nat with 1%nat by lia; reflexivity).
    rewrite F1, F2. rewrite !map_app, !concat_app, !app_length. cbn [map concat]. rewrite app_nil_r.
    replace (length (concat (map (fun c0 => prowp c0) l1)) + length (prowp c) - length (concat (map (fun c0 => prowp c0) l1)))%nat with (length (prowp c)) by lia.
    rewrite skipn_app, skipn_all, Nat.sub_diag. cbn [skipn app]. rewrite firstn_app, firstn_all, Nat.sub_diag. cbn [firstn]. now rewrite app_nil_r.
  Qed.
  Lemma dot_prow : forall k l x,
    dot (prow g p k l) x = dot (row g k l) x + (diag_W g p k l + diag_E g p k l) * x (eqn_t g (cell g k l))
      + (if negb (north g l) && negb (is30 (tN g k l)) then (north_W g p k l + north_E g p k l) * x (eqn_t g (cell g k l + ncx)) else 0).
  Proof.
    intros k l x. unfold prow, row. rewrite !dot_app, !dot_opt. cbn [dot fold_right fst snd].
    destruct (negb (north g l) && negb (is30 (tN g k l))); ring.
  Qed.
  Lemma prow_cols : periodic_ok g -> forall k l e, active g k l -> In e (prow g p k l) -> exists c, In c (fl g) /\ fst e = eqn_t g (cellp c).
  Proof.
    intros Hper k l e Ha He. assert (H : In (fst e) (map fst (row g k l))).
    { assert (E : map fst (row g k l) = map fst (prow g p k l)).
      { assert (O : forall b j a a', map fst (opt b j a) = map fst (opt b j a')) by (intros [|] j a a'; reflexivity).
        unfold row, prow. rewrite !map_app. repeat (f_equal; try apply O). }
      rewrite E. now apply in_map. }
    apply in_map_iff in H. destruct H as (e' & E & He'). rewrite <- E. now apply (row_cols g Hper k l e').
  Qed.
  Lemma pmat_rows : periodic_ok g -> forall x c, In c (fl g) -> sumn (neq g) (fun j => pmat g p (pos g c) j * x j) = dot (prowp c) (byeq x).
  Proof.
    intros Hper x c Hc. rewrite sum_fl. unfold pmat. rewrite pcsr_is_row by exact Hc.
    rewrite <- (coef_dot g (prowp c) x).
    - apply lsum_ext. intros d Hd. destruct (eqn_pos g d Hd) as [E _]. rewrite E. reflexivity.
    - intros e He. destruct c as [k l]. apply in_fl_active in Hc. now apply (prow_cols Hper k l e).
  Qed.
End PRows.

(** ** The solve through the transpose *)
Lemma sumn_swap : forall n m (f : nat -> nat -> R), sumn n (fun i => sumn m (fun j => f i j)) = sumn m (fun j => sumn n (fun i => f i j)).
Proof.
  induction n as [|n IH]; intros m f; [symmetry; apply sumn_zero; reflexivity|].
  rewrite sumn_S, IH, <- sumn_plus. apply sumn_ext. intros j _. rewrite sumn_S. reflexivity.
Qed.
Lemma half_sym : forall n K, (forall i j, (i < n)%nat -> (j < n)%nat -> K i j = K j i) -> forall i j, (i < n)%nat -> (j < n)%nat -> half K i j = K i j.
Proof. intros n K H i j Hi Hj. unfold half. destruct (Nat.leb j i); [reflexivity|]. now apply H. Qed.
Lemma tt_sym : forall n A i j, times_transpose n A i j = times_transpose n A j i.
Proof. intros. unfold times_transpose. apply sumn_ext. intros. ring. Qed.
Lemma tt_apply : forall n A y i, sumn n (fun j => times_transpose n A i j * y j) = sumn n (fun m => A i m * sumn n (fun j => A j m * y j)).
Proof.
  intros n A y i. unfold times_transpose.
  rewrite (sumn_ext n _ (fun j => sumn n (fun m => A i m * (A j m * y j)))).
  2:{ intros j _. rewrite Rmult_comm, <- sumn_scal. apply sumn_ext. intros m _. ring. }
  rewrite sumn_swap. apply sumn_ext. intros m _. apply sumn_scal.
Qed.
Lemma half_apply : forall n A b y, cholmod_answers n (times_transpose n A) b y <-> forall i, (i < n)%nat -> sumn n (fun m => A i m * sumn n (fun j => A j m * y j)) = b i.
Proof.
  intros n A b y. unfold cholmod_answers. split; intros H i Hi.
  - rewrite <- tt_apply, <- (H i Hi). apply sumn_ext. intros j Hj. rewrite (half_sym n) by (try assumption; intros; apply tt_sym). reflexivity.
  - rewrite <- (H i Hi), <- tt_apply. apply sumn_ext. intros j Hj. rewrite (half_sym n) by (try assumption; intros; apply tt_sym). reflexivity.
Qed.
Lemma sumn_pick : forall n f i, (i < n)%nat -> sumn n (fun j => if Nat.eqb j i then f j else 0) = f i.
Proof.
  induction n as [|n IH]; intros f i H; [lia|]. rewrite sumn_S. destruct (Nat.eqb_spec n i) as [->|Hn].
  - rewrite sumn_zero; [ring|]. intros j Hj. destruct (Nat.eqb_spec j i); [lia|reflexivity].
  - rewrite IH by lia. ring.
Qed.
(** a square matrix with trivial kernel: so has its transpose, and the product with the transpose *)
Lemma kernel_transpose : forall n A, trivial_kernel n A -> trivial_kernel n (fun i j => A j i).
Proof.
  intros n A K y Hy j Hj. destruct (kernel_solvable n A (fun i => if Nat.eqb i j then 1 else 0) K) as [c Hc].
  assert (E : sumn n (fun i => y i * sumn n (fun m => A i m * c m)) = y j).
  { rewrite <- (sumn_pick n y j Hj). apply sumn_ext. intros i Hi. rewrite (Hc i Hi). destruct (Nat.eqb_spec i j); ring. }
  rewrite <- E. rewrite (sumn_ext n _ (fun i => sumn n (fun m => c m * (A i m * y i)))).
  2:{ intros i _. rewrite <- sumn_scal. apply sumn_ext. intros m _. ring. }
  rewrite sumn_swap. apply sumn_zero. intros m Hm. rewrite sumn_scal, (Hy m Hm). ring.
Qed.
Lemma kernel_tt : forall n A, trivial_kernel n A -> trivial_kernel n (times_transpose n A).
Proof.
  intros n A K y Hy. pose proof (kernel_transpose n A K) as Kt. apply Kt. intros m Hm.
  apply (K (fun m => sumn n (fun j => A j m * y j))); [|exact Hm]. intros i Hi. rewrite <- tt_apply. now apply Hy.
Qed.
Lemma polar_exists : forall n A b, trivial_kernel n A -> exists x, energy_solve true n A b x.
Proof.
  intros n A b K. destruct (kernel_solvable n (times_transpose n A) b (kernel_tt n A K)) as [y Hy].
  exists (fun i => sumn n (fun j => A j i * y j)). exists y. split; [|reflexivity].
  apply half_apply. intros i Hi. rewrite <- tt_apply. now apply Hy.
Qed.
Lemma polar_solves : forall n A b x, energy_solve true n A b x -> forall i, (i < n)%nat -> sumn n (fun j => A i j * x j) = b i.
Proof.
  intros n A b x (y & Hy & Hx) i Hi. rewrite <- (proj1 (half_apply n A b y) Hy i Hi). apply sumn_ext. intros m Hm. rewrite (Hx m Hm). reflexivity.
Qed.

(** ** Specification of the sides in polar mode *)
Inductive above : Type := AirAbove | CellAbove | NothingAbove.
Section PSpec.
  Variable g : dgrid.
  Variable p : pcoord.
  (** the fraction of the vertical spacing used on a side whose ghost column is at [x] *)
  Definition fraction (x : R) (l : nat) : R := atan (PI / 2 - Rabs (atan (p_zc p l / x))) * g_dx g / g_dz g.
  Definition west_x : R := p_xg p 0 - g_dx g / 2.
  Definition east_x : R := p_xg p (g_ncx g) + g_dx g / 2.
  (** what is above the cell [(k,l)]: a ghost cell flagged 30 counts as air *)
  Definition over (k l : nat) : above :=
    if air_at g (k + 1) (l + 2) then AirAbove else if Nat.eqb (l + 1) (g_ncz g) then NothingAbove else CellAbove.
  (** heat a side cell gains per volume and time because of polar mode; [a] the fraction, [kf] the conductivity of its side *)
  Definition to_above (T : nat -> R) (a kf : R) (k l : nat) : R := (1 - a) * kf * (at_ g T (k, l + 1)%nat - at_ g T (k, l)) / (g_dx g * g_dx g).
  Definition to_zero (T : nat -> R) (a kf : R) (k l : nat) : R := - ((1 - a) * kf * at_ g T (k, l) / (g_dx g * g_dx g)).
  Definition west_gain (T : nat -> R) (k l : nat) : R :=
    if Nat.eqb k 0 then
      match over k l with
      | AirAbove => 0
      | CellAbove => to_above T (fraction west_x l) (kvert g 0 l) k l
      | NothingAbove => to_zero T (fraction west_x l) (kvert g 0 l) k l
      end
    else 0.
  Definition east_gain (T : nat -> R) (k l : nat) : R :=
    if Nat.eqb (k + 1) (g_ncx g) then
      match over k l with
      | CellAbove => to_above T (fraction east_x l) (kvert g (k + 1) l) k l
      | AirAbove | NothingAbove => to_zero T (fraction east_x l) (kvert g (k + 1) l) k l
      end
    else 0.
  Definition pbalanced (src T T' : nat -> R) (k l : nat) : Prop :=
    at_ g (g_rc g) (k, l) * (at_ g T' (k, l) - at_ g T (k, l)) / g_dt g
    = allsides (fun s => enters g T' s k l / spacing g s) + at_ g src (k, l) + west_gain T' k l + east_gain T' k l.
  (** the fractions of both sides are at most one *)
  Definition moderate : Prop := forall l, (l < g_ncz g)%nat -> fraction west_x l <= 1 /\ fraction east_x l <= 1.
End PSpec.

Section PBal.
  Variable g : dgrid.
  Variable p : pcoord.
  Hypothesis Hper : periodic_ok g.
  Hypothesis Hsp : spacings_ok g.
  Notation ncx := (g_ncx g).

  Lemma tet_abs : forall x z, tet x z = Rabs (atan (z / x)).
  Proof. intros. unfold tet, Rltb, Rabs. cbv zeta. destruct (Rlt_dec (atan (z / x)) 0), (Rcase_abs (atan (z / x))); lra. Qed.
  Lemma aW_f : forall l, aW g p l = fraction g p (west_x g p) l. Proof. intros. unfold aW, weight, fraction, west_x. rewrite tet_abs. reflexivity. Qed.
  Lemma aE_f : forall l, aE g p l = fraction g p (east_x g p) l. Proof. intros. unfold aE, weight, fraction, east_x. rewrite tet_abs. reflexivity. Qed.

  Lemma prow_action : forall T x k l, X g T x -> active g k l -> bottom_ok g ->
    dot (prow g p k l) x - bbc g k l = g_rc g (cell g k l) / g_dt g * T (cell g k l) - allsides (fun s => enters g T s k l / spacing g s)
      - west_gain g p T k l - east_gain g p T k l.
  Proof.
    intros T x k l HX Ha Hb. rewrite dot_prow. pose proof (row_action g Hper Hsp T x k l HX Ha Hb) as RA.
    rewrite HX by exact Ha.
    cut ((diag_W g p k l + diag_E g p k l) * T (cell g k l)
      + (if negb (north g l) && negb (is30 (tN g k l)) then (north_W g p k l + north_E g p k l) * x (eqn_t g (cell g k l + ncx)) else 0)
      = - west_gain g p T k l - east_gain g p T k l); [lra|]. clear RA.
    unfold diag_W, diag_E, north_W, north_E, west_gain, east_gain, over, to_above, to_zero, at_. cbn [fst snd].
    rewrite aW_f, aE_f, !AW_at, !AE_at, tN_at, is30_at, (east_at g) by apply Ha. rewrite (north_at g) by apply Ha.
    set (fw := fraction g p (west_x g p) l). set (fe := fraction g p (east_x g p) l). unfold idx2. destruct Hsp as (S1 & S2 & S3).
    change (k + l * ncx)%nat with (cell g k l).
    destruct (air_at g (k + 1) (l + 2)) eqn:Ea; [|destruct (Nat.eqb_spec (l + 1) (g_ncz g)) as [El|El]]; cbn [negb andb]; rewrite ?andb_true_r, ?andb_false_r.
    - destruct (Nat.eqb k 0), (Nat.eqb (k + 1) ncx); field; lra.
    - destruct (Nat.eqb_spec k 0) as [-> | Hk], (Nat.eqb (_ + 1) ncx); field; lra.
    - replace (cell g k l + ncx)%nat with (cell g k (l + 1)) by (unfold cell; nia). rewrite HX by (now apply act_N).
      change (k + (l + 1) * ncx)%nat with (cell g k (l + 1)).
      destruct (Nat.eqb_spec k 0) as [-> | Hk], (Nat.eqb (_ + 1) ncx); field; lra.
  Qed.

  Lemma psolved_balanced : forall src T T' x, bottom_ok g -> (forall k l, active g k l -> T' (cell g k l) = x (pos g (k, l))) ->
    ((forall i, (i < neq g)%nat -> sumn (neq g) (fun j => pmat g p i j * x j) = rhs_vec g src T i) <-> forall k l, active g k l -> pbalanced g p src T T' k l).
  Proof.
    intros src T T' x Hb HT. destruct Hsp as (S1 & S2 & S3).
    assert (K : forall k l, active g k l -> (sumn (neq g) (fun j => pmat g p (pos g (k, l)) j * x j) = rhs_vec g src T (pos g (k, l)) <-> pbalanced g p src T T' k l)).
    { intros k l H. assert (Hc : In (k, l) (fl g)) by now apply in_fl_active. rewrite (pmat_rows g p Hper x _ Hc), rhs_at by exact Hc. cbn [fst snd].
      pose proof (prow_action T' (byeq x) k l (X_of g T' x HT) H Hb) as RA.
      unfold pbalanced, rhs0. unfold at_ at 1 2 3 4. cbn [fst snd]. change (k + l * ncx)%nat with (cell g k l).
      replace (g_rc g (cell g k l) * (T' (cell g k l) - T (cell g k l)) / g_dt g) with (g_rc g (cell g k l) / g_dt g * T' (cell g k l) - 1 * g_rc g (cell g k l) * T (cell g k l) / g_dt g) by (field; lra).
      split; intros E; lra. }
    split.
    - intros H k l Ha. apply K; [exact Ha|]. apply H. apply eqn_pos. now apply in_fl_active.
    - intros H i Hi. destruct (pos_surj g i Hi) as [[k l] [Hc <-]]. apply in_fl_active in Hc. apply K; auto.
  Qed.
End PBal.
