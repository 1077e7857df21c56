(** * C76: markers entering through the sides *)
From Coq Require Import ZArith Reals List Bool Lia Lra Psatz Arith.
Import ListNotations.
From Verif Require Import P2GModel AdvModel AdvProofs ReseedModel MarkerModel.
Local Open Scope R_scope.

(** ** Specification *)
(** At least two cells of two half-spacings. *)
Definition strip_ok (g : strip) : Prop := 0 < half g /\ xw g + 4 * half g <= xe g.
Definition near_side (g : strip) (x : R) : Prop := xw g <= x <= xw g + half g \/ xe g - half g <= x <= xe g.
Definition second_west (g : strip) (x : R) : Prop := xw g + half g <= x <= xw g + 2 * half g.
Definition second_east (g : strip) (x : R) : Prop := xe g - 2 * half g <= x <= xe g - half g.
(** A marker ([m0] before, [m] after the motion) that has left the half-cell at a side
    towards the interior. *)
Definition entered (g : strip) (m0 m : inp) : Prop :=
  iph m0 <> (-1)%Z /\ near_side g (ix m0) /\ iph m <> (-1)%Z /\ (second_west g (ix m) \/ second_east g (ix m)).
(** The copy: same properties, half a cell nearer to the side. *)
Definition copy_of (g : strip) (m c : inp) : Prop :=
  iz c = iz m /\ iph c = iph m /\ ival c = ival m /\
  (second_west g (ix m) /\ ix c = ix m - half g \/ second_east g (ix m) /\ ix c = ix m + half g).
(** Same marker up to the tag. *)
Definition same_marker (m c : inp) : Prop := ix c = ix m /\ iz c = iz m /\ iph c = iph m /\ ival c = ival m.

Lemma between_spec : forall a x b, between a x b = true <-> a <= x <= b.
Proof.
  intros a x b. unfold between. rewrite andb_true_iff. destruct (Rgeb_spec x a); destruct (Rgeb_spec b x); split; intros H;
    try (destruct H; discriminate); try lra; split; reflexivity.
Qed.

Section I.
Variable g : strip.
Hypothesis OK : strip_ok g.

Definition westb (m : inp) : bool := between (xw g + half g) (ix m) (xw g + half g + half g).
Definition eastb (m : inp) : bool := between (xe g - half g - half g) (ix m) (xe g - half g).
Definition wantb (m : inp) : bool := negb (iph m =? -1)%Z && (itag m =? 1)%Z && (westb m || eastb m).
Lemma westb_spec : forall m, westb m = true <-> second_west g (ix m).
Proof. intros m. unfold westb, second_west. rewrite between_spec. split; intros; lra. Qed.
Lemma eastb_spec : forall m, eastb m = true <-> second_east g (ix m).
Proof. intros m. unfold eastb, second_east. rewrite between_spec. split; intros; lra. Qed.
Definition generic (m : inp) : Prop := ix m <> xw g + 2 * half g /\ ix m <> xe g - 2 * half g.
Definition shift (m : inp) : R := if westb m then - half g else half g.
Definition mkcopy (m : inp) (tag : Z) : inp := Inp (ix m + shift m) (iz m) (iph m) tag (ival m).
Definition tag2 (m : inp) : inp := Inp (ix m) (iz m) (iph m) 2 (ival m).

Lemma copy_not_wanted : forall m tag, wantb m = true -> generic m -> wantb (mkcopy m tag) = false.
Proof.
  intros m tag H (G1 & G2). destruct OK as (Hh & HW). unfold wantb in *. apply andb_true_iff in H. destruct H as (_ & H).
  cbn [iph itag mkcopy]. destruct (negb _ && _); [|reflexivity]. cbn [andb]. apply orb_false_iff.
  assert (D : second_west g (ix m) /\ shift m = - half g \/ second_east g (ix m) /\ shift m = half g).
  { unfold shift. apply orb_true_iff in H. destruct H as [H|H].
    - rewrite H. left. split; [now apply westb_spec|reflexivity].
    - destruct (westb m) eqn:E; [left; split; [now apply westb_spec|reflexivity]|right; split; [now apply eastb_spec|reflexivity]]. }
  split; apply not_true_iff_false; intros K; [apply westb_spec in K|apply eastb_spec in K];
    unfold second_west, second_east in *; cbn [mkcopy ix] in K; destruct D as [(D & E)|(D & E)]; rewrite E in K; lra.
Qed.

Lemma one_no : forall k st, wantb (iarr st k) = false -> inflow_one g k st = Done st.
Proof.
  intros k st H. unfold inflow_one. cbv zeta. unfold wantb in H. destruct (negb (iph (iarr st k) =? -1)%Z && (itag (iarr st k) =? 1)%Z); [|reflexivity]. cbn [andb] in H.
  apply orb_false_iff in H. destruct H as (A & B). unfold westb in A. rewrite A. unfold eastb in B. now rewrite B.
Qed.

Lemma add_copy_eq : forall s k st j st1, take g (IState (icount st) (nupd (iarr st) k (tag2 (iarr st k))) (free st) (fresh st)) = st1 ->
  fresh st1 = Some j -> j <> k -> iarr st1 = nupd (iarr st) k (tag2 (iarr st k)) ->
  add_copy g s k st = Done (IState (icount st1)
    (nupd (nupd (iarr st) k (tag2 (iarr st k))) j (Inp (ix (iarr st k) + s) (iz (iarr st k)) (iph (iarr st k)) (itag (iarr st j)) (ival (iarr st k))))
    (free st1) (Some j)).
Proof.
  intros s k st j st1 E F N A. unfold add_copy. cbv zeta. change (Inp (ix (iarr st k)) (iz (iarr st k)) (iph (iarr st k)) 2 (ival (iarr st k))) with (tag2 (iarr st k)).
  rewrite E, F. do 3 f_equal. unfold nupd. rewrite Nat.eqb_refl.
  destruct (Nat.eqb_spec j k); [contradiction|]. reflexivity.
Qed.

Lemma one_yes : forall k st j st1, wantb (iarr st k) = true -> generic (iarr st k) ->
  take g (IState (icount st) (nupd (iarr st) k (tag2 (iarr st k))) (free st) (fresh st)) = st1 ->
  fresh st1 = Some j -> j <> k -> iarr st1 = nupd (iarr st) k (tag2 (iarr st k)) ->
  inflow_one g k st = Done (IState (icount st1)
    (nupd (nupd (iarr st) k (tag2 (iarr st k))) j (mkcopy (iarr st k) (itag (iarr st j)))) (free st1) (Some j)).
Proof.
  intros k st j st1 H (G1 & G2) E F N A. destruct OK as (Hh & HW). unfold inflow_one. cbv zeta.
  unfold wantb in H. apply andb_true_iff in H. destruct H as (H0 & H). rewrite H0. fold (westb (iarr st k)).
  unfold mkcopy, shift. destruct (westb (iarr st k)) eqn:W.
  - rewrite (add_copy_eq _ k st j st1 E F N A). cbn [iarr].
    assert (K : between (xe g - half g - half g) (ix (nupd (nupd (iarr st) k (tag2 (iarr st k))) j
       (Inp (ix (iarr st k) + - half g) (iz (iarr st k)) (iph (iarr st k)) (itag (iarr st j)) (ival (iarr st k))) k)) (xe g - half g) = false).
    { unfold nupd. destruct (Nat.eqb_spec k j); [congruence|]. rewrite Nat.eqb_refl. cbn [ix tag2].
      apply not_true_iff_false. intros K. apply between_spec in K. apply westb_spec in W. unfold second_west in W. lra. }
    rewrite K. reflexivity.
  - cbn [orb] in H. unfold eastb in H. rewrite H. apply (add_copy_eq _ k st j st1 E F N A).
Qed.

(** ** The loop *)
Variable n : nat.
Variable ms : nat -> inp.
Notation Rl := (reusable n ms).
Hypothesis GEN : forall k, (k < n)%nat -> wantb (ms k) = true -> generic (ms k).

Definition slot (q : nat) : nat := if (q <? length Rl)%nat then nth (length Rl - 1 - q) Rl 0%nat else (n + (q - length Rl))%nat.
Definition D (k : nat) : list nat := filter (fun i => wantb (ms i)) (seq 0 (Nat.min k n)).

Lemma reusable_spec : forall k, In k Rl <-> (k < n)%nat /\ iph (ms k) = (-1)%Z.
Proof. intros k. unfold reusable. rewrite filter_In, in_seq, Z.eqb_eq. split; intros (A & B); split; try exact B; lia. Qed.
Lemma reusable_NoDup : NoDup Rl.
Proof. apply NoDup_filter, seq_NoDup. Qed.
Lemma slot_low : forall q, (q < length Rl)%nat -> (slot q < n)%nat /\ iph (ms (slot q)) = (-1)%Z.
Proof.
  intros q Hq. unfold slot. destruct (Nat.ltb_spec q (length Rl)); [|lia]. apply reusable_spec. apply nth_In. lia.
Qed.
Lemma slot_high : forall q, (length Rl <= q)%nat -> slot q = (n + (q - length Rl))%nat.
Proof. intros q Hq. unfold slot. destruct (Nat.ltb_spec q (length Rl)); [lia|reflexivity]. Qed.
Lemma slot_inj : forall q q', slot q = slot q' -> q = q'.
Proof.
  intros q q' E. destruct (Nat.lt_ge_cases q (length Rl)) as [L|L]; destruct (Nat.lt_ge_cases q' (length Rl)) as [L'|L'].
  - revert E. unfold slot. destruct (Nat.ltb_spec q (length Rl)); [|lia]. destruct (Nat.ltb_spec q' (length Rl)); [|lia]. intros E.
    apply (proj1 (NoDup_nth Rl 0%nat) reusable_NoDup) in E; lia.
  - apply slot_low in L. apply slot_high in L'. lia.
  - apply slot_low in L'. apply slot_high in L. lia.
  - rewrite (slot_high q L), (slot_high q' L') in E. lia.
Qed.
Lemma slot_not_active : forall q k, (k < n)%nat -> iph (ms k) <> (-1)%Z -> k <> slot q.
Proof.
  intros q k Hk Hp ->. destruct (Nat.lt_ge_cases q (length Rl)) as [L|L]; [now apply slot_low in L|]. apply slot_high in L. lia.
Qed.
Lemma D_In : forall k i, In i (D k) <-> (i < Nat.min k n)%nat /\ wantb (ms i) = true.
Proof. intros k i. unfold D. rewrite filter_In, in_seq. split; intros (A & B); split; try exact B; lia. Qed.
Lemma want_active : forall m, wantb m = true -> iph m <> (-1)%Z.
Proof. intros m H. unfold wantb in H. apply andb_true_iff in H. destruct H as (H & _). apply andb_true_iff in H. destruct H as (H & _). apply negb_true_iff, Z.eqb_neq in H. exact H. Qed.
Lemma D_S : forall k, (k < n)%nat -> D (S k) = D k ++ (if wantb (ms k) then [k] else []).
Proof.
  intros k Hk. unfold D. rewrite !Nat.min_l by lia. rewrite seq_S, filter_app. reflexivity.
Qed.
Lemma D_end : forall k, (n <= k)%nat -> D k = D n.
Proof. intros. unfold D. now rewrite !Nat.min_r by lia. Qed.

Record inv (k : nat) (st : istate) : Prop := Inv {
  v_count : icount st = (n + (length (D k) - length Rl))%nat;
  v_free : free st = firstn (length Rl - length (D k)) Rl;
  v_new : forall q, (q < length (D k))%nat -> iarr st (slot q) = mkcopy (ms (nth q (D k) 0%nat)) (itag (ms (slot q)));
  v_old : forall j, (forall q, (q < length (D k))%nat -> j <> slot q) -> iarr st j = if in_dec Nat.eq_dec j (D k) then tag2 (ms j) else ms j }.

Lemma firstn_snoc : forall (l : list nat) m, (m < length l)%nat -> firstn (S m) l = firstn m l ++ [nth m l 0%nat].
Proof.
  induction l as [|a l IH]; intros m Hm; [cbn in Hm; lia|]. destruct m; [reflexivity|]. cbn [firstn nth app]. f_equal. apply IH. cbn in Hm. lia.
Qed.

Lemma step : forall k st, inv k st -> (k < icount st)%nat -> (n + (length (D n) - length Rl) <= imax g)%nat ->
  exists st', inflow_one g k st = Done st' /\ inv (S k) st'.
Proof.
  intros k st I Hk Cap.
  assert (NW : wantb (iarr st k) = false -> ((k < n)%nat -> wantb (ms k) = false) -> exists st', inflow_one g k st = Done st' /\ inv (S k) st').
  { intros H H'. exists st. split; [now apply one_no|].
    assert (E : D (S k) = D k).
    { destruct (Nat.lt_ge_cases k n) as [L|L]; [rewrite D_S, H', app_nil_r by assumption; reflexivity|]. now rewrite (D_end (S k)), (D_end k) by lia. }
    destruct I. split; rewrite ?E; assumption. }
  destruct (In_dec Nat.eq_dec k (map slot (seq 0 (length (D k))))) as [IS|NS].
  - (* a slot already filled *)
    apply in_map_iff in IS. destruct IS as (q & <- & Hq). apply in_seq in Hq. apply NW.
    + rewrite (v_new _ _ I) by lia. assert (IC : In (nth q (D (slot q)) 0%nat) (D (slot q))) by (apply nth_In; lia).
      apply D_In in IC. destruct IC as (C1 & C2). apply copy_not_wanted; [exact C2|]. apply GEN; [lia|exact C2].
    + intros L. destruct (wantb (ms (slot q))) eqn:E; [|reflexivity]. exfalso.
      apply (slot_not_active q (slot q)); [assumption|now apply want_active|reflexivity].
  - assert (NSQ : forall q, (q < length (D k))%nat -> k <> slot q).
    { intros q Hq E. apply NS. apply in_map_iff. exists q. split; [now symmetry|]. apply in_seq. lia. }
    assert (KN : (k < n)%nat).
    { destruct (Nat.lt_ge_cases k n) as [|L]; [assumption|]. exfalso. rewrite (v_count _ _ I) in Hk.
      apply (NSQ (length Rl + (k - n))%nat); [lia|]. rewrite slot_high by lia. lia. }
    assert (EK : iarr st k = ms k).
    { rewrite (v_old _ _ I k NSQ). destruct (in_dec Nat.eq_dec k (D k)) as [IK|_]; [apply D_In in IK; lia|reflexivity]. }
    destruct (wantb (ms k)) eqn:W; [|apply NW; [now rewrite EK|intros; reflexivity || assumption]].
    clear NW. set (t := length (D k)) in *. set (r := length Rl) in *.
    assert (LD : D (S k) = D k ++ [k]) by (rewrite D_S by assumption; now rewrite W).
    assert (TOT : (S t <= length (D n))%nat).
    { replace (S t) with (length (D (S k))) by (rewrite LD, app_length; cbn; fold t; lia).
      apply NoDup_incl_length; [apply NoDup_filter, seq_NoDup|]. intros i Hi. apply D_In in Hi. apply D_In. split; [lia|tauto]. }
    set (arr1 := nupd (iarr st) k (tag2 (iarr st k))).
    set (st1 := IState (n + (S t - r)) arr1 (firstn (r - S t) Rl) (Some (slot t))).
    assert (TK : take g (IState (icount st) arr1 (free st) (fresh st)) = st1).
    { unfold take. cbn [free icount iarr fresh]. rewrite (v_free _ _ I), (v_count _ _ I). fold t r. unfold st1, slot. fold r.
      destruct (Nat.ltb_spec t r) as [L|L].
      - replace (r - t)%nat with (S (r - S t)) by lia. rewrite firstn_snoc by (fold r; lia). rewrite rev_app_distr. cbn [rev app].
        rewrite rev_involutive. replace (r - S t)%nat with (r - 1 - t)%nat by lia. f_equal. lia.
      - replace (r - t)%nat with 0%nat by lia. replace (r - S t)%nat with 0%nat by lia. cbn [firstn rev].
        destruct (Nat.ltb_spec (n + (t - r)) (imax g)); [|lia]. f_equal. lia. }
    assert (SK : slot t <> k) by (intros E; apply (slot_not_active t k KN (want_active _ W)); now symmetry).
    eexists. split.
    { apply (one_yes k st (slot t) st1); [now rewrite EK|rewrite EK; now apply GEN|exact TK|reflexivity|exact SK|reflexivity]. }
    assert (STALE : iarr st (slot t) = ms (slot t)).
    { rewrite (v_old _ _ I).
      - destruct (in_dec Nat.eq_dec (slot t) (D k)) as [IK|_]; [|reflexivity]. exfalso. apply D_In in IK. destruct IK as (I1 & I2).
        apply (slot_not_active t (slot t)); [lia|now apply want_active|reflexivity].
      - intros q Hq E. apply slot_inj in E. fold t in Hq. lia. }
    rewrite STALE, EK. split; cbn [icount free iarr st1]; rewrite LD, ?app_length; cbn [length]; fold t r; rewrite ?Nat.add_1_r.
    + reflexivity.
    + reflexivity.
    + intros q Hq. unfold nupd at 1. destruct (Nat.eqb_spec (slot q) (slot t)) as [E|NE].
      * apply slot_inj in E. subst q. unfold t. now rewrite app_nth2, Nat.sub_diag by lia.
      * assert (q <> t) by congruence. rewrite app_nth1 by (fold t; lia). unfold nupd.
        destruct (Nat.eqb_spec (slot q) k) as [E|_]; [exfalso; apply (slot_not_active q k KN (want_active _ W)); now symmetry|].
        apply (v_new _ _ I). fold t. lia.
    + intros j Hj. unfold nupd at 1. destruct (Nat.eqb_spec j (slot t)) as [E|_]; [exfalso; apply (Hj t); [lia|exact E]|].
      unfold nupd. destruct (Nat.eqb_spec j k) as [->|NE].
      * destruct (in_dec Nat.eq_dec k (D k ++ [k])) as [_|NI]; [reflexivity|]. exfalso. apply NI, in_app_iff. right. now left.
      * rewrite (v_old _ _ I j) by (fold t; intros q Hq; apply Hj; lia).
        destruct (in_dec Nat.eq_dec j (D k)) as [IJ|NJ]; destruct (in_dec Nat.eq_dec j (D k ++ [k])) as [IJ'|NJ']; try reflexivity; exfalso.
        -- apply NJ', in_app_iff. now left.
        -- apply in_app_iff in IJ'. destruct IJ' as [|[|[]]]; [contradiction|congruence].
Qed.

Lemma D_le : forall k, (length (D k) <= length (D n))%nat.
Proof.
  intros k. apply NoDup_incl_length; [apply NoDup_filter, seq_NoDup|]. intros i Hi. apply D_In in Hi. apply D_In. split; [lia|tauto].
Qed.

Lemma loop : forall fuel k st, inv k st -> (S (imax g) <= fuel + k)%nat -> (n + (length (D n) - length Rl) <= imax g)%nat ->
  exists st', inflow_loop g fuel k st = Done st' /\ inv n st'.
Proof.
  induction fuel as [|f IH]; intros k st I F Cap; cbn [inflow_loop].
  - exists st. split; [reflexivity|]. assert (L := D_le k). assert (E : D k = D n) by (apply D_end; lia).
    destruct I. split; rewrite <- ?E; assumption.
  - destruct (Nat.ltb_spec k (icount st)) as [L|L].
    + destruct (step k st I L Cap) as (st1 & -> & I1). apply IH; [exact I1|lia|exact Cap].
    + exists st. split; [reflexivity|]. assert (E : D k = D n) by (apply D_end; rewrite (v_count _ _ I) in L; lia).
      destruct I. split; rewrite <- ?E; assumption.
Qed.

Lemma inv0 : inv 0 (IState n ms Rl None).
Proof.
  assert (E : D 0 = []) by reflexivity. split; rewrite ?E; cbn [length icount free iarr]; try lia.
  - rewrite Nat.sub_0_r. symmetry. apply firstn_all.
  - intros j _. reflexivity.
Qed.
End I.

(** ** Theorems *)
Lemma tag_spec : forall g m, strip_ok g -> itag (tag_marker g m) = 1%Z <-> iph m <> (-1)%Z /\ near_side g (ix m).
Proof.
  intros g m (Hh & HW). unfold tag_marker. cbn [itag]. destruct (Z.eqb_spec (iph m) (-1)) as [E|E]; cbn [negb andb].
  - split; [discriminate|tauto].
  - unfold near_side. rewrite <- !between_spec, <- orb_true_iff. destruct (_ || _).
    + split; intros; [split; [exact E|reflexivity]|reflexivity].
    + split; [discriminate|intros (_ & K); discriminate].
Qed.

Theorem C76_inflow : forall g n ms0 ms W Rz,
  strip_ok g ->
  (** tagged before the motion, which leaves the tags alone *)
  (forall k, (k < n)%nat -> itag (ms k) = itag (tag_marker g (ms0 k))) ->
  NoDup W -> (forall k, In k W <-> (k < n)%nat /\ entered g (ms0 k) (ms k)) ->
  NoDup Rz -> (forall k, In k Rz <-> (k < n)%nat /\ iph (ms k) = (-1)%Z) ->
  (** no entering marker exactly on a cell side *)
  (forall k, In k W -> ix (ms k) <> xw g + 2 * half g /\ ix (ms k) <> xe g - 2 * half g) ->
  (n + (length W - length Rz) <= imax g)%nat ->
  exists st W' S, inflow g n ms = Done st /\ icount st = (n + (length W - length Rz))%nat /\
    (forall k, (k < n)%nat -> iph (ms k) <> (-1)%Z -> same_marker (ms k) (iarr st k)) /\
    (** one copy each *)
    (forall k, In k W' <-> In k W) /\ NoDup W' /\ NoDup S /\ length S = length W' /\
    (forall q, (q < length W')%nat -> (nth q S 0 < icount st)%nat /\
       copy_of g (ms (nth q W' 0%nat)) (iarr st (nth q S 0%nat)) /\
       near_side g (ix (iarr st (nth q S 0%nat))) /\
       ~ ((nth q S 0 < n)%nat /\ iph (ms (nth q S 0%nat)) <> (-1)%Z)) /\
    (forall j, (j < n)%nat -> ~ In j S -> same_marker (ms j) (iarr st j)) /\
    (forall j, (n <= j < icount st)%nat -> In j S).
Proof.
  intros g n ms0 ms W Rz OK HT NW HW NR HR HG Cap.
  assert (WT : forall k, (k < n)%nat -> wantb g (ms k) = true <-> entered g (ms0 k) (ms k)).
  { intros k Hk. unfold wantb, entered. rewrite !andb_true_iff, orb_true_iff, negb_true_iff, Z.eqb_neq, Z.eqb_eq, HT by assumption.
    rewrite tag_spec by assumption. rewrite westb_spec, eastb_spec. tauto. }
  assert (GEN : forall k, (k < n)%nat -> wantb g (ms k) = true -> generic g (ms k)).
  { intros k Hk H. apply HG. apply HW. split; [exact Hk|]. now apply WT. }
  assert (ED : forall k, In k (D g n ms n) <-> In k W).
  { intros k. rewrite D_In, HW, Nat.min_id. split; intros (A & B); split; try exact A; now apply WT. }
  assert (NDD : NoDup (D g n ms n)) by (apply NoDup_filter, seq_NoDup).
  assert (LW : length W = length (D g n ms n)).
  { apply Nat.le_antisymm; apply NoDup_incl_length; try assumption; intros k Hk; now apply ED. }
  assert (LR : length Rz = length (reusable n ms)).
  { apply Nat.le_antisymm; apply NoDup_incl_length; try assumption; try apply reusable_NoDup; intros k Hk.
    - apply reusable_spec. now apply HR.
    - apply HR. now apply reusable_spec. }
  destruct (loop g OK n ms GEN (S (imax g)) 0 _ (inv0 g n ms)) as (st & E & I); [lia|rewrite <- LW, <- LR; exact Cap|].
  set (S := map (slot n ms) (seq 0 (length (D g n ms n)))).
  assert (SN : forall q, (q < length (D g n ms n))%nat -> nth q S 0%nat = slot n ms q).
  { intros q Hq. unfold S. rewrite (nth_indep _ 0%nat (slot n ms 0)) by (rewrite map_length, seq_length; exact Hq).
    rewrite map_nth, seq_nth by exact Hq. reflexivity. }
  assert (OLD : forall j, ~ In j S -> same_marker (ms j) (iarr st j)).
  { intros j Hj. rewrite (v_old _ _ _ _ _ I).
    - destruct (in_dec _ _ _); repeat split; reflexivity.
    - intros q Hq ->. apply Hj. apply in_map_iff. exists q. split; [reflexivity|]. apply in_seq. lia. }
  exists st, (D g n ms n), S. split; [exact E|]. rewrite (v_count _ _ _ _ _ I), LW, LR. split; [reflexivity|].
  split. { intros k Hk Hp. apply OLD. intros K. apply in_map_iff in K. destruct K as (q & K & _). symmetry in K. revert K. now apply slot_not_active. }
  split; [exact ED|]. split; [exact NDD|].
  split. { apply FinFun.Injective_map_NoDup; [intros q q' H; now apply slot_inj in H|apply seq_NoDup]. }
  split; [unfold S; now rewrite map_length, seq_length|].
  split; [|split].
  - intros q Hq. rewrite SN by exact Hq. rewrite (v_new _ _ _ _ _ I) by exact Hq.
    assert (IC : In (nth q (D g n ms n) 0%nat) (D g n ms n)) by now apply nth_In.
    set (m := ms (nth q (D g n ms n) 0%nat)).
    assert (DI : second_west g (ix m) /\ shift g m = - half g \/ second_east g (ix m) /\ shift g m = half g).
    { apply D_In in IC. destruct IC as (_ & H). fold m in H. unfold wantb in H. apply andb_true_iff in H. destruct H as (_ & H).
      unfold shift. apply orb_true_iff in H. destruct (westb g m) eqn:W1; [left; split; [now apply westb_spec|reflexivity]|right; split; [|reflexivity]].
      destruct H as [H|H]; [discriminate|now apply eastb_spec]. }
    split; [|split; [|split]].
    + destruct (Nat.lt_ge_cases q (length (reusable n ms))) as [L|L]; [apply slot_low in L; lia|]. rewrite slot_high by assumption. lia.
    + split; [reflexivity|]. split; [reflexivity|]. split; [reflexivity|]. cbn [mkcopy ix].
      destruct DI as [(A & ->)|(A & ->)]; [left|right]; split; try assumption; lra.
    + unfold near_side, second_west, second_east in *. cbn [mkcopy ix]. destruct DI as [(A & ->)|(A & ->)]; [left|right]; lra.
    + intros (K1 & K2). now apply (slot_not_active n ms q (slot n ms q)).
  - intros j _ Hj. now apply OLD.
  - intros j Hj. apply in_map_iff. exists (length (reusable n ms) + (j - n))%nat. split; [rewrite slot_high by lia; lia|]. apply in_seq. lia.
Qed.
Print Assumptions C76_inflow.

(** With a full array and nothing to recycle, the first marker to enter is written to an
    index that was never set. *)
Theorem C76_full_array_refuted : forall g n ms k,
  n = imax g -> (forall j, (j < n)%nat -> iph (ms j) <> (-1)%Z) ->
  (k < n)%nat -> iph (ms k) <> (-1)%Z -> itag (ms k) = 1%Z -> second_west g (ix (ms k)) \/ second_east g (ix (ms k)) ->
  inflow g n ms = UB.
Proof.
  intros g n ms k Hn HA Hk Hp Ht Hs. unfold inflow.
  assert (ER : reusable n ms = []).
  { destruct (reusable n ms) as [|j l] eqn:E; [reflexivity|]. exfalso. assert (I : In j (reusable n ms)) by (rewrite E; now left).
    apply reusable_spec in I. destruct I as (A & B). now apply (HA j). }
  rewrite ER.
  assert (W : wantb g (ms k) = true).
  { unfold wantb. rewrite !andb_true_iff, orb_true_iff, negb_true_iff, Z.eqb_neq, Z.eqb_eq, westb_spec, eastb_spec. tauto. }
  assert (U : forall j s, add_copy g s j (IState n ms [] None) = UB).
  { intros j s. unfold add_copy, take. cbv zeta. cbn [free rev icount iarr fresh]. rewrite <- Hn, Nat.ltb_irrefl. reflexivity. }
  assert (O : forall j, inflow_one g j (IState n ms [] None) = Done (IState n ms [] None) \/ inflow_one g j (IState n ms [] None) = UB).
  { intros j. unfold inflow_one. cbv zeta. cbn [iarr]. destruct (_ && _); [|now left]. destruct (between _ _ _); [rewrite U; now right|].
    cbn [iarr]. destruct (between _ _ _); [rewrite U; now right|now left]. }
  assert (OK1 : inflow_one g k (IState n ms [] None) = UB).
  { unfold wantb in W. apply andb_true_iff in W. destruct W as (W0 & W1). unfold inflow_one. cbv zeta. cbn [iarr]. rewrite W0.
    fold (westb g (ms k)). destruct (westb g (ms k)); [now rewrite U|]. cbn [iarr]. fold (eastb g (ms k)).
    cbn [orb] in W1. rewrite W1. now rewrite U. }
  assert (L : forall fuel j, (j <= k)%nat -> (k < fuel + j)%nat -> inflow_loop g fuel j (IState n ms [] None) = UB).
  { induction fuel as [|f IH]; intros j Hj Hf; [lia|]. cbn [inflow_loop icount]. destruct (Nat.ltb_spec j n); [|lia].
    destruct (Nat.eq_dec j k) as [->|N]; [now rewrite OK1|]. destruct (O j) as [-> | ->]; [apply IH; lia|reflexivity]. }
  apply L; lia.
Qed.
Print Assumptions C76_full_array_refuted.

(** ** A case: a box of two cells of width 2; markers 0 and 1 entered from the west,
    marker 2 from the east, marker 3 is inactive and recycled. *)
Definition ex_strip : strip := Strip 0 4 1 5.
Definition ex_before (k : nat) : inp :=
  match k with 0 => Inp (1 / 2) 0 3 0 10 | 1 => Inp (3 / 4) 1 4 0 11 | 2 => Inp (7 / 2) 2 5 0 12 | _ => Inp (-1) 0 (-1) 0 0 end.
Definition ex_after (k : nat) : inp :=
  match k with 0 => Inp (3 / 2) 0 3 1 10 | 1 => Inp (7 / 4) 1 4 1 11 | 2 => Inp (5 / 2) 2 5 1 12 | _ => Inp (-1) 0 (-1) 0 0 end.

Lemma ex_tags : forall k, (k < 4)%nat -> itag (ex_after k) = itag (tag_marker ex_strip (ex_before k)).
Proof.
  assert (B : forall a x b, a <= x <= b -> between a x b = true) by (intros; now apply between_spec).
  intros k Hk. destruct k as [|[|[|[|k]]]]; [| | | |lia]; unfold tag_marker; cbn [ex_before ex_after ex_strip itag iph ix xw xe half Z.eqb negb andb]; try reflexivity.
  - rewrite (B 0 (1 / 2) (0 + 1)) by lra. reflexivity.
  - rewrite (B 0 (3 / 4) (0 + 1)) by lra. reflexivity.
  - rewrite (B (4 - 1) (7 / 2) 4) by lra. now rewrite orb_true_r.
Qed.

Lemma ex_entered : forall k, In k [0; 1; 2]%nat <-> (k < 4)%nat /\ entered ex_strip (ex_before k) (ex_after k).
Proof.
  intros k. split.
  - intros H. assert (Hk : (k < 4)%nat) by (cbn in H; lia). split; [exact Hk|].
    destruct H as [<-|[<-|[<-|[]]]]; unfold entered, near_side, second_west, second_east; cbn;
      (split; [discriminate|]; split; [lra|]; split; [discriminate|]; lra).
  - intros (Hk & (A & _)). destruct k as [|[|[|k]]]; cbn; try lia. exfalso. now apply A.
Qed.

Example C76_ex : exists st W' S, inflow (Strip 0 4 1 6) 4 ex_after = Done st /\ icount st = 6%nat /\
  length W' = 3%nat /\ length S = 3%nat /\
  (forall q, (q < 3)%nat -> copy_of ex_strip (ex_after (nth q W' 0%nat)) (iarr st (nth q S 0%nat))).
Proof.
  assert (OK : strip_ok (Strip 0 4 1 6)) by (split; cbn; lra).
  destruct (C76_inflow (Strip 0 4 1 6) 4 ex_before ex_after [0; 1; 2]%nat [3]%nat OK) as (st & W' & S & E & C & _ & WW & NW & NS & LS & CP & _).
  - exact ex_tags.
  - repeat (constructor; [cbn; lia|]). constructor.
  - exact ex_entered.
  - constructor; [easy|constructor].
  - intros k. split; [intros [<-|[]]; split; [lia|reflexivity]|]. intros (Hk & Hp). destruct k as [|[|[|k]]]; cbn in *; try discriminate. lia.
  - intros k [<-|[<-|[<-|[]]]]; cbn; lra.
  - cbn. lia.
  - exists st, W', S. split; [exact E|]. split; [exact C|].
    assert (LW : length W' = 3%nat).
    { change 3%nat with (length [0; 1; 2]%nat). apply Nat.le_antisymm; apply NoDup_incl_length; try assumption.
      - intros k Hk. now apply WW.
      - repeat (constructor; [cbn; lia|]). constructor.
      - intros k Hk. now apply WW. }
    split; [exact LW|]. split; [congruence|]. intros q Hq. rewrite <- LW in Hq. destruct (CP q Hq) as (_ & CO & _). exact CO.
Qed.

(** With one slot fewer the last copy overwrites the one before it: nobody is told, and
    the copy of marker 1 is lost. *)
Theorem C76_overwrite_refuted : exists g n ms0 ms st, strip_ok g /\
  (forall k, (k < n)%nat -> itag (ms k) = itag (tag_marker g (ms0 k))) /\
  (1 < n)%nat /\ entered g (ms0 1%nat) (ms 1%nat) /\
  inflow g n ms = Done st /\ icount st = imax g /\
  forall j, (j < icount st)%nat -> ~ copy_of g (ms 1%nat) (iarr st j).
Proof.
  exists ex_strip, 4%nat, ex_before, ex_after.
  assert (BT : forall a x b, a <= x <= b -> between a x b = true) by (intros; now apply between_spec).
  assert (BF : forall a x b, x < a \/ b < x -> between a x b = false).
  { intros a x b H. apply not_true_iff_false. intros K. apply between_spec in K. lra. }
  assert (ST : forall st k, inflow_one ex_strip k st =
    if negb (iph (iarr st k) =? -1)%Z && (itag (iarr st k) =? 1)%Z then
      match (if between 1 (ix (iarr st k)) 2 then add_copy ex_strip (- 1) k st else Done st) with
      | Done st1 => if between 2 (ix (iarr st1 k)) 3 then add_copy ex_strip 1 k st1 else Done st1 | Exits c => Exits c | UB => UB end
    else Done st).
  { intros st k. unfold inflow_one. cbn [ex_strip xw xe half]. replace (0 + 1) with 1 by lra. replace (1 + 1) with 2 by lra.
    replace (4 - 1) with 3 by lra. replace (3 - 1) with 2 by lra. reflexivity. }
  set (a0 := nupd (nupd ex_after 0 (Inp (3 / 2) 0 3 2 10)) 3 (Inp (3 / 2 + - 1) 0 3 0 10)).
  set (a1 := nupd (nupd a0 1 (Inp (7 / 4) 1 4 2 11)) 4 (Inp (7 / 4 + - 1) 1 4 0 11)).
  set (a2 := nupd (nupd a1 2 (Inp (5 / 2) 2 5 2 12)) 4 (Inp (5 / 2 + 1) 2 5 0 12)).
  exists (IState 5 a2 [] (Some 4%nat)).
  split; [split; cbn; lra|]. split; [exact ex_tags|]. split; [lia|]. split; [apply ex_entered; cbn; tauto|]. split; [|split; [reflexivity|]].
  - assert (E0 : inflow_one ex_strip 0 (IState 4 ex_after (reusable 4 ex_after) None) = Done (IState 4 a0 [] (Some 3%nat))).
    { rewrite ST. cbn [iarr ex_after iph itag ix Z.eqb negb andb Pos.eqb]. rewrite BT by lra.
      change (add_copy ex_strip (- 1) 0 (IState 4 ex_after (reusable 4 ex_after) None)) with (Done (IState 4 a0 [] (Some 3%nat))).
      cbn [iarr]. change (ix (a0 0%nat)) with (3 / 2). rewrite BF by lra. reflexivity. }
    assert (E1 : inflow_one ex_strip 1 (IState 4 a0 [] (Some 3%nat)) = Done (IState 5 a1 [] (Some 4%nat))).
    { rewrite ST. cbn [iarr]. change (a0 1%nat) with (Inp (7 / 4) 1 4 1 11). cbn [iph itag ix Z.eqb negb andb Pos.eqb]. rewrite BT by lra.
      change (add_copy ex_strip (- 1) 1 (IState 4 a0 [] (Some 3%nat))) with (Done (IState 5 a1 [] (Some 4%nat))).
      cbn [iarr]. change (ix (a1 1%nat)) with (7 / 4). rewrite BF by lra. reflexivity. }
    assert (E2 : inflow_one ex_strip 2 (IState 5 a1 [] (Some 4%nat)) = Done (IState 5 a2 [] (Some 4%nat))).
    { rewrite ST. cbn [iarr]. change (a1 2%nat) with (Inp (5 / 2) 2 5 1 12). cbn [iph itag ix Z.eqb negb andb Pos.eqb]. rewrite BF by lra.
      cbn [iarr]. change (a1 2%nat) with (Inp (5 / 2) 2 5 1 12). cbn [ix]. rewrite BT by lra. reflexivity. }
    unfold inflow. cbn [ex_strip imax inflow_loop icount Nat.ltb Nat.leb]. fold ex_strip. change (Strip 0 4 1 5) with ex_strip.
    rewrite E0. cbn [icount Nat.ltb Nat.leb]. rewrite E1. cbn [icount Nat.ltb Nat.leb]. rewrite E2. cbn [icount Nat.ltb Nat.leb].
    assert (E3 : inflow_one ex_strip 3 (IState 5 a2 [] (Some 4%nat)) = Done (IState 5 a2 [] (Some 4%nat))) by (rewrite ST; reflexivity).
    assert (E4 : inflow_one ex_strip 4 (IState 5 a2 [] (Some 4%nat)) = Done (IState 5 a2 [] (Some 4%nat))) by (rewrite ST; reflexivity).
    rewrite E3. cbn [icount Nat.ltb Nat.leb]. rewrite E4. reflexivity.
  - cbn [icount iarr]. intros j Hj (Cz & Cp & Cv & Cx). destruct j as [|[|[|[|[|j]]]]]; [| | | | |lia]; cbn in Cz, Cp, Cv, Cx; try discriminate.
    unfold second_west, second_east in Cx. cbn in Cx. lra.
Qed.
Print Assumptions C76_overwrite_refuted.
