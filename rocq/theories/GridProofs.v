(** Lemmas about loops of assignments, grid numbering, averaging, coordinates. *)
From Coq Require Import List ZArith Reals Bool Arith Lia Lra.
Import ListNotations.
From Verif Require Import GridModel.

(** ** Loops *)

Lemma upd_same {A} (a : nat -> A) i v : upd a i v i = v.
Proof. unfold upd. now rewrite Nat.eqb_refl. Qed.

Lemma upd_other {A} (a : nat -> A) i v j : j <> i -> upd a i v j = a j.
Proof. intros H. unfold upd. now rewrite (proj2 (Nat.eqb_neq j i) H). Qed.

Lemma loop_ind {S} (P : nat -> S -> Prop) body : forall n a s,
  P a s -> (forall i s, a <= i < a + n -> P i s -> P (1 + i) (body s i)) ->
  P (a + n) (loop a n body s).
Proof.
  induction n as [|n IH]; intros a s H0 Hs; unfold loop; cbn.
  - now rewrite Nat.add_0_r.
  - replace (a + Datatypes.S n) with (Datatypes.S a + n) by lia. apply (IH (Datatypes.S a)).
    + apply Hs; [lia|exact H0].
    + intros i s' Hi. apply Hs. lia.
Qed.

Lemma loop_ext {S} (f g : S -> nat -> S) : forall n a s,
  (forall i s, a <= i < a + n -> f s i = g s i) -> loop a n f s = loop a n g s.
Proof.
  induction n as [|n IH]; intros a s H; [reflexivity|].
  unfold loop in *. cbn. rewrite (H a s) by lia. apply IH. intros. apply H. lia.
Qed.

Lemma loop_S {S} (f : S -> nat -> S) n a s : loop a (1 + n) f s = f (loop a n f s) (a + n).
Proof. unfold loop. rewrite seq_S, fold_left_app. reflexivity. Qed.

(** A loop writing values that do not depend on the array. *)
Lemma loop_write {A} (dst : nat -> nat) (val : nat -> A) a n t :
  (forall i j, a <= i < a + n -> a <= j < a + n -> dst i = dst j -> i = j) ->
  let t' := loop a n (fun t k => upd t (dst k) (val k)) t in
  (forall i, a <= i < a + n -> t' (dst i) = val i) /\
  (forall j, (forall i, a <= i < a + n -> j <> dst i) -> t' j = t j).
Proof.
  intros Hinj t'.
  assert (H : (forall i, a <= i < a + n -> t' (dst i) = val i) /\
              (forall j, (forall i, a <= i < a + n -> j <> dst i) -> t' j = t j)).
  2: exact H.
  subst t'.
  apply (loop_ind (fun m t' => m <= a + n ->
    (forall i, a <= i < m -> t' (dst i) = val i) /\
    (forall j, (forall i, a <= i < m -> j <> dst i) -> t' j = t j))); [|intros m s Hm IH Hle|lia].
  - intros _. split; [intros; lia|reflexivity].
  - destruct (IH ltac:(lia)) as [I1 I2]. split.
    + intros i Hi. destruct (Nat.eq_dec i m) as [->|Hn]; [apply upd_same|].
      rewrite upd_other; [apply I1; lia|]. intros E. apply Hn, Hinj; lia || exact E.
    + intros j Hj. rewrite upd_other by (apply Hj; lia). apply I2. intros i Hi. apply Hj. lia.
Qed.

(** A loop of copies whose sources are not among its destinations. *)
Lemma loop_copy {A} (dst src : nat -> nat) a n (t : nat -> A) :
  (forall i j, a <= i < a + n -> a <= j < a + n -> dst i = dst j -> i = j) ->
  (forall i j, a <= i < a + n -> a <= j < a + n -> src i <> dst j) ->
  let t' := loop a n (fun t k => copy t (dst k) (src k)) t in
  (forall i, a <= i < a + n -> t' (dst i) = t (src i)) /\
  (forall j, (forall i, a <= i < a + n -> j <> dst i) -> t' j = t j).
Proof.
  intros Hinj Hsep t'.
  assert (H : (forall i, a <= i < a + n -> t' (dst i) = t (src i)) /\
              (forall j, (forall i, a <= i < a + n -> j <> dst i) -> t' j = t j)).
  2: exact H.
  subst t'.
  apply (loop_ind (fun m t' => m <= a + n ->
    (forall i, a <= i < m -> t' (dst i) = t (src i)) /\
    (forall j, (forall i, a <= i < m -> j <> dst i) -> t' j = t j))); [|intros m s Hm IH Hle|lia].
  - intros _. split; [intros; lia|reflexivity].
  - destruct (IH ltac:(lia)) as [I1 I2]. unfold copy. split.
    + intros i Hi. destruct (Nat.eq_dec i m) as [->|Hn].
      * rewrite upd_same. apply I2. intros i Hi'. apply Hsep; lia.
      * rewrite upd_other; [apply I1; lia|]. intros E. apply Hn, Hinj; lia || exact E.
    + intros j Hj. rewrite upd_other by (apply Hj; lia). apply I2. intros i Hi. apply Hj. lia.
Qed.

(** A double loop writing, under a condition, values not read from the array. *)
Lemma loop2_write_if {A} (dst : nat -> nat -> nat) (val : nat -> nat -> A) (cond : nat -> nat -> bool)
  n m t :
  (forall i j i' j', i < n -> j < m -> i' < n -> j' < m -> dst i j = dst i' j' -> i = i' /\ j = j') ->
  let t' := loop 0 n (fun t k => loop 0 m (fun t l =>
              if cond k l then upd t (dst k l) (val k l) else t) t) t in
  (forall i j, i < n -> j < m -> t' (dst i j) = if cond i j then val i j else t (dst i j)) /\
  (forall q, (forall i j, i < n -> j < m -> q <> dst i j) -> t' q = t q).
Proof.
  intros Hinj t'.
  assert (H : forall q,
    (forall i j, i < n -> j < m -> q = dst i j -> t' q = if cond i j then val i j else t (dst i j)) /\
    ((forall i j, i < n -> j < m -> q <> dst i j) -> t' q = t q)).
  2:{ split; [intros i j Hi Hj; now apply (H (dst i j))|intros q; apply H]. }
  intros q. subst t'.
  set (body := fun t k => loop 0 m (fun t l => if cond k l then upd t (dst k l) (val k l) else t) t).
  pose proof (loop_ind (fun p t' => p <= n ->
    (forall i j, i < p -> j < m -> q = dst i j -> t' q = if cond i j then val i j else t (dst i j)) /\
    ((forall i j, i < p -> j < m -> q <> dst i j) -> t' q = t q)) body n 0 t) as M.
  cbv beta in M. apply M; clear M; [|intros p s Hp IH Hle; unfold body|lia].
  - intros _. split; [intros; lia|reflexivity].
  - destruct (IH ltac:(lia)) as [I1 I2]. clear IH.
    pose proof (loop_ind (fun r t' => r <= m ->
      (forall i j, (i < p /\ j < m) \/ (i = p /\ j < r) -> q = dst i j ->
         t' q = if cond i j then val i j else t (dst i j)) /\
      ((forall i j, (i < p /\ j < m) \/ (i = p /\ j < r) -> q <> dst i j) -> t' q = t q))
      (fun t l => if cond p l then upd t (dst p l) (val p l) else t) m 0 s) as L.
    cbv beta in L. destruct L as [L1 L2]; [| |lia|].
    + intros _. split.
      * intros i j [[Hi Hj]|[_ Hj]]; [now apply I1|lia].
      * intros Hq. apply I2. intros i j Hi Hj. apply Hq. left. lia.
    + intros r s' Hr IH Hr'. destruct (IH ltac:(lia)) as [K1 K2]. clear IH. split.
      * intros i j Hij E. destruct (Nat.eq_dec i p) as [->|Hn]; [destruct (Nat.eq_dec j r) as [->|Hn]|].
        -- destruct (cond p r); [rewrite E; apply upd_same|].
           rewrite <- E. apply K2. intros i j Hij' E'. rewrite E in E'.
           destruct (Hinj p r i j) as [<- <-]; lia.
        -- rewrite <- (K1 p j) by (lia || exact E).
           destruct (cond p r); [|reflexivity]. apply upd_other. rewrite E. intros E'.
           destruct (Hinj p j p r); lia || exact E'.
        -- rewrite <- (K1 i j) by (lia || exact E).
           destruct (cond p r); [|reflexivity]. apply upd_other. rewrite E. intros E'.
           destruct (Hinj i j p r); lia || exact E'.
      * intros Hq. rewrite <- K2; [|intros i j Hij; apply Hq; lia].
        destruct (cond p r); [|reflexivity]. apply upd_other. apply Hq. lia.
    + split.
      * intros i j Hi Hj. apply L1. lia.
      * intros Hq. apply L2. intros i j Hij. apply Hq; lia.
Qed.

Lemma loop2_write {A} (dst : nat -> nat -> nat) (val : nat -> nat -> A) n m t :
  (forall i j i' j', i < n -> j < m -> i' < n -> j' < m -> dst i j = dst i' j' -> i = i' /\ j = j') ->
  let t' := loop 0 n (fun t k => loop 0 m (fun t l => upd t (dst k l) (val k l)) t) t in
  (forall i j, i < n -> j < m -> t' (dst i j) = val i j) /\
  (forall q, (forall i j, i < n -> j < m -> q <> dst i j) -> t' q = t q).
Proof. intros H. apply (loop2_write_if dst val (fun _ _ => true) n m t H). Qed.

(** Flat indices determine row and column. *)
Lemma flat_inj w i j i' j' : i < w -> i' < w -> i + j * w = i' + j' * w -> i = i' /\ j = j'.
Proof.
  intros Hi Hi' E.
  assert (j = j'); [|subst; lia].
  destruct (Nat.lt_trichotomy j j') as [L|[L|L]]; [|exact L|]; nia.
Qed.

Lemma flat_lt n1 n2 k l : k < n1 -> l < n2 -> k + l * n1 < n1 * n2.
Proof. nia. Qed.

Lemma flat_surj n1 n2 c : c < n1 * n2 ->
  exists k l, k < n1 /\ l < n2 /\ c = k + l * n1.
Proof.
  intros H. assert (n1 <> 0) by lia. exists (c mod n1), (c / n1).
  repeat split; [now apply Nat.mod_upper_bound|apply Nat.div_lt_upper_bound; lia|].
  pose proof (Nat.div_mod c n1). lia.
Qed.

(** ** Numbering tables *)

Lemma loop_pair {A B} (f : A -> nat -> A) (g : B -> nat -> B) : forall n a t,
  loop a n (fun t k => (f (fst t) k, g (snd t) k)) t = (loop a n f (fst t), loop a n g (snd t)).
Proof.
  induction n as [|n IH]; intros a t; [now destruct t|].
  unfold loop in *. cbn. rewrite IH. reflexivity.
Qed.

Lemma fill_indices_spec n1 n2 t :
  let t' := fill_indices n1 n2 t in
  (forall k l, k < n1 -> l < n2 ->
     fst t' (k + l * n1) = Z.of_nat k /\ snd t' (k + l * n1) = Z.of_nat l) /\
  (forall c, n1 * n2 <= c -> fst t' c = fst t c /\ snd t' c = snd t c).
Proof.
  unfold fill_indices.
  set (f := fun (t : nat -> Z) l => loop 0 n1 (fun t k => upd t (k + l * n1) (Z.of_nat k)) t).
  set (g := fun (t : nat -> Z) l => loop 0 n1 (fun t k => upd t (k + l * n1) (Z.of_nat l)) t).
  rewrite (loop_ext _ (fun t l => (f (fst t) l, g (snd t) l))).
  2:{ intros l s _. exact (loop_pair (fun t k => upd t (k + l * n1) (Z.of_nat k))
                                     (fun t k => upd t (k + l * n1) (Z.of_nat l)) n1 0 s). }
  rewrite loop_pair. cbn [fst snd]. unfold f, g.
  assert (Hinj : forall i j i' j', i < n2 -> j < n1 -> i' < n2 -> j' < n1 ->
    j + i * n1 = j' + i' * n1 -> i = i' /\ j = j').
  { intros i j i' j' Hi Hj Hi' Hj' E. destruct (flat_inj _ _ _ _ _ Hj Hj' E). now split. }
  destruct (loop2_write (fun l k => k + l * n1) (fun l k => Z.of_nat k) n2 n1 (fst t) Hinj) as [A1 A2].
  destruct (loop2_write (fun l k => k + l * n1) (fun l k => Z.of_nat l) n2 n1 (snd t) Hinj) as [B1 B2].
  split.
  - intros k l Hk Hl. split; [now apply (A1 l k)|now apply (B1 l k)].
  - intros c Hc. split; [apply A2|apply B2]; intros i j Hi Hj E; subst; pose proof (flat_lt n1 n2 j i Hj Hi); lia.
Qed.

(** ** Averaging *)

(** Specification: the cell whose value a ghost or inner position of the
    enlarged array stands for. Column [i] = 0 is the western ghost column. *)
Definition cell_x (per : bool) (Ncx i : nat) : nat :=
  if Nat.eqb i 0 then (if per then Ncx - 1 else 0)
  else if Nat.eqb i (Ncx + 1) then (if per then 0 else Ncx - 1)
  else i - 1.
Definition cell_z (Ncz j : nat) : nat :=
  if Nat.eqb j 0 then 0 else if Nat.eqb j (Ncz + 1) then Ncz - 1 else j - 1.

Lemma loop_copy2 {A} w (di dj si sj : nat -> nat) a n (t : nat -> A) :
  (forall k, a <= k < a + n -> di k < w /\ si k < w) ->
  (forall i j, a <= i < a + n -> a <= j < a + n -> di i = di j -> dj i = dj j -> i = j) ->
  (forall i j, a <= i < a + n -> a <= j < a + n -> si i = di j -> sj i = dj j -> False) ->
  let t' := loop a n (fun t k => copy t (di k + dj k * w) (si k + sj k * w)) t in
  (forall k, a <= k < a + n -> t' (di k + dj k * w) = t (si k + sj k * w)) /\
  (forall i j, i < w -> (forall k, a <= k < a + n -> i = di k -> j = dj k -> False) ->
     t' (i + j * w) = t (i + j * w)).
Proof.
  intros Hw Hinj Hsep.
  destruct (loop_copy (fun k => di k + dj k * w) (fun k => si k + sj k * w) a n t) as [H1 H2].
  - intros i j Hi Hj E. destruct (Hw i Hi), (Hw j Hj).
    apply flat_inj in E as [E1 E2]; auto.
  - intros i j Hi Hj E. destruct (Hw i Hi), (Hw j Hj).
    apply flat_inj in E as [E1 E2]; eauto.
  - split; [exact H1|]. intros i j Hi Hk. apply H2. intros k Hr E. destruct (Hw k Hr).
    apply flat_inj in E as [E1 E2]; eauto.
Qed.

Lemma copy_at2 {A} w (t : nat -> A) i0 j0 c i j : i < w -> i0 < w ->
  copy t (i0 + j0 * w) c (i + j * w) =
  if (Nat.eqb i i0 && Nat.eqb j j0)%bool then t c else t (i + j * w).
Proof.
  intros Hi Hi0. unfold copy.
  destruct (Nat.eqb_spec i i0) as [->|N]; [destruct (Nat.eqb_spec j j0) as [->|N]|]; cbn [andb].
  - apply upd_same.
  - apply upd_other. intros E. apply flat_inj in E as [_ E]; auto.
  - apply upd_other. intros E. apply flat_inj in E as [E _]; auto.
Qed.

Lemma interior_spec {A} Ncx Ncz (C : nat -> A) t i j :
  1 <= i <= Ncx -> 1 <= j <= Ncz ->
  fill_interior Ncx Ncz C t (i + j * (Ncx + 2)) = C (i - 1 + (j - 1) * Ncx).
Proof.
  intros Hi Hj. unfold fill_interior.
  destruct (loop2_write (fun k l => k + (l + 1) * (Ncx + 2) + 1) (fun k l => C (k + l * Ncx)) Ncx Ncz t) as [H _].
  - intros a b a' b' Ha Hb Ha' Hb' E.
    destruct (flat_inj (Ncx + 2) (a + 1) (b + 1) (a' + 1) (b' + 1)); lia.
  - rewrite <- (H (i - 1) (j - 1)) by lia. f_equal.
    replace (j - 1 + 1) with j by lia. lia.
Qed.

Lemma swell_spec {A} per Ncx Ncz (z : A) C i j : 1 <= Ncx -> 1 <= Ncz ->
  i <= Ncx + 1 -> j <= Ncz + 1 ->
  swell per Ncx Ncz z C (i + j * (Ncx + 2)) = C (cell_x per Ncx i + cell_z Ncz j * Ncx).
Proof.
  intros Hx Hz Hi Hj. unfold swell.
  set (t0 := fill_interior Ncx Ncz C (fun _ => z)).
  assert (T0 : forall i j, 1 <= i <= Ncx -> 1 <= j <= Ncz ->
    t0 (i + j * (Ncx + 2)) = C (cell_x per Ncx i + cell_z Ncz j * Ncx)).
  { intros i' j' Hi' Hj'. unfold t0. rewrite interior_spec by assumption.
    unfold cell_x, cell_z.
    rewrite (proj2 (Nat.eqb_neq i' 0)), (proj2 (Nat.eqb_neq i' (Ncx + 1))),
      (proj2 (Nat.eqb_neq j' 0)), (proj2 (Nat.eqb_neq j' (Ncz + 1))) by lia. reflexivity. }
  clearbody t0. unfold fill_sides. set (w := Ncx + 2) in *.
  destruct (loop_copy2 w (fun k => k) (fun _ => 0) (fun k => k) (fun _ => 1) 1 Ncx t0) as [S1 S2];
    [intros; unfold w; lia|intros; lia|intros; lia|].
  set (t1 := loop 1 Ncx _ t0) in *.
  destruct (loop_copy2 w (fun k => k) (fun _ => Ncz + 1) (fun k => k) (fun _ => Ncz) 1 Ncx t1) as [N1 N2];
    [intros; unfold w; lia|intros; lia|intros; lia|].
  set (t2 := loop 1 Ncx _ t1) in *.
  destruct (loop_copy2 w (fun _ => 0) (fun l => l) (fun _ => if per then Ncx + 2 - 1 - 1 else 1) (fun l => l) 1 Ncz t2) as [W1 W2];
    [intros; unfold w; destruct per; lia|intros; lia|intros; destruct per; lia|].
  set (t3 := loop 1 Ncz _ t2) in *.
  destruct (loop_copy2 w (fun _ => Ncx + 1) (fun l => l) (fun _ => if per then 1 else Ncx) (fun l => l) 1 Ncz t3) as [E1 E2];
    [intros; unfold w; destruct per; lia|intros; lia|intros; destruct per; lia|].
  set (t4 := loop 1 Ncz _ t3) in *.
  (* values after the side loops, everywhere but at the corners *)
  assert (T1 : forall i j, 1 <= i <= Ncx -> 0 <= j <= Ncz ->
    t1 (i + j * w) = C (cell_x per Ncx i + cell_z Ncz j * Ncx)).
  { intros i' j' Hi' Hj'. destruct (Nat.eq_dec j' 0) as [->|Hn].
    - rewrite S1 by lia. rewrite T0 by lia. do 2 f_equal. unfold cell_z.
      destruct (Nat.eqb_spec 1 0); [lia|]. destruct (Nat.eqb_spec 1 (Ncz + 1)); [lia|].
      destruct (Nat.eqb_spec 0 0); lia.
    - rewrite S2 by (unfold w; lia). apply T0; lia. }
  assert (T2 : forall i j, 1 <= i <= Ncx -> 0 <= j <= Ncz + 1 ->
    t2 (i + j * w) = C (cell_x per Ncx i + cell_z Ncz j * Ncx)).
  { intros i' j' Hi' Hj'. destruct (Nat.eq_dec j' (Ncz + 1)) as [->|Hn].
    - rewrite N1 by lia. rewrite T1 by lia. do 2 f_equal. unfold cell_z.
      destruct (Nat.eqb_spec Ncz 0); [lia|]. destruct (Nat.eqb_spec Ncz (Ncz + 1)); [lia|].
      destruct (Nat.eqb_spec (Ncz + 1) 0); [lia|]. destruct (Nat.eqb_spec (Ncz + 1) (Ncz + 1)); lia.
    - rewrite N2 by (unfold w; lia). apply T1; lia. }
  assert (T3 : forall i j, i <= Ncx -> 0 <= j <= Ncz + 1 -> (i = 0 -> 1 <= j <= Ncz) ->
    t3 (i + j * w) = C (cell_x per Ncx i + cell_z Ncz j * Ncx)).
  { intros i' j' Hi' Hj' Hc. destruct (Nat.eq_dec i' 0) as [->|Hn].
    - rewrite W1 by lia. rewrite T2 by (destruct per; lia). do 2 f_equal. unfold cell_x.
      destruct (Nat.eqb_spec 0 0); [|lia].
      destruct per.
      + destruct (Nat.eqb_spec (Ncx + 2 - 1 - 1) 0); [lia|].
        destruct (Nat.eqb_spec (Ncx + 2 - 1 - 1) (Ncx + 1)); lia.
      + destruct (Nat.eqb_spec 1 0); [lia|]. destruct (Nat.eqb_spec 1 (Ncx + 1)); lia.
    - rewrite W2 by (unfold w; lia). apply T2; lia. }
  assert (T4 : forall i j, i <= Ncx + 1 -> 0 <= j <= Ncz + 1 -> (i = 0 \/ i = Ncx + 1 -> 1 <= j <= Ncz) ->
    t4 (i + j * w) = C (cell_x per Ncx i + cell_z Ncz j * Ncx)).
  { intros i' j' Hi' Hj' Hc. destruct (Nat.eq_dec i' (Ncx + 1)) as [->|Hn].
    - rewrite E1 by lia. rewrite T3 by (destruct per; lia). do 2 f_equal. unfold cell_x.
      destruct (Nat.eqb_spec (Ncx + 1) 0); [lia|]. destruct (Nat.eqb_spec (Ncx + 1) (Ncx + 1)); [|lia].
      destruct per.
      + destruct (Nat.eqb_spec 1 0); [lia|]. destruct (Nat.eqb_spec 1 (Ncx + 1)); lia.
      + destruct (Nat.eqb_spec Ncx 0); [lia|]. destruct (Nat.eqb_spec Ncx (Ncx + 1)); lia.
    - rewrite E2 by (unfold w; lia). apply T3; lia. }
  clearbody t4. clear t1 t2 t3 S1 S2 N1 N2 W1 W2 E1 E2 T1 T2 T3 T0 t0.
  unfold fill_corners. fold w.
  assert (HW : Ncx + 1 < w) by (unfold w; lia). assert (HW0 : 0 < w) by lia.
  assert (Hiw : i < w) by lia.
  assert (X0 : cell_x per Ncx 0 = (if per then Ncx - 1 else 0)) by reflexivity.
  assert (XN : cell_x per Ncx (Ncx + 1) = (if per then 0 else Ncx - 1)).
  { unfold cell_x. destruct (Nat.eqb_spec (Ncx + 1) 0); [lia|]. now rewrite Nat.eqb_refl. }
  assert (Z0 : cell_z Ncz 0 = cell_z Ncz 1).
  { unfold cell_z. rewrite (proj2 (Nat.eqb_neq 1 (Ncz + 1))) by lia. reflexivity. }
  assert (ZN : cell_z Ncz (Ncz + 1) = cell_z Ncz Ncz).
  { unfold cell_z. rewrite Nat.eqb_refl. destruct (Nat.eqb_spec (Ncz + 1) 0); [lia|].
    destruct (Nat.eqb_spec Ncz 0); [lia|]. destruct (Nat.eqb_spec Ncz (Ncz + 1)); lia. }
  assert (X1 : per = false -> cell_x per Ncx 1 = 0).
  { intros ->. unfold cell_x. rewrite (proj2 (Nat.eqb_neq 1 (Ncx + 1))) by lia. reflexivity. }
  assert (XM : per = false -> cell_x per Ncx Ncx = Ncx - 1).
  { intros ->. unfold cell_x. destruct (Nat.eqb_spec Ncx 0); [lia|].
    destruct (Nat.eqb_spec Ncx (Ncx + 1)); lia. }
  (* each corner copy in turn *)
  set (u1 := copy t4 (0 + 0 * w) _).
  assert (U1 : forall i j, i <= Ncx + 1 -> 0 <= j <= Ncz + 1 -> (i = Ncx + 1 \/ (i = 0 /\ j <> 0) -> 1 <= j <= Ncz) ->
    u1 (i + j * w) = C (cell_x per Ncx i + cell_z Ncz j * Ncx)).
  { intros i' j' Hi' Hj' Hc. unfold u1. rewrite copy_at2 by lia.
    destruct (Nat.eqb_spec i' 0) as [->|Hn]; [destruct (Nat.eqb_spec j' 0) as [->|Hn]|]; cbn [andb].
    - destruct per; rewrite T4 by lia; [now rewrite Z0|]. now rewrite Z0, X1, X0.
    - apply T4; lia.
    - apply T4; lia. }
  clearbody u1. clear T4 t4.
  set (u2 := copy u1 (Ncx + 1 + 0 * w) _).
  assert (U2 : forall i j, i <= Ncx + 1 -> 0 <= j <= Ncz + 1 -> (i = Ncx + 1 \/ i = 0 -> j <= Ncz) ->
    u2 (i + j * w) = C (cell_x per Ncx i + cell_z Ncz j * Ncx)).
  { intros i' j' Hi' Hj' Hc. unfold u2. rewrite copy_at2 by lia.
    destruct (Nat.eqb_spec i' (Ncx + 1)) as [->|Hn]; [destruct (Nat.eqb_spec j' 0) as [->|Hn]|]; cbn [andb].
    - destruct per; rewrite U1 by lia; [now rewrite Z0|]. now rewrite Z0, XM, XN.
    - apply U1; lia.
    - apply U1; lia. }
  clearbody u2. clear U1 u1.
  set (u3 := copy u2 (0 + (Ncz + 1) * w) _).
  assert (U3 : forall i j, i <= Ncx + 1 -> 0 <= j <= Ncz + 1 -> (i = Ncx + 1 -> j <= Ncz) ->
    u3 (i + j * w) = C (cell_x per Ncx i + cell_z Ncz j * Ncx)).
  { intros i' j' Hi' Hj' Hc. unfold u3. rewrite copy_at2 by lia.
    destruct (Nat.eqb_spec i' 0) as [->|Hn]; [destruct (Nat.eqb_spec j' (Ncz + 1)) as [->|Hn]|]; cbn [andb].
    - destruct per; rewrite U2 by lia; [now rewrite ZN|]. now rewrite ZN, X1, X0.
    - apply U2; lia.
    - apply U2; lia. }
  clearbody u3. clear U2 u2. rewrite copy_at2 by lia.
  destruct (Nat.eqb_spec i (Ncx + 1)) as [->|Hn]; [destruct (Nat.eqb_spec j (Ncz + 1)) as [->|Hn]|]; cbn [andb].
  - destruct per; rewrite U3 by lia; [now rewrite ZN|]. now rewrite ZN, XM, XN.
  - apply U3; lia.
  - apply U3; lia.
Qed.

(** Specification: columns and rows of the cells touching vertex [(k,l)]; a
    missing cell is replaced by the nearest one, or with lateral periodicity by
    the one on the other side. *)
Definition west_cell (per : bool) (Ncx k : nat) : nat :=
  match k with 0 => if per then Ncx - 1 else 0 | S k' => k' end.
Definition east_cell (per : bool) (Ncx k : nat) : nat :=
  if k <? Ncx then k else if per then 0 else Ncx - 1.
Definition south_cell (l : nat) : nat := match l with 0 => 0 | S l' => l' end.
Definition north_cell (Ncz l : nat) : nat := if l <? Ncz then l else Ncz - 1.

Definition active (ptype : nat -> Z) (c : nat) : R := if is_air (ptype c) then 0%R else 1%R.

Definition touching (per : bool) (Nx Nz k l : nat) : list nat :=
  let X := Nx - 1 in let Z := Nz - 1 in
  [west_cell per X k + south_cell l * X; east_cell per X k + south_cell l * X;
   west_cell per X k + north_cell Z l * X; east_cell per X k + north_cell Z l * X].

Lemma cell_x_west per N k : k <= N -> 1 <= N -> cell_x per N k = west_cell per N k.
Proof.
  intros H H1. unfold cell_x, west_cell. destruct k; [reflexivity|].
  rewrite (proj2 (Nat.eqb_neq (S k) (N + 1))) by lia. cbn. lia.
Qed.
Lemma cell_x_east per N k : k <= N -> 1 <= N -> cell_x per N (k + 1) = east_cell per N k.
Proof.
  intros H H1. unfold cell_x, east_cell. rewrite (proj2 (Nat.eqb_neq (k + 1) 0)) by lia.
  destruct (Nat.ltb_spec k N).
  - rewrite (proj2 (Nat.eqb_neq (k + 1) (N + 1))) by lia. lia.
  - rewrite (proj2 (Nat.eqb_eq (k + 1) (N + 1))) by lia. reflexivity.
Qed.
Lemma cell_z_south N l : l <= N -> 1 <= N -> cell_z N l = south_cell l.
Proof.
  intros H H1. unfold cell_z, south_cell. destruct l; [reflexivity|].
  rewrite (proj2 (Nat.eqb_neq (S l) (N + 1))) by lia. cbn. lia.
Qed.
Lemma cell_z_north N l : l <= N -> 1 <= N -> cell_z N (l + 1) = north_cell N l.
Proof.
  intros H H1. unfold cell_z, north_cell. rewrite (proj2 (Nat.eqb_neq (l + 1) 0)) by lia.
  destruct (Nat.ltb_spec l N).
  - rewrite (proj2 (Nat.eqb_neq (l + 1) (N + 1))) by lia. lia.
  - rewrite (proj2 (Nat.eqb_eq (l + 1) (N + 1))) by lia. reflexivity.
Qed.

Lemma touching_lt per Nx Nz k l c : 2 <= Nx -> 2 <= Nz -> k < Nx -> l < Nz ->
  In c (touching per Nx Nz k l) -> c < (Nx - 1) * (Nz - 1).
Proof.
  intros HX HZ Hk Hl. unfold touching.
  assert (west_cell per (Nx - 1) k < Nx - 1) by (unfold west_cell; destruct k, per; lia).
  assert (east_cell per (Nx - 1) k < Nx - 1).
  { unfold east_cell. destruct (Nat.ltb_spec k (Nx - 1)); destruct per; lia. }
  assert (south_cell l < Nz - 1) by (unfold south_cell; destruct l; lia).
  assert (north_cell (Nz - 1) l < Nz - 1).
  { unfold north_cell. destruct (Nat.ltb_spec l (Nz - 1)); lia. }
  cbn [In]. intros [<-|[<-|[<-|[<-|[]]]]]; apply flat_lt; assumption.
Qed.

Local Open Scope R_scope.

Definition Rsum (l : list R) : R := fold_right Rplus 0 l.

Lemma vertex_value_spec per Nx Nz C ptype gtype k l :
  (2 <= Nx)%nat -> (2 <= Nz)%nat -> (k < Nx)%nat -> (l < Nz)%nat ->
  vertex_value per Nx Nz C ptype gtype k l =
  if Z.eqb (gtype (k + l * Nx)%nat) 30 then 0
  else Rsum (map (fun c => active ptype c * C c) (touching per Nx Nz k l)) / 4.
Proof.
  intros HX HZ Hk Hl. unfold vertex_value.
  set (Ncx := (Nx - 1)%nat). set (Ncz := (Nz - 1)%nat).
  destruct (Z.eqb _ 30); [reflexivity|].
  replace (k + (l + 1) * (Ncx + 2) + 1 - 1 - (Ncx + 2))%nat with (k + l * (Ncx + 2))%nat by lia.
  replace (k + (l + 1) * (Ncx + 2) + 1 - 0 - (Ncx + 2))%nat with ((k + 1) + l * (Ncx + 2))%nat by lia.
  replace (k + (l + 1) * (Ncx + 2) + 1 - 1)%nat with (k + (l + 1) * (Ncx + 2))%nat by lia.
  replace (k + (l + 1) * (Ncx + 2) + 1 - 0)%nat with ((k + 1) + (l + 1) * (Ncx + 2))%nat by lia.
  replace (k + (l + 1) * (Ncx + 2) + 1)%nat with ((k + 1) + (l + 1) * (Ncx + 2))%nat by lia.
  assert (1 <= Ncx /\ 1 <= Ncz /\ k <= Ncx /\ l <= Ncz)%nat as (A & B & D & F) by (unfold Ncx, Ncz; lia).
  rewrite !swell_spec by lia.
  rewrite !cell_x_west, !cell_x_east, !cell_z_south, !cell_z_north by assumption.
  unfold touching, Rsum. fold Ncx Ncz. cbn [map fold_right]. unfold active, in_flag. lra.
Qed.

Lemma centres_to_vertices_spec per Nx Nz C ptype gtype V :
  let V' := centres_to_vertices per Nx Nz C ptype gtype V in
  (forall k l, (k < Nx)%nat -> (l < Nz)%nat ->
     V' (k + l * Nx)%nat = vertex_value per Nx Nz C ptype gtype k l) /\
  (forall c, (Nx * Nz <= c)%nat -> V' c = V c).
Proof.
  unfold centres_to_vertices.
  destruct (loop2_write (fun k l => k + l * Nx)%nat (vertex_value per Nx Nz C ptype gtype) Nx Nz V) as [A B].
  { intros i j i' j' Hi Hj Hi' Hj' E. now apply (flat_inj Nx). }
  split; [exact A|]. intros c Hc. apply B. intros i j Hi Hj ->.
  pose proof (flat_lt Nx Nz i j Hi Hj). lia.
Qed.

Lemma vertices_to_centres_spec Nx Nz V ptype C :
  let C' := vertices_to_centres Nx Nz V ptype C in
  (forall k l, (k < Nx - 1)%nat -> (l < Nz - 1)%nat ->
     let c := (k + l * (Nx - 1))%nat in
     C' c = if is_air (ptype c) then C c else
       (V (k + l * Nx)%nat + V (k + 1 + l * Nx)%nat + V (k + (l + 1) * Nx)%nat + V (k + 1 + (l + 1) * Nx)%nat) / 4) /\
  (forall c, ((Nx - 1) * (Nz - 1) <= c)%nat -> C' c = C c).
Proof.
  unfold vertices_to_centres. set (Ncx := (Nx - 1)%nat). set (Ncz := (Nz - 1)%nat).
  destruct (loop2_write_if (fun k l => k + l * Ncx)%nat
    (fun k l => 0.25 * (V (k + l * Nx)%nat + V (k + l * Nx + 1)%nat + V (k + l * Nx + Nx)%nat + V (k + l * Nx + 1 + Nx)%nat))
    (fun k l => negb (Z.eqb (ptype (k + l * Ncx)%nat) 30) && negb (Z.eqb (ptype (k + l * Ncx)%nat) 31))
    Ncx Ncz C) as [A B].
  { intros i j i' j' Hi Hj Hi' Hj' E. now apply (flat_inj Ncx). }
  split.
  - intros k l Hk Hl. cbv zeta. rewrite A by assumption. unfold is_air.
    destruct (Z.eqb _ 30); [reflexivity|]. destruct (Z.eqb _ 31); [reflexivity|]. cbn [negb andb orb].
    replace (k + l * Nx + 1)%nat with (k + 1 + l * Nx)%nat by lia.
    replace (k + l * Nx + Nx)%nat with (k + (l + 1) * Nx)%nat by lia.
    replace (k + 1 + l * Nx + Nx)%nat with (k + 1 + (l + 1) * Nx)%nat by lia.
    lra.
  - intros c Hc. apply B. intros i j Hi Hj ->.
    pose proof (flat_lt Ncx Ncz i j Hi Hj). lia.
Qed.

(** ** Coordinates *)

Lemma ladder_spec x0 d n x : (1 <= n)%nat ->
  (forall i, (i < n)%nat -> ladder x0 d n x i = x0 + INR i * d) /\
  (forall i, (n <= i)%nat -> ladder x0 d n x i = x i).
Proof.
  intros Hn. unfold ladder.
  set (body := fun (x : nat -> R) i => upd x i (x (i - 1)%nat + d)).
  pose proof (loop_ind (fun m y => (1 <= m)%nat ->
    (forall i, (i < m)%nat -> y i = x0 + INR i * d) /\ (forall i, (m <= i)%nat -> y i = x i))
    body (n - 1) 1 (upd x 0 x0)) as L. cbv beta in L.
  replace (1 + (n - 1))%nat with n in L by lia. apply L; clear L; [| |lia].
  - intros _. split; intros i Hi.
    + replace i with 0%nat by lia. rewrite upd_same. cbn [INR]. lra.
    + apply upd_other. lia.
  - intros m y Hm IH _. destruct (IH ltac:(lia)) as [I1 I2]. unfold body. split; intros i Hi.
    + destruct (Nat.eq_dec i m) as [->|Hne].
      * rewrite upd_same, I1 by lia. replace (INR m) with (INR (m - 1) + 1); [lra|].
        rewrite <- S_INR. f_equal. lia.
      * rewrite upd_other by exact Hne. apply I1. lia.
    + rewrite upd_other by lia. apply I2. lia.
Qed.

Lemma spacing_pos lo hi n : lo < hi -> (2 <= n)%nat -> 0 < spacing lo hi n.
Proof.
  intros H Hn. unfold spacing. apply le_INR in Hn. cbn [INR] in Hn. apply Rdiv_lt_0_compat; lra.
Qed.

Lemma spacing_total lo hi n : (2 <= n)%nat -> lo + INR (n - 1) * spacing lo hi n = hi.
Proof.
  intros Hn. unfold spacing. rewrite minus_INR by lia. apply le_INR in Hn. cbn [INR] in *. field. lra.
Qed.
