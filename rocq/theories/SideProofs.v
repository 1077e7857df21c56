(** Lemmas about the boundary set-up. *)
From Coq Require Import Reals ZArith List Bool Lia Lra Psatz FinFun.
Import ListNotations.
From Verif Require Import GridModel P2GModel P2GProofs SideModel.
Local Open Scope R_scope.

Lemma Rltb_spec : forall a b, reflect (a < b) (Rltb a b).
Proof. intros. unfold Rltb. destruct (Rlt_dec a b); constructor; assumption. Qed.
Lemma is0_spec : forall a, reflect (a = 0) (is0 a).
Proof. intros. unfold is0. destruct (Req_EM_T a 0); constructor; assumption. Qed.

(** ** Specification: sides of a rectangle of nodes, outward flux *)
Definition on_west (p : position) := p = NW \/ p = West \/ p = SW.
Definition on_east (p : position) := p = NE \/ p = East \/ p = SE.
Definition on_south (p : position) := p = SW \/ p = South \/ p = SE.
Definition on_north (p : position) := p = NW \/ p = North \/ p = NE.

(** Sum over [from, from+count) *)
Definition sum_from (from count : nat) (f : nat -> R) : R := sumR f (seq from count).

(** ** Node list *)
Lemma in_nodes : forall kE lN k l, In (k, l) (nodes kE lN) <-> (k <= kE /\ l <= lN)%nat.
Proof.
  intros. unfold nodes. rewrite in_flat_map. split.
  - intros (l' & Hl & Hk). apply in_seq in Hl. apply in_map_iff in Hk. destruct Hk as (k' & E & Hk).
    apply in_seq in Hk. injection E as -> ->. lia.
  - intros [Hk Hl]. exists l. split; [apply in_seq; lia|]. apply in_map_iff. exists k. split; [reflexivity|]. apply in_seq. lia.
Qed.

Lemma nodup_row : forall n (l : nat), NoDup (map (fun k : nat => (k, l)) (seq 0 n)).
Proof. intros. apply Injective_map_NoDup; [intros a b E; now injection E|apply seq_NoDup]. Qed.

Lemma nodup_app : forall A (a b : list A), NoDup a -> NoDup b -> (forall x, In x a -> ~ In x b) -> NoDup (a ++ b).
Proof.
  intros A a. induction a as [|x a IH]; intros b Na Nb D; [exact Nb|]. inversion Na; subst. cbn. constructor.
  - rewrite in_app_iff. intros [H|H]; [now auto|]. apply (D x); [now left|exact H].
  - apply IH; auto. intros y Hy. apply D. now right.
Qed.

Lemma nodup_nodes : forall kE lN, NoDup (nodes kE lN).
Proof.
  intros. unfold nodes. generalize (seq_NoDup (lN + 1) 0). generalize (seq 0 (lN + 1)) as L.
  induction L as [|l L IH]; intros N; [constructor|]. inversion N; subst. cbn [flat_map].
  apply nodup_app; [apply nodup_row|auto|]. intros (k, l') H1' H2'.
  apply in_map_iff in H1'. destruct H1' as (k1 & E & _). injection E as <- <-.
  apply in_flat_map in H2'. destruct H2' as (l2 & Hl2 & Hk). apply in_map_iff in Hk. destruct Hk as (k2 & E & _).
  injection E as _ ->. contradiction.
Qed.

Lemma upd2_eq : forall A (f : nat -> nat -> A) k l x, upd2 f k l x k l = x.
Proof. intros. unfold upd2. now rewrite !Nat.eqb_refl. Qed.
Lemma upd2_neq : forall A (f : nat -> nat -> A) k l x k' l', (k', l') <> (k, l) -> upd2 f k l x k' l' = f k' l'.
Proof.
  intros A f k l x k' l' H. unfold upd2. destruct (Nat.eqb_spec k' k), (Nat.eqb_spec l' l); cbn; try reflexivity. now subst.
Qed.

Section SetBcs.
  Context (kE lN : nat) (cb : position -> nat -> nat -> Z * R).
  Definition ty k l := fst (cb (classify kE lN k l) k l).
  Definition va k l := snd (cb (classify kE lN k l) k l).
  Definition ok k l := validate_internal (classify kE lN k l) (ty k l) = true.
  Definition stored k l := if (ty k l =? 11)%Z then 2 * va k l else va k l.

  Lemma fold_none : forall L, fold_left (set_node kE lN cb) L None = None.
  Proof. induction L; [reflexivity|]. assumption. Qed.

  Lemma set_node_air : forall s k l, bt s k l = 30%Z -> set_node kE lN cb (Some s) (k, l) = Some s.
  Proof. intros s k l E. cbn. now rewrite E. Qed.
  Lemma set_node_fluid : forall s k l, bt s k l <> 30%Z ->
    set_node kE lN cb (Some s) (k, l) =
    if validate_internal (classify kE lN k l) (ty k l)
    then Some (BCs (upd2 (bt s) k l (ty k l)) (upd2 (bv s) k l (stored k l))
                  (if Nat.eqb k 0 then wsum s + va k l else wsum s)
                  (if negb (Nat.eqb k 0) && Nat.eqb k kE then esum s + va k l else esum s)
                  (if negb (Nat.eqb k 0) && negb (Nat.eqb k kE) && Nat.eqb l 0 then ssum s + va k l else ssum s)) else None.
  Proof.
    intros s k l E. cbn. destruct (Z.eqb_spec (bt s k l) 30); [contradiction|].
    unfold ty, va, stored, ty, va. destruct (cb _ k l). reflexivity.
  Qed.

  Definition contrib (sel : nat -> nat -> bool) (t : nat -> nat -> Z) (kl : nat * nat) : R :=
    let (k, l) := kl in if (t k l =? 30)%Z then 0 else if sel k l then va k l else 0.
  Definition selW k (l : nat) := Nat.eqb k 0.
  Definition selE k (l : nat) := negb (Nat.eqb k 0) && Nat.eqb k kE.
  Definition selS k l := negb (Nat.eqb k 0) && negb (Nat.eqb k kE) && Nat.eqb l 0.

  Lemma fold_spec : forall L s s', NoDup L -> fold_left (set_node kE lN cb) L (Some s) = Some s' ->
    (forall k l, In (k, l) L -> bt s k l <> 30%Z -> ok k l /\ bt s' k l = ty k l /\ bv s' k l = stored k l) /\
    (forall k l, (~ In (k, l) L \/ bt s k l = 30%Z) -> bt s' k l = bt s k l /\ bv s' k l = bv s k l) /\
    wsum s' = wsum s + sumR (contrib selW (bt s)) L /\
    esum s' = esum s + sumR (contrib selE (bt s)) L /\
    ssum s' = ssum s + sumR (contrib selS (bt s)) L.
  Proof.
    induction L as [|[k0 l0] L IH]; intros s s' ND F.
    - cbn [fold_left] in F. injection F as <-. split; [intros ? ? []|]. split; [auto|]. unfold sumR; cbn. lra.
    - inversion ND as [|? ? NI ND']; subst. cbn [fold_left] in F.
      destruct (Z.eq_dec (bt s k0 l0) 30) as [A|A].
      + rewrite set_node_air in F by exact A. destruct (IH s s' ND' F) as (I1 & I2 & I3 & I4 & I5).
        rewrite !sumR_cons. unfold contrib at 1 3 5. rewrite A. cbn [Z.eqb Pos.eqb].
        split; [intros k l [E|H] N; [injection E as <- <-; contradiction|now apply I1]|].
        split; [|rewrite I3, I4, I5; lra].
        intros k l [H|H]; apply I2; [left; intros X; apply H; now right|now right].
      + rewrite set_node_fluid in F by exact A.
        destruct (validate_internal _ _) eqn:V; [|rewrite fold_none in F; discriminate].
        set (s1 := BCs _ _ _ _ _) in F. destruct (IH s1 s' ND' F) as (I1 & I2 & I3 & I4 & I5).
        assert (B : forall k l, In (k, l) L -> bt s1 k l = bt s k l /\ bv s1 k l = bv s k l).
        { intros k l H. cbn. rewrite !upd2_neq; auto; intros E; rewrite E in H; contradiction. }
        assert (SE : forall sel, sumR (contrib sel (bt s1)) L = sumR (contrib sel (bt s)) L).
        { intros. apply sumR_ext. intros [k l] H. unfold contrib. now rewrite (proj1 (B k l H)). }
        rewrite !SE in *. rewrite !sumR_cons.
        assert (C : forall sel, contrib sel (bt s) (k0, l0) = if sel k0 l0 then va k0 l0 else 0).
        { intros. unfold contrib. destruct (Z.eqb_spec (bt s k0 l0) 30); [contradiction|reflexivity]. }
        rewrite !C. split; [|split].
        * intros k l [E|H] N.
          -- injection E as <- <-. destruct (I2 k0 l0 (or_introl NI)) as [E1 E2]. rewrite E1, E2. cbn.
             rewrite !upd2_eq. auto.
          -- destruct (B k l H) as [E1 _]. apply I1; [exact H|now rewrite E1].
        * intros k l H.
          assert (K : (k, l) <> (k0, l0)) by (intros E; destruct H as [H|H]; [apply H; left; congruence|injection E as -> ->; contradiction]).
          destruct (I2 k l) as [E1 E2].
          { destruct H as [H|H]; [left; intros X; apply H; now right|]. right. cbn. now rewrite upd2_neq. }
          rewrite E1, E2. cbn. now rewrite !upd2_neq.
        * rewrite I3, I4, I5. unfold s1, selW, selE, selS. cbn [wsum esum ssum].
          repeat split; match goal with |- context [if ?c then _ else _] => destruct c end; lra.
  Qed.

  Lemma fold_complete : forall L s, NoDup L -> (forall k l, In (k, l) L -> bt s k l <> 30%Z -> ok k l) ->
    exists s', fold_left (set_node kE lN cb) L (Some s) = Some s'.
  Proof.
    induction L as [|[k0 l0] L IH]; intros s ND H; [now exists s|]. inversion ND as [|? ? NI ND']; subst. cbn [fold_left].
    destruct (Z.eq_dec (bt s k0 l0) 30) as [A|A].
    - rewrite set_node_air by exact A. apply IH; auto. intros; apply H; [now right|assumption].
    - rewrite set_node_fluid by exact A. specialize (H k0 l0 (or_introl eq_refl) A) as V. unfold ok in V. rewrite V.
      apply IH; auto. intros k l Hk N. apply H; [now right|]. cbn in N. rewrite upd2_neq in N; [exact N|]. intros E. rewrite E in Hk. contradiction.
  Qed.
End SetBcs.

(** ** Column and row sums *)
Lemma sumR_app : forall A (f : A -> R) a b, sumR f (a ++ b) = sumR f a + sumR f b.
Proof. intros. induction a as [|x a IH]; [cbn; unfold sumR; cbn; lra|]. cbn [app]. rewrite !sumR_cons, IH. lra. Qed.
Lemma sumR_map : forall A B (f : B -> R) (g : A -> B) l, sumR f (map g l) = sumR (fun x => f (g x)) l.
Proof. intros. induction l as [|x l IH]; [reflexivity|]. cbn [map]. rewrite !sumR_cons, IH. reflexivity. Qed.
Lemma sumR_nodes : forall kE lN (f : nat -> nat -> R),
  sumR (fun kl => f (fst kl) (snd kl)) (nodes kE lN) = sum_from 0 (lN + 1) (fun l => sum_from 0 (kE + 1) (fun k => f k l)).
Proof.
  intros. unfold nodes, sum_from. induction (seq 0 (lN + 1)) as [|l L IH]; [reflexivity|].
  cbn [flat_map]. rewrite sumR_app, sumR_cons, sumR_map, IH. reflexivity.
Qed.
Lemma sumR_single : forall (f : nat -> R) k a n, (forall i, i <> k -> f i = 0) ->
  sumR f (seq a n) = if Nat.leb a k && Nat.ltb k (a + n) then f k else 0.
Proof.
  intros f k a n H. revert a. induction n as [|n IH]; intros a.
  - destruct (Nat.leb_spec a k), (Nat.ltb_spec k (a + 0)); cbn [andb]; try lia; reflexivity.
  - cbn [seq]. rewrite sumR_cons, IH. destruct (Nat.eq_dec a k) as [->|N].
    + destruct (Nat.leb_spec (S k) k), (Nat.leb_spec k k), (Nat.ltb_spec k (k + S n)); cbn; try lia; lra.
    + rewrite (H a N). destruct (Nat.leb_spec (S a) k), (Nat.leb_spec a k), (Nat.ltb_spec k (a + S n)), (Nat.ltb_spec k (S a + n)); cbn; try lia; lra.
Qed.
Lemma sumR_const : forall A (l : list A) c, sumR (fun _ => c) l = INR (length l) * c.
Proof. intros. induction l as [|x l IH]; [cbn; unfold sumR; cbn; lra|]. rewrite sumR_cons, IH. cbn [length]. rewrite S_INR. lra. Qed.
Lemma sumR_scal : forall A (f : A -> R) l c, sumR (fun x => c * f x) l = c * sumR f l.
Proof. intros. induction l as [|x l IH]; [cbn; unfold sumR; cbn; lra|]. rewrite !sumR_cons, IH. lra. Qed.

(** ** The smoothing sweep *)
Lemma kappa_value : forall dx, dx <> 0 -> kappa dx = Some (45 / 100).
Proof. intros dx H. unfold kappa. destruct (Req_EM_T dx 0); [contradiction|]. f_equal. field. exact H. Qed.

Lemma sweep_bounds : forall n b lo hi, (forall l, (l < n)%nat -> lo <= b l <= hi) ->
  forall l, (l < n)%nat -> lo <= sweep (45 / 100) n b l <= hi.
Proof.
  intros n b lo hi H l Hl. unfold sweep. destruct (Nat.leb_spec 1 l), (Nat.ltb_spec l (n - 1)); cbn [andb]; auto.
  pose proof (H l Hl). pose proof (H (l + 1)%nat ltac:(lia)). pose proof (H (l - 1)%nat ltac:(lia)). lra.
Qed.
Lemma sweep_ends : forall kap n b l, l = 0%nat \/ (n - 1 <= l)%nat -> sweep kap n b l = b l.
Proof.
  intros kap n b l H. unfold sweep. destruct (Nat.leb_spec 1 l), (Nat.ltb_spec l (n - 1)); cbn [andb]; try reflexivity; lia.
Qed.

Lemma telescope : forall (f : nat -> R) n, sumR (fun i => f (S i) - f i) (seq 0 n) = f n - f 0%nat.
Proof.
  intros f n. induction n as [|n IH]; [cbn; unfold sumR; cbn; lra|]. rewrite seq_S, sumR_app, IH. cbn. unfold sumR; cbn. lra.
Qed.
Lemma sum_ends : forall f m, sum_from 0 (m + 2) f = f 0%nat + sumR f (seq 1 m) + f (m + 1)%nat.
Proof.
  intros. unfold sum_from. replace (m + 2)%nat with (S (S m)) by lia. rewrite seq_S. cbn [seq]. rewrite sumR_app, !sumR_cons.
  replace (0 + S m)%nat with (m + 1)%nat by lia. unfold sumR; cbn [fold_right]. lra.
Qed.
(** Change of the sum in one sweep. *)
Lemma sweep_sum : forall kap m b,
  sum_from 0 (m + 2) (sweep kap (m + 2) b) = sum_from 0 (m + 2) b + kap * ((b 0%nat - b 1%nat) + (b (m + 1)%nat - b m)).
Proof.
  intros kap m b. rewrite !sum_ends. rewrite !sweep_ends by lia.
  assert (E : sumR (sweep kap (m + 2) b) (seq 1 m) = sumR b (seq 1 m) + kap * sumR (fun i => (b (S (S i)) - b (S i)) - (b (S i) - b i)) (seq 0 m)).
  { rewrite <- seq_shift, !sumR_map, <- sumR_scal, <- sumR_plus. apply sumR_ext. intros i Hi. apply in_seq in Hi.
    unfold sweep. destruct (Nat.leb_spec 1 (S i)), (Nat.ltb_spec (S i) (m + 2 - 1)); try lia. cbn [andb].
    replace (S i + 1)%nat with (S (S i)) by lia. replace (S i - 1)%nat with i by lia. lra. }
  rewrite E. pose proof (telescope (fun i => b (S i) - b i) m) as T. cbv beta in T. rewrite T.
  replace (m + 1)%nat with (S m) by lia. lra.
Qed.
