(** * C78: phase transmutation of markers *)
From Coq Require Import ZArith Reals List Bool Lia Lra Arith Permutation.
Import ListNotations.
From Verif Require Import P2GModel AdvModel AdvProofs ReseedModel MarkerModel.
Local Open Scope R_scope.

(** ** Specification: a marker of phase p changes to phase [tphase p] if the rule of p says
    so; temperature is kept, phase and dual phase change together. *)
Definition due (t : tmat) (m : tmark) : Prop :=
  tkind t (tph m) = (-1)%Z /\ tT m <= ttemp t (tph m) \/ tkind t (tph m) = 1%Z /\ ttemp t (tph m) <= tT m.
Definition valid_phase (m : tmark) : Prop := (0 <= tph m < 20)%Z.
Definition outcome_of (t : tmat) (m m' : tmark) : Prop :=
  (due t m -> m' = Tmark (tphase t (tph m)) (tphase t (tph m)) (tT m)) /\ (~ due t m -> m' = m).

Lemma one_spec : forall t m, valid_phase m -> exists m', transmute_one t m = Done m' /\ outcome_of t m m'.
Proof.
  intros t m (A & B). unfold transmute_one. cbv zeta. destruct (Z.leb_spec 0 (tph m)); [|lia]. destruct (Z.ltb_spec (tph m) 20); [|lia].
  cbn [andb]. destruct (_ || _) eqn:E; eexists; (split; [reflexivity|]); unfold outcome_of, due; split; intros H1; try reflexivity; exfalso.
  - apply H1. apply orb_true_iff in E. destruct E as [E|E]; apply andb_true_iff in E; destruct E as (E1 & E2); apply Z.eqb_eq in E1;
      [left|right]; (split; [exact E1|]); destruct (Rgeb_spec (ttemp t (tph m)) (tT m)); destruct (Rgeb_spec (tT m) (ttemp t (tph m))); try discriminate; lra.
  - apply orb_false_iff in E. destruct E as (E1 & E2). destruct H1 as [(K & L)|(K & L)]; rewrite K in *; cbn [Z.eqb Pos.eqb andb] in *;
      destruct (Rgeb_spec (ttemp t (tph m)) (tT m)); destruct (Rgeb_spec (tT m) (ttemp t (tph m))); try discriminate; lra.
Qed.

Lemma transmute_list : forall t ks ms, NoDup ks -> (forall k, In k ks -> valid_phase (ms k)) ->
  exists ms', transmute t ks ms = Done ms' /\ (forall k, In k ks -> outcome_of t (ms k) (ms' k)) /\ (forall k, ~ In k ks -> ms' k = ms k).
Proof.
  intros t ks. induction ks as [|k ks IH]; intros ms ND HV; cbn [transmute].
  - exists ms. split; [reflexivity|]. split; [contradiction|reflexivity].
  - inversion ND as [|k0 ks0 NI ND' E0]; subst. destruct (one_spec t (ms k) (HV k (or_introl eq_refl))) as (m & -> & O).
    destruct (IH (nupd ms k m) ND') as (ms' & E & A & B).
    { intros k' H. unfold nupd. destruct (Nat.eqb_spec k' k) as [EQ|]; [subst k'; contradiction|]. apply HV. now right. }
    exists ms'. split; [exact E|]. split.
    + intros k' [<-|H].
      * rewrite B by exact NI. unfold nupd. now rewrite Nat.eqb_refl.
      * specialize (A k' H). unfold nupd in A. destruct (Nat.eqb_spec k' k) as [EQ|]; [subst k'; contradiction|exact A].
    + intros k' H. rewrite B by (intros K; apply H; now right). unfold nupd. destruct (Nat.eqb_spec k' k) as [EQ|]; [exfalso; apply H; left; now symmetry|reflexivity].
Qed.

(** Whatever the order of the loop: every marker but the last gets exactly one application
    of its rule, all others stay; the last one never changes, whatever its temperature. *)
Theorem C78_transmutation : forall t n ms ks, Permutation ks (transmute_loop n) ->
  (forall k, (k < n - 1)%nat -> valid_phase (ms k)) ->
  exists ms', transmute t ks ms = Done ms' /\ (forall k, (k < n - 1)%nat -> outcome_of t (ms k) (ms' k)) /\
    (forall k, (n - 1 <= k)%nat -> ms' k = ms k).
Proof.
  intros t n ms ks P HV. assert (IN : forall k, In k ks <-> (k < n - 1)%nat).
  { intros k. assert (J : In k ks <-> In k (transmute_loop n)) by (split; intros; [eapply Permutation_in; eassumption|eapply Permutation_in; [apply Permutation_sym|]; eassumption]).
    rewrite J. unfold transmute_loop. rewrite in_seq. lia. }
  destruct (transmute_list t ks ms) as (ms' & E & A & B).
  - apply (Permutation_NoDup (Permutation_sym P)). apply seq_NoDup.
  - intros k H. apply HV. now apply IN.
  - exists ms'. split; [exact E|]. split; [intros k H; apply A; now apply IN|]. intros k H. apply B. intros K. apply IN in K. lia.
Qed.
Print Assumptions C78_transmutation.

(** The last marker is due and does not change. *)
Theorem C78_last_marker_refuted : exists t n ms ms', (0 < n)%nat /\ (forall k, (k < n)%nat -> valid_phase (ms k)) /\
  transmute t (transmute_loop n) ms = Done ms' /\ due t (ms (n - 1)%nat) /\ ms' (n - 1)%nat = ms (n - 1)%nat /\
  tph (ms (n - 1)%nat) <> tphase t (tph (ms (n - 1)%nat)).
Proof.
  exists (Tmat (fun _ => 1%Z) (fun _ => 3%Z) (fun _ => 100)), 1%nat, (fun _ => Tmark 0 0 200), (fun _ => Tmark 0 0 200).
  split; [lia|]. split; [intros; unfold valid_phase; cbn; lia|]. split; [reflexivity|]. split; [|split; [reflexivity|discriminate]].
  right. cbn. split; [reflexivity|lra].
Qed.
Print Assumptions C78_last_marker_refuted.

(** A marker that has left the model (phase -1) makes the loop read outside the tables. *)
Theorem C78_inactive_marker_refuted : forall t n ms ks, Permutation ks (transmute_loop n) ->
  (forall k, (k < n - 1)%nat -> valid_phase (ms k) \/ tph (ms k) = (-1)%Z) ->
  (exists k, (k < n - 1)%nat /\ tph (ms k) = (-1)%Z) -> transmute t ks ms = UB.
Proof.
  intros t n ms ks P HV (k & Hk & E).
  assert (IN : In k ks).
  { apply (Permutation_in (l := transmute_loop n)); [now apply Permutation_sym|]. apply in_seq. lia. }
  assert (ND : NoDup ks) by (apply (Permutation_NoDup (Permutation_sym P)), seq_NoDup).
  assert (V : forall j, In j ks -> valid_phase (ms j) \/ tph (ms j) = (-1)%Z).
  { intros j Hj. apply HV. apply (Permutation_in _ P) in Hj. apply in_seq in Hj. lia. }
  clear P HV Hk. revert ms E V. induction ks as [|j ks IH]; intros ms E V; [contradiction|]. cbn [transmute].
  inversion ND as [|j0 ks0 NI ND' E0]; subst.
  destruct (V j (or_introl eq_refl)) as [VJ|VJ].
  - destruct (one_spec t (ms j) VJ) as (m & -> & _). destruct IN as [->|IN]; [unfold valid_phase in VJ; lia|].
    assert (NJ : k <> j) by (intros ->; contradiction).
    apply IH; [exact IN|exact ND'| |].
    + unfold nupd. destruct (Nat.eqb_spec k j); [contradiction|exact E].
    + intros i Hi. unfold nupd. destruct (Nat.eqb_spec i j) as [EQ|]; [subst i; contradiction|]. apply V. now right.
  - unfold transmute_one. cbv zeta. rewrite VJ. reflexivity.
Qed.
Print Assumptions C78_inactive_marker_refuted.

Example C78_ex : exists ms', transmute (Tmat (fun p => if (p =? 0)%Z then (-1)%Z else 0%Z) (fun _ => 2%Z) (fun _ => 100)) [1; 0]%nat
    (fun k => Tmark (Z.of_nat k) 7 50) = Done ms' /\ ms' 0%nat = Tmark 2 2 50 /\ ms' 1%nat = Tmark 1 7 50 /\ ms' 2%nat = Tmark 2 7 50.
Proof.
  destruct (C78_transmutation (Tmat (fun p => if (p =? 0)%Z then (-1)%Z else 0%Z) (fun _ => 2%Z) (fun _ => 100)) 3 (fun k => Tmark (Z.of_nat k) 7 50) [1; 0]%nat) as (ms' & E & A & B).
  - apply perm_swap.
  - intros k H. unfold valid_phase. cbn. lia.
  - exists ms'. split; [exact E|]. split; [|split].
    + destruct (A 0%nat ltac:(lia)) as (A1 & _). apply A1. left. cbn. split; [reflexivity|lra].
    + destruct (A 1%nat ltac:(lia)) as (_ & A2). apply A2. intros [(K & _)|(K & _)]; discriminate.
    + now rewrite B by lia.
Qed.
