(** Specification and lemmas for CkptModel.v. *)
From Coq Require Import List NArith String Bool Decimal DecimalString DecimalN Lia.
From Coq Require Import Arith.
Import ListNotations.
From Verif Require Import CkptModel.
Open Scope N_scope.

(** ** Specification *)

(** The last step whose checkpoint was completely written during [p]. *)
Fixpoint last_completed (p : list op) : option N :=
  match p with
  | [] => None
  | o :: q => match last_completed q with
              | Some k => Some k
              | None => match o with Close _ k => Some k | _ => None end
              end
  end.

(** File [n] holds a complete checkpoint of step [k]. *)
Definition holds (f : fs) (n : string) (k : N) : Prop := f n = Some (Content k true).

(** [p] is what was executed of [l] when the process died. *)
Definition crash_prefix (p l : list op) : Prop := exists q, l = p ++ q.

(** ** File names are injective *)

Lemma of_uint_pad : forall m d, N.of_uint (pad m d) = N.of_uint d.
Proof. induction m; intros; [reflexivity|]. cbn [pad].
  transitivity (N.of_uint (pad m d)); [reflexivity|apply IHm]. Qed.

Lemma fmt05_inj : forall a b, fmt05 a = fmt05 b -> a = b.
Proof.
  intros a b H. unfold fmt05 in H.
  apply (f_equal NilEmpty.uint_of_string) in H. rewrite !NilEmpty.usu in H.
  injection H as H. apply (f_equal N.of_uint) in H. rewrite !of_uint_pad in H.
  rewrite !Unsigned.of_to in H. exact H.
Qed.

Lemma append_cancel_r : forall s a b, (a ++ s)%string = (b ++ s)%string -> a = b.
Proof.
  intros s a b H.
  assert (HL : String.length a = String.length b).
  { apply (f_equal String.length) in H. rewrite !length_append in H || idtac.
    assert (E : forall u v, String.length (u ++ v)%string = (String.length u + String.length v)%nat).
    { induction u; intros; cbn; [reflexivity|]. now rewrite IHu. }
    rewrite !E in H. lia. }
  revert b H HL. induction a as [|x a IH]; intros [|y b] H HL; cbn in *; try discriminate; [reflexivity|].
  injection H as -> H. injection HL as HL. f_equal. now apply IH.
Qed.

Lemma numbered_inj : forall a b, numbered a = numbered b -> a = b.
Proof.
  intros a b H. unfold numbered in H. cbn in H. injection H as H.
  apply append_cancel_r in H. now apply fmt05_inj.
Qed.

Lemma string_of_uint_head : forall d s,
  NilEmpty.string_of_uint d = String (Ascii.ascii_of_nat 88) s -> False.
Proof. intros d s H. destruct d; cbn in H; discriminate. Qed.

Lemma numbered_not_single : forall k, numbered k <> single.
Proof.
  intros k H. unfold numbered, single in H. cbn in H. injection H as H.
  unfold fmt05 in H.
  remember (pad _ _) as d eqn:Ed. clear Ed. destruct d; cbn in H; discriminate.
Qed.

(** ** File-system algebra *)

Lemma upd_same f n c : upd f n c n = c.
Proof. unfold upd. now rewrite String.eqb_refl. Qed.
Lemma upd_other f n c m : m <> n -> upd f n c m = f m.
Proof. intros H. unfold upd. apply String.eqb_neq in H. now rewrite H. Qed.

Lemma exec_app f a b : exec f (a ++ b) = exec (exec f a) b.
Proof. apply fold_left_app. Qed.

(** Names an operation may change. *)
Definition touches (o : op) (n : string) : Prop :=
  match o with Mv s d => n = s \/ n = d | Open m _ | Write m _ | Close m _ => n = m end.

Lemma exec1_untouched f o n : ~ touches o n -> exec1 f o n = f n.
Proof.
  destruct o as [s d| m k| m k| m k]; cbn; intros H; try (now apply upd_other).
  destruct (f s) eqn:E; [|reflexivity]. destruct (String.eqb s d); [reflexivity|].
  rewrite upd_other, upd_other; tauto.
Qed.

Lemma exec_untouched : forall l f n, (forall o, In o l -> ~ touches o n) -> exec f l n = f n.
Proof.
  induction l as [|o l IH]; intros f n H; [reflexivity|].
  cbn. change (fold_left exec1 l (exec1 f o)) with (exec (exec1 f o) l).
  rewrite IH; [|intros; apply H; now right]. apply exec1_untouched, H. now left.
Qed.

Lemma make_ops_touch c k o n : In o (make_ops c k) -> touches o n -> n = ckpt_name (del c) k.
Proof.
  unfold make_ops. cbn. intros [<-|H] T; [exact T|].
  apply in_app_or in H as [H|[<-|[]]]; [|exact T].
  apply repeat_spec in H. subst o. exact T.
Qed.

Lemma exec_make f c k :
  exec f (make_ops c k) (ckpt_name (del c) k) = Some (Content k true).
Proof.
  unfold make_ops. rewrite app_comm_cons, exec_app. cbn. apply upd_same.
Qed.

Lemma last_completed_app : forall a b,
  last_completed (a ++ b) = match last_completed b with Some k => Some k | None => last_completed a end.
Proof.
  induction a as [|o a IH]; intros b; cbn; [now destruct (last_completed b)|].
  rewrite IH. now destruct (last_completed b).
Qed.

Lemma last_completed_writes n k m : last_completed (repeat (Write n k) m) = None.
Proof. induction m; cbn; [reflexivity|]. now rewrite IHm. Qed.

Lemma last_completed_make c k : last_completed (make_ops c k) = Some k.
Proof. unfold make_ops. rewrite app_comm_cons, last_completed_app. reflexivity. Qed.

(** A strict prefix of one output completes nothing. *)
Lemma last_completed_strict c k p q : output_ops c k = p ++ q -> q <> [] -> last_completed p = None.
Proof.
  intros E Hq. destruct (last_completed p) as [j|] eqn:L; [exfalso|reflexivity].
  destruct (exists_last Hq) as (q' & o & ->). clear Hq.
  assert (NC : forall l x, last_completed l = Some x -> exists n, In (Close n x) l).
  { clear. induction l as [|o l IH]; intros x H; cbn in H; [discriminate|].
    destruct (last_completed l) eqn:E.
    - injection H as ->. destruct (IH _ eq_refl) as [n I]. exists n. now right.
    - destruct o; try discriminate. injection H as ->. eexists. now left. }
  destruct (NC _ _ L) as [n I]. clear NC.
  assert (E2 : exists front, output_ops c k = front ++ [o] /\ In (Close n j) front).
  { exists (p ++ q'). split; [now rewrite E, app_assoc|]. apply in_or_app. now left. }
  clear E. destruct E2 as (front & E2 & I2).
  unfold output_ops in E2. destruct (writer c && (k mod writer_step c =? 0)).
  2:{ destruct front; discriminate. }
  unfold make_ops in E2.
  rewrite !app_comm_cons, app_assoc in E2. apply app_inj_tail in E2 as [E2 _].
  rewrite <- E2 in I2. apply in_app_or in I2 as [I2|I2].
  - destruct (del c); cbn in I2; try contradiction.
    unfold delete_previous_ops in I2. destruct (_ <? _); cbn in I2; [|contradiction].
    destruct I2 as [I2|[]]. discriminate.
  - cbn in I2. destruct I2 as [I2|I2]; [discriminate|].
    apply repeat_spec in I2. discriminate.
Qed.

(** No operation of the output of step [k] touches the file of step [c] when
    [c] is not the step just written and not the one that is removed. *)
Lemma output_untouched cf k c : del cf <> DelSingle -> c <> k ->
  c + 2 * writer_step cf <> k ->
  forall o, In o (output_ops cf k) -> ~ touches o (numbered c).
Proof.
  intros Hd Hc H2 o Hin T. unfold output_ops in Hin.
  destruct (writer cf && _); [|contradiction].
  apply in_app_or in Hin as [Hin|Hin].
  - destruct (del cf); cbn in Hin; try contradiction.
    unfold delete_previous_ops in Hin.
    destruct (N.ltb_spec (1 + 2 * writer_step cf) k); [|contradiction].
    destruct Hin as [<-|[]]. unfold touches in T. destruct T as [T|T]; apply numbered_inj in T; lia.
  - pose proof (make_ops_touch _ _ _ _ Hin T) as E.
    assert (E' : ckpt_name (del cf) k = numbered k) by (destruct (del cf); [congruence|reflexivity..]).
    rewrite E' in E. apply numbered_inj in E. congruence.
Qed.

Lemma app_split {A} : forall (a b p q : list A), a ++ b = p ++ q ->
  (exists r, p = a ++ r /\ b = r ++ q) \/ (exists r, a = p ++ r /\ r <> []).
Proof.
  induction a as [|x a IH]; intros b p q H.
  - left. exists p. split; [reflexivity|exact H].
  - destruct p as [|y p].
    + right. exists (x :: a). split; [reflexivity|discriminate].
    + injection H as -> H. destruct (IH _ _ _ H) as [(r & -> & ->)|(r & -> & Hr)].
      * left. exists r. now split.
      * right. exists r. now split.
Qed.

(** ** A complete checkpoint survives *)

(** [c] is intact and no output was due in [(c, s]]. *)
Lemma survive : forall cf, del cf <> DelSingle -> writer cf = true -> 0 < writer_step cf ->
  forall n s c f p,
  holds f (numbered c) c -> c <= s ->
  (forall m, c < m <= s -> m mod writer_step cf <> 0) ->
  crash_prefix p (session_ops cf s n) ->
  exists c', c <= c' /\
    c' = match last_completed p with Some k => k | None => c end /\
    holds (exec f p) (numbered c') c'.
Proof.
  intros cf Hd Hw Hws. induction n as [|n IH]; intros s c f p Hc Hcs Hgap [q Hp].
  - cbn in Hp. destruct p; [|discriminate]. exists c. cbn. repeat split; [lia|exact Hc].
  - unfold session_ops in Hp. cbn [steps_after flat_map] in Hp.
    change (flat_map (output_ops cf) (steps_after (s + 1) n)) with (session_ops cf (s+1) n) in Hp.
    set (k := s + 1) in *.
    destruct (N.eqb_spec (k mod writer_step cf) 0) as [Hk|Hk].
    + (* an output is written at k *)
      assert (H2 : c + 2 * writer_step cf <> k).
      { intros E. apply (Hgap (c + writer_step cf)); [lia|].
        assert (E2 : c + writer_step cf = k - writer_step cf) by lia. rewrite E2.
        apply N.mod_divide; [lia|]. apply N.mod_divide in Hk; [|lia].
        destruct Hk as [z Hz]. exists (z - 1). rewrite N.mul_sub_distr_r. lia. }
      destruct (app_split _ _ _ _ Hp) as [(r & -> & Hr)|(r & Hr & Hne)].
      * assert (F : holds (exec f (output_ops cf k)) (numbered k) k).
        { unfold output_ops. rewrite Hw, Hk. cbn [andb N.eqb]. rewrite exec_app.
          assert (E' : numbered k = ckpt_name (del cf) k) by (destruct (del cf); [congruence|reflexivity..]).
          rewrite E'. apply exec_make. }
        destruct (IH k k _ r F) as (c' & Hle & -> & Hh).
        { lia. } { intros; lia. } { exists q. exact Hr. }
        rewrite exec_app. exists (match last_completed r with Some x => x | None => k end).
        assert (HL : last_completed (output_ops cf k) = Some k).
        { unfold output_ops. rewrite Hw, Hk. cbn [andb N.eqb]. rewrite last_completed_app.
          now rewrite last_completed_make. }
        rewrite last_completed_app, HL.
        split; [|split; [|exact Hh]].
        -- destruct (last_completed r); lia.
        -- now destruct (last_completed r).
      * rewrite (last_completed_strict cf k p r Hr Hne).
        exists c. split; [lia|]. split; [reflexivity|].
        unfold holds. rewrite exec_untouched; [exact Hc|].
        intros o Ho. apply (output_untouched cf k c Hd); [lia|exact H2|].
        rewrite Hr. apply in_or_app. now left.
    + assert (E : output_ops cf k = []).
      { unfold output_ops. rewrite Hw. cbn. apply N.eqb_neq in Hk. now rewrite Hk. }
      rewrite E in Hp. cbn in Hp.
      apply (IH k c f p Hc); [lia| |now exists q].
      intros m Hm. destruct (N.eq_dec m k) as [->|]; [exact Hk|]. apply Hgap. lia.
Qed.

(** Until something is completed nothing is claimed; afterwards the file
    completed last is intact. *)
Lemma survive_from_any : forall cf, del cf <> DelSingle -> writer cf = true -> 0 < writer_step cf ->
  forall n s f p c,
  crash_prefix p (session_ops cf s n) -> last_completed p = Some c ->
  holds (exec f p) (numbered c) c.
Proof.
  intros cf Hd Hw Hws. induction n as [|n IH]; intros s f p c [q Hp] HL.
  - cbn in Hp. destruct p; discriminate.
  - unfold session_ops in Hp. cbn [steps_after flat_map] in Hp.
    change (flat_map (output_ops cf) (steps_after (s + 1) n)) with (session_ops cf (s+1) n) in Hp.
    set (k := s + 1) in *.
    destruct (N.eqb_spec (k mod writer_step cf) 0) as [Hk|Hk].
    + destruct (app_split _ _ _ _ Hp) as [(r & -> & Hr)|(r & Hr & Hne)].
      * assert (F : holds (exec f (output_ops cf k)) (numbered k) k).
        { unfold output_ops. rewrite Hw, Hk. cbn [andb N.eqb]. rewrite exec_app.
          assert (E' : numbered k = ckpt_name (del cf) k) by (destruct (del cf); [congruence|reflexivity..]).
          rewrite E'. apply exec_make. }
        assert (HLo : last_completed (output_ops cf k) = Some k).
        { unfold output_ops. rewrite Hw, Hk. cbn [andb N.eqb]. rewrite last_completed_app.
          now rewrite last_completed_make. }
        destruct (survive cf Hd Hw Hws n k k _ r F) as (c' & Hle & Hc' & Hh).
        { lia. } { intros; lia. } { exists q. exact Hr. }
        rewrite last_completed_app, HLo in HL. rewrite exec_app.
        assert (c = c') by (destruct (last_completed r); congruence). now subst.
      * rewrite (last_completed_strict cf k p r Hr Hne) in HL. discriminate.
    + assert (E : output_ops cf k = []).
      { unfold output_ops. rewrite Hw. cbn. apply N.eqb_neq in Hk. now rewrite Hk. }
      rewrite E in Hp. cbn in Hp. apply (IH k f p c); [now exists q|exact HL].
Qed.

(** ** Chains of crashed sessions *)

(** Any number of sessions, each restarted from a complete checkpoint and
    killed at an arbitrary point (settings may change between sessions). *)
Inductive sessions : fs -> fs -> Prop :=
| sessions_none : forall f, sessions f f
| sessions_more : forall f cf r n p g,
    del cf <> DelSingle -> writer cf = true -> 0 < writer_step cf ->
    holds f (numbered r) r ->
    crash_prefix p (session_ops cf r n) ->
    sessions (exec f p) g -> sessions f g.

Lemma survive_restart : forall cf, del cf <> DelSingle -> writer cf = true -> 0 < writer_step cf ->
  forall n r f p, holds f (numbered r) r ->
  crash_prefix p (session_ops cf r n) ->
  exists c, r <= c /\ holds (exec f p) (numbered c) c.
Proof.
  intros cf Hd Hw Hws n r f p H Hp.
  destruct (survive cf Hd Hw Hws n r r f p H) as (c & Hle & _ & Hh); [lia|intros; lia|exact Hp|].
  exists c. now split.
Qed.

Lemma survive_sessions : forall f g, sessions f g ->
  (exists r, holds f (numbered r) r) -> exists c, holds g (numbered c) c.
Proof.
  induction 1 as [f|f cf r n p g Hd Hw Hws Hr Hp _ IH]; intros H; [exact H|].
  apply IH. destruct (survive_restart cf Hd Hw Hws n r f p Hr Hp) as (c & _ & Hc).
  now exists c.
Qed.

(** ** Exact set of files with deletion enabled (C12) *)

(** Independent description: the file of step [k] exists after step [N] (fresh
    run) iff [k] was an output step and it is one of the two newest or its number
    is at most 1. *)
Definition kept (w N k : N) : Prop :=
  0 < k <= N /\ (w | k) /\ (N < k + 2 * w \/ k <= 1).

Lemma steps_after_last : forall n s, steps_after s (S n) = steps_after s n ++ [s + N.of_nat (S n)].
Proof.
  induction n as [|n IH]; intros s; [reflexivity|].
  change (steps_after s (S (S n))) with ((s + 1) :: steps_after (s + 1) (S n)).
  rewrite IH. cbn [steps_after app]. replace (s + 1 + N.of_nat (S n)) with (s + N.of_nat (S (S n))) by lia. reflexivity.
Qed.

Lemma session_last cf s n : session_ops cf s (S n) =
  session_ops cf s n ++ output_ops cf (s + N.of_nat (S n)).
Proof. unfold session_ops. rewrite steps_after_last, flat_map_app. cbn. now rewrite app_nil_r. Qed.

Lemma retained : forall cf, del cf = DelOld -> writer cf = true -> 0 < writer_step cf ->
  forall n nm,
  let f := exec fs_empty (session_ops cf 0 n) in
  (forall k, kept (writer_step cf) (N.of_nat n) k -> f (numbered k) = Some (Content k true)) /\
  ((forall k, kept (writer_step cf) (N.of_nat n) k -> nm <> numbered k) -> f nm = None).
Proof.
  intros cf Hd Hw Hws. set (w := writer_step cf) in *.
  induction n as [|n IH]; intros nm; cbn zeta.
  - split; [|reflexivity]. intros k [H _]. cbn in H. lia.
  - rewrite session_last, exec_app.
    change (0 + N.of_nat (S n)) with (N.of_nat (S n)).
    set (f := exec fs_empty (session_ops cf 0 n)) in *.
    set (K := N.of_nat (S n)). assert (HK : K = N.of_nat n + 1) by lia.
    set (N0 := N.of_nat n) in *. clearbody N0 K.
    destruct (N.eqb_spec (K mod w) 0) as [Hk|Hk].
    + assert (Eo : output_ops cf K = delete_previous_ops w K ++ make_ops cf K).
      { unfold output_ops. fold w. rewrite Hw, Hk, Hd. reflexivity. }
      assert (En : ckpt_name (del cf) K = numbered K) by (rewrite Hd; reflexivity).
      assert (Hdiv : (w | K)) by (apply N.mod_divide; [lia|exact Hk]).
      assert (Fother : forall m, m <> numbered K ->
                exec f (output_ops cf K) m = exec f (delete_previous_ops w K) m).
      { intros m Hm. rewrite Eo, exec_app. apply exec_untouched.
        intros o Ho T. apply (make_ops_touch _ _ _ _ Ho) in T. congruence. }
      assert (FK : exec f (output_ops cf K) (numbered K) = Some (Content K true)).
      { rewrite Eo, exec_app, <- En. apply exec_make. }
      (* effect of the deletion on other names *)
      assert (Fdel : forall m, m <> numbered K ->
        exec f (delete_previous_ops w K) m =
        if 1 + 2 * w <? K then if String.eqb m (numbered (K - 2 * w)) then None else f m else f m).
      { intros m Hm. unfold delete_previous_ops. destruct (N.ltb_spec (1 + 2 * w) K) as [Hlt|]; [|reflexivity].
        unfold exec; cbn [fold_left exec1]. assert (KP : kept w N0 (K - 2 * w)).
        { split; [lia|]. split; [|left; lia]. destruct Hdiv as [z Hz]. exists (z - 2). rewrite N.mul_sub_distr_r. lia. }
        rewrite (proj1 (IH EmptyString) _ KP).
        assert (NE : numbered (K - 2 * w) <> numbered K) by (intros E; apply numbered_inj in E; lia).
        rewrite (proj2 (String.eqb_neq _ _) NE).
        unfold upd. destruct (String.eqb m (numbered (K - 2*w))); [reflexivity|].
        apply String.eqb_neq in Hm. now rewrite Hm. }
      split.
      * intros k (Hr & Hdk & Hkeep). destruct (N.eq_dec k K) as [->|Hne]; [exact FK|].
        assert (Hnm : numbered k <> numbered K) by (intros E; apply numbered_inj in E; lia).
        rewrite (Fother _ Hnm), (Fdel _ Hnm).
        assert (KP : kept w N0 k).
        { split; [lia|]. split; [exact Hdk|]. lia. }
        destruct (N.ltb_spec (1 + 2 * w) K) as [Hlt|]; [|exact (proj1 (IH EmptyString) _ KP)].
        destruct (String.eqb_spec (numbered k) (numbered (K - 2 * w))) as [E|_];
          [|exact (proj1 (IH EmptyString) _ KP)].
        apply numbered_inj in E. lia.
      * intros Hno.
        assert (Hnm : nm <> numbered K).
        { apply Hno. split; [lia|]. split; [exact Hdiv|left; lia]. }
        rewrite (Fother _ Hnm), (Fdel _ Hnm).
        destruct (N.ltb_spec (1 + 2 * w) K) as [Hlt|Hge].
        -- destruct (String.eqb_spec nm (numbered (K - 2 * w))) as [->|Hn2]; [reflexivity|].
           apply (proj2 (IH nm)). intros k (Hr & Hdk & Hkeep) ->.
           assert (Hd2 : K <= k + 2 * w \/ k <= 1) by lia.
           destruct (N.eq_dec (k + 2 * w) K) as [E|NE].
           { apply Hn2. f_equal. lia. }
           apply (Hno k); [|reflexivity]. split; [lia|]. split; [exact Hdk|]. lia.
        -- apply (proj2 (IH nm)). intros k (Hr & Hdk & Hkeep) ->.
           apply (Hno k); [|reflexivity]. split; [lia|]. split; [exact Hdk|]. lia.
    + assert (E : output_ops cf K = []).
      { unfold output_ops. fold w. rewrite Hw. cbn. apply N.eqb_neq in Hk. now rewrite Hk. }
      rewrite E. cbn [exec fold_left]. 
      assert (Hnd : ~ (w | K)) by (rewrite <- N.mod_divide by lia; exact Hk).
      split.
      * intros k (Hr & Hdk & Hkeep). apply (proj1 (IH EmptyString)).
        destruct (N.eq_dec k K) as [->|]; [contradiction|].
        split; [lia|]. split; [exact Hdk|]. lia.
      * intros Hno. apply (proj2 (IH nm)). intros k (Hr & Hdk & Hkeep) ->.
        apply (Hno k); [|reflexivity]. split; [lia|]. split; [exact Hdk|].
        destruct Hkeep as [Hk2|]; [|lia]. left.
        destruct (N.eq_dec (k + 2 * w) K) as [E2|]; [|lia].
        exfalso. apply Hnd. destruct Hdk as [z Hz]. exists (z + 2). lia.
Qed.

(** ** Steps and outputs of interrupted runs (C13) *)

(** What a user expects: the initial output, then the steps in order with an
    output after each step divisible by the interval. *)
Definition expected_steps (Nt : N) : list N := map N.of_nat (seq 1 (N.to_nat Nt)).

Definition stepno (e : event) : list N := match e with Step k => [k] | Out _ => [] end.
Definition outno (e : event) : list N := match e with Out k => [k] | Step _ => [] end.
Definition steps_of (l : list event) := flat_map stepno l.
Definition outs_of (l : list event) := flat_map outno l.

Lemma steps_after_seq : forall n s, steps_after s n = map (fun i => s + N.of_nat i) (seq 1 n).
Proof.
  induction n as [|n IH]; intros s; [reflexivity|].
  cbn [steps_after seq map]. f_equal. rewrite IH, <- (seq_shift n 1), map_map.
  apply map_ext. intros a. lia.
Qed.

Lemma loop_split cf a b c : a <= b <= c ->
  loop_events cf a b ++ loop_events cf b c = loop_events cf a c.
Proof.
  intros H. unfold loop_events. rewrite <- flat_map_app. f_equal.
  rewrite !steps_after_seq.
  assert (E : N.to_nat (c - a) = (N.to_nat (b - a) + N.to_nat (c - b))%nat) by lia.
  rewrite E, seq_app, map_app. f_equal.
  replace (1 + N.to_nat (b - a))%nat with (N.to_nat (b - a) + 1)%nat by lia.
  assert (G : forall m n, seq (m + 1) n = map (fun i => (m + i)%nat) (seq 1 n)).
  { intros m n. revert m. induction n as [|n IHn]; intros m; [reflexivity|].
    cbn [seq map]. f_equal.
    change (S (m + 1))%nat with (S m + 1)%nat. rewrite IHn, <- (seq_shift n 1), map_map.
    apply map_ext. intros; lia. }
  rewrite (G (N.to_nat (b - a))), map_map. apply map_ext. intros i. lia.
Qed.

(** A chain of restarts at steps [cs] ending at [Nt]. *)
Fixpoint restarts (cf : ckpt_cfg) (cur : N) (cs : list N) (Nt : N) : list event :=
  match cs with
  | [] => run_events cf true cur Nt
  | c :: cs' => run_events cf true cur c ++ restarts cf c cs' Nt
  end.

(** Fresh run up to the first restart step, then restarts. *)
Definition interrupted (cf : ckpt_cfg) (cs : list N) (Nt : N) : list event :=
  match cs with
  | [] => run_events cf false 0 Nt
  | c :: cs' => run_events cf false 0 c ++ restarts cf c cs' Nt
  end.

Fixpoint increasing (lo : N) (cs : list N) (hi : N) : Prop :=
  match cs with [] => lo <= hi | c :: cs' => lo <= c /\ 0 < c /\ increasing c cs' hi end.

Lemma run_restart cf s Nt : 0 < s -> run_events cf true s Nt = loop_events cf s Nt.
Proof. intros H. unfold run_events. destruct (N.eqb_spec s 0); [lia|reflexivity]. Qed.

Lemma increasing_le : forall cs lo hi, increasing lo cs hi -> lo <= hi.
Proof. induction cs; cbn; intros lo hi H; [exact H|]. destruct H as (A & B & C). apply IHcs in C. lia. Qed.

Lemma restarts_loop cf : forall cs s Nt, 0 < s -> increasing s cs Nt ->
  restarts cf s cs Nt = loop_events cf s Nt.
Proof.
  induction cs as [|c cs IH]; intros s Nt Hs Hi; cbn.
  - now apply run_restart.
  - destruct Hi as (A & B & C). rewrite run_restart, IH by assumption.
    apply loop_split. apply increasing_le in C. lia.
Qed.

Lemma interrupted_direct cf cs Nt : increasing 0 cs Nt ->
  interrupted cf cs Nt = run_events cf false 0 Nt.
Proof.
  destruct cs as [|c cs]; intros Hi; [reflexivity|]. cbn. destruct Hi as (A & B & C).
  rewrite restarts_loop by assumption.
  unfold run_events. cbn. rewrite <- app_assoc. f_equal.
  apply loop_split. apply increasing_le in C. lia.
Qed.

Lemma steps_of_loop cf s Nt : steps_of (loop_events cf s Nt) = steps_after s (N.to_nat (Nt - s)).
Proof.
  unfold loop_events, steps_of. induction (steps_after s (N.to_nat (Nt - s))) as [|k l IH]; [reflexivity|].
  cbn [flat_map]. rewrite flat_map_app, IH. cbn.
  destruct (writer cf && _); reflexivity.
Qed.

Lemma outs_of_loop cf s Nt : writer cf = true ->
  outs_of (loop_events cf s Nt) =
  filter (fun k => k mod writer_step cf =? 0) (steps_after s (N.to_nat (Nt - s))).
Proof.
  intros Hw. unfold loop_events, outs_of. induction (steps_after s (N.to_nat (Nt - s))) as [|k l IH]; [reflexivity|].
  cbn [flat_map filter]. rewrite flat_map_app, IH. rewrite Hw. cbn.
  destruct (k mod writer_step cf =? 0); reflexivity.
Qed.

Lemma div_bounds : forall M w : N, w <> 0 -> M / w * w <= M < M / w * w + w.
Proof.
  intros M w W. pose proof (N.div_mod M w W) as E. pose proof (N.mod_lt M w W) as L.
  rewrite (N.mul_comm (M / w) w). set (a := w * (M / w)) in *. set (b := M mod w) in *.
  clearbody a b. lia.
Qed.
