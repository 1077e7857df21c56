(** Lemmas for MemModel.v: a run can be followed one pointer variable at a time. *)
From Coq Require Import List Arith NArith ZArith Bool String Lia.
From Verif Require Import MemModel.
Import ListNotations.
Open Scope string_scope.
Open Scope list_scope.
Open Scope nat_scope.

Lemma var_eqb_spec f g : reflect (f = g) (var_eqb f g).
Proof.
  unfold var_eqb. destruct f as [a i], g as [b j]. cbn [fst snd].
  destruct (String.eqb_spec a b), (Nat.eqb_spec i j); cbn; constructor; congruence.
Qed.

(** ** One variable *)
Inductive status := SNull | SWild | SConst | SLive (n : N) | SDead.
Definition lstep (x : status) (p : op) : option status :=
  match p, x with
  | Get _ _, SLive _ => None
  | Get _ n, _ => Some (SLive n)
  | Text _, SLive _ => None
  | Text _, _ => Some SConst
  | Entry _ k, SLive n => if (8 * N.of_nat k + 8 <=? n)%N then Some x else None
  | Entry _ _, _ => None
  | Rel _, SNull => Some SNull
  | Rel _, SLive _ => Some SDead
  | Rel _, _ => None
  end.
Fixpoint lrun (x : status) (l : list op) : option status :=
  match l with [] => Some x | p :: r => match lstep x p with Some y => lrun y r | None => None end end.
Definition subject (p : op) : var := match p with Get f _ => f | Text f => f | Entry f _ => f | Rel f => f end.
Definition on (f : var) (p : op) : bool := var_eqb (subject p) f.

Definition agrees (s : state) (f : var) (x : status) : Prop :=
  match x with
  | SNull => value s f = Null | SWild => value s f = Wild | SConst => value s f = Constant
  | SLive n => exists b, value s f = Block b /\ size_of s b = Some n
  | SDead => exists b, value s f = Block b /\ size_of s b = None
  end.
Record inv (s : state) (a : var -> status) : Prop := {
  i_agrees : forall f, agrees s f (a f);
  i_one : forall f g b, value s f = Block b -> value s g = Block b -> f = g;
  i_lt : forall f b, value s f = Block b -> b < next s;
  i_owned : forall b, size_of s b <> None -> exists f, value s f = Block b;
  i_fresh : forall b, next s <= b -> size_of s b = None }.

Lemma set_same v f p : set_var v f p f = p.
Proof. unfold set_var. destruct (var_eqb_spec f f); congruence. Qed.
Lemma set_other v f p g : f <> g -> set_var v f p g = v g.
Proof. intros. unfold set_var. destruct (var_eqb_spec f g); congruence. Qed.

Lemma not_live_not_owner s a f b n : inv s a -> a f = SLive n \/ (forall m, a f <> SLive m) -> (forall m, a f <> SLive m) ->
  size_of s b <> None -> value s f <> Block b.
Proof.
  intros I _ NL L E. pose proof (i_agrees s a I f) as A. destruct (a f) as [| | |m|]; cbn in A; try congruence.
  - elim (NL m). reflexivity.
  - destruct A as [c [E1 E2]]. rewrite E in E1. injection E1 as <-. contradiction.
Qed.

Lemma step_sim s a p y : inv s a -> lstep (a (subject p)) p = Some y ->
  exists t, step s p = Some t /\ inv t (fun g => if var_eqb (subject p) g then y else a g).
Proof.
  intros I H. destruct I as [IA I1 IL IO IF]. destruct p as [f n|f|f k|f]; cbn [subject] in *; cbn [lstep] in H.
  - (* Get *)
    assert (NL : forall m, a f <> SLive m) by (intros m E; rewrite E in H; discriminate).
    assert (y = SLive n) by (destruct (a f); congruence). subst y. eexists. split; [reflexivity|].
    assert (NB : forall b, size_of s b <> None -> value s f <> Block b)
      by (intros b; eapply (not_live_not_owner s a f b n); [constructor; assumption|right; exact NL|exact NL]).
    assert (FN : size_of s (next s) = None) by (apply IF; lia).
    constructor; cbn [value size_of next].
    + intros g. destruct (var_eqb_spec f g) as [<-|N].
      * cbn. exists (next s). rewrite set_same. unfold set_block. rewrite Nat.eqb_refl. split; reflexivity.
      * pose proof (IA g) as A. destruct (a g); cbn in *; rewrite set_other by exact N; try exact A.
        -- destruct A as [b [A1 A2]]. exists b. split; [exact A1|]. unfold set_block. destruct (Nat.eqb_spec (next s) b); [subst; rewrite FN in A2; discriminate|exact A2].
        -- destruct A as [b [A1 A2]]. exists b. split; [exact A1|]. unfold set_block. destruct (Nat.eqb_spec (next s) b); [subst; pose proof (IL g _ A1); lia|exact A2].
    + intros g h b. destruct (var_eqb_spec f g) as [<-|Ng], (var_eqb_spec f h) as [<-|Nh]; rewrite ?set_same, ?set_other by assumption; intros E1 E2; try reflexivity.
      * injection E1 as <-. pose proof (IL h _ E2). lia.
      * injection E2 as <-. pose proof (IL g _ E1). lia.
      * exact (I1 g h b E1 E2).
    + intros g b. destruct (var_eqb_spec f g) as [<-|Ng]; rewrite ?set_same, ?set_other by assumption; intros E; [injection E as <-; lia|pose proof (IL g b E); lia].
    + intros b. unfold set_block. destruct (Nat.eqb_spec (next s) b) as [<-|Nb]; intros L.
      * exists f. apply set_same.
      * destruct (IO b L) as [g Hg]. exists g. rewrite set_other; [exact Hg|]. intros <-. exact (NB b L Hg).
    + intros b Hb. unfold set_block. destruct (Nat.eqb_spec (next s) b); [lia|apply IF; lia].
  - (* Text *)
    assert (NL : forall m, a f <> SLive m) by (intros m E; rewrite E in H; discriminate).
    assert (y = SConst) by (destruct (a f); congruence). subst y. eexists. split; [reflexivity|].
    assert (NB : forall b, size_of s b <> None -> value s f <> Block b)
      by (intros b; eapply (not_live_not_owner s a f b 0%N); [constructor; assumption|right; exact NL|exact NL]).
    constructor; cbn [value size_of next].
    + intros g. destruct (var_eqb_spec f g) as [<-|N]; [cbn; apply set_same|].
      pose proof (IA g) as A. destruct (a g); cbn in *; rewrite set_other by exact N; exact A.
    + intros g h b. destruct (var_eqb_spec f g) as [<-|Ng], (var_eqb_spec f h) as [<-|Nh]; rewrite ?set_same, ?set_other by assumption; intros E1 E2; try discriminate. exact (I1 g h b E1 E2).
    + intros g b. destruct (var_eqb_spec f g) as [<-|Ng]; rewrite ?set_same, ?set_other by assumption; intros E; [discriminate|exact (IL g b E)].
    + intros b L. destruct (IO b L) as [g Hg]. exists g. rewrite set_other; [exact Hg|]. intros <-. exact (NB b L Hg).
    + exact IF.
  - (* Entry *)
    destruct (a f) as [| | |m|] eqn:E; try discriminate. destruct (8 * N.of_nat k + 8 <=? m)%N eqn:K; [|discriminate]. injection H as <-.
    pose proof (IA f) as A. rewrite E in A. destruct A as [b [A1 A2]]. exists s. cbn [step]. rewrite A1, A2, K. split; [reflexivity|].
    constructor; try assumption. intros g. destruct (var_eqb_spec f g) as [<-|]; [exists b; split; assumption|apply IA].
  - (* Rel *)
    pose proof (IA f) as A. destruct (a f) as [| | |m|] eqn:E; try discriminate; injection H as <-; cbn in A.
    + exists s. cbn [step]. rewrite A. split; [reflexivity|]. constructor; try assumption.
      intros g. destruct (var_eqb_spec f g) as [<-|]; [exact A|apply IA].
    + destruct A as [b [A1 A2]]. eexists. cbn [step]. rewrite A1, A2. split; [reflexivity|].
      constructor; cbn [value size_of next].
      * intros g. destruct (var_eqb_spec f g) as [<-|N].
        -- cbn. exists b. split; [exact A1|]. unfold set_block. rewrite Nat.eqb_refl. reflexivity.
        -- pose proof (IA g) as Ag. destruct (a g); cbn in *; try exact Ag; destruct Ag as [c [G1 G2]]; exists c; (split; [exact G1|]);
             unfold set_block; destruct (Nat.eqb_spec b c); try exact G2; subst; [elim N; exact (I1 f g c A1 G1)|reflexivity].
      * exact I1.
      * exact IL.
      * intros c. unfold set_block. destruct (Nat.eqb_spec b c); intros L; [elim L; reflexivity|exact (IO c L)].
      * intros c Hc. unfold set_block. destruct (Nat.eqb_spec b c); [reflexivity|exact (IF c Hc)].
Qed.

Lemma exec_sim l : forall s a y, inv s a -> (forall f, lrun (a f) (filter (on f) l) = Some (y f)) ->
  exists t, exec s l = Some t /\ inv t y.
Proof.
  induction l as [|p l IH]; intros s a y I H.
  - exists s. split; [reflexivity|]. cbn in H. destruct I as [IA I1 IL IO IF]. constructor; try assumption.
    intros f. specialize (H f). injection H as <-. apply IA.
  - assert (Hp : exists x, lstep (a (subject p)) p = Some x).
    { specialize (H (subject p)). cbn [filter] in H. unfold on at 1 in H. destruct (var_eqb_spec (subject p) (subject p)); [|congruence].
      cbn [lrun] in H. destruct (lstep (a (subject p)) p) as [x|]; [exists x; reflexivity|discriminate]. }
    destruct Hp as [x Hx]. destruct (step_sim s a p x I Hx) as [t [St It]].
    destruct (IH t _ y It) as [u [Eu Iu]].
    + intros f. specialize (H f). cbn [filter] in H. unfold on at 1 in H. destruct (var_eqb_spec (subject p) f) as [E|N].
      * subst f. cbn [lrun] in H. rewrite Hx in H. exact H.
      * exact H.
    + exists u. cbn [exec]. rewrite St. split; assumption.
Qed.

(** A variable whose local run fails makes the whole run fail, unless by obtaining a
    second block (a leak). *)
Lemma app_lrun x l r : lrun x (l ++ r) = match lrun x l with Some y => lrun y r | None => None end.
Proof. revert x. induction l as [|p l IH]; intros x; cbn; [reflexivity|]. destruct (lstep x p); [apply IH|reflexivity]. Qed.

(** ** Statements *)
Definition loc (f : var) (t : stmt) : list op :=
  match t with
  | Do p => if on f p then [p] else []
  | GetEach n c b e z => if var_eqb (b, 0) f then map (Entry f) (filter c (seq 0 n)) else
      if (e =? fst f)%string then if (snd f <? n) && c (snd f) then [Get f z] else [] else []
  | RelEach n c b e => if var_eqb (b, 0) f then map (Entry f) (filter c (seq 0 n)) else
      if (e =? fst f)%string then if (snd f <? n) && c (snd f) then [Rel f] else [] else []
  end.
Definition wf (t : stmt) : bool := match t with Do _ => true | GetEach _ _ b e _ => negb (b =? e)%string | RelEach _ _ b e => negb (b =? e)%string end.

Lemma filter_flat {A B} (p : B -> bool) (g : A -> list B) l : filter p (flat_map g l) = flat_map (fun x => filter p (g x)) l.
Proof. induction l as [|x l IH]; cbn; [reflexivity|]. rewrite filter_app, IH. reflexivity. Qed.

Lemma each_base (c : nat -> bool) f g b e l : f = (b, 0) -> b <> e -> (forall k, subject (g k) = (e, k)) ->
  flat_map (fun k => filter (on f) (if c k then [Entry (b, 0) k; g k] else [])) l = map (Entry f) (filter c l).
Proof.
  intros -> N G. induction l as [|k l IH]; [reflexivity|]. cbn [flat_map filter]. rewrite IH. destruct (c k); cbn [filter]; [|reflexivity].
  unfold on at 1. cbn [subject]. destruct (var_eqb_spec (b, 0) (b, 0)); [|congruence]. unfold on. rewrite G.
  destruct (var_eqb_spec (e, k) (b, 0)) as [E|]; [injection E; intros; congruence|]. reflexivity.
Qed.
Lemma each_elem (c : nat -> bool) f (g : nat -> op) b e : b <> e -> fst f = e -> (forall k, subject (g k) = (e, k)) -> forall n m,
  flat_map (fun k => filter (on f) (if c k then [Entry (b, 0) k; g k] else [])) (seq m n) =
  (if (m <=? snd f) && (snd f <? m + n) && c (snd f) then [g (snd f)] else []).
Proof.
  intros N F G. induction n as [|n IH]; intros m.
  - cbn [seq flat_map]. destruct (Nat.leb_spec m (snd f)), (Nat.ltb_spec (snd f) (m + 0)); cbn; try reflexivity. lia.
  - cbn [seq flat_map]. rewrite IH. destruct f as [s i]. cbn [fst snd] in *. subst s.
    assert (H : filter (on (e, i)) (if c m then [Entry (b, 0) m; g m] else []) = if (m =? i) && c i then [g i] else []).
    { destruct (Nat.eqb_spec m i) as [->|D].
      - destruct (c i); cbn [filter andb]; [|reflexivity]. unfold on at 1. cbn [subject]. destruct (var_eqb_spec (b, 0) (e, i)) as [E|]; [injection E; congruence|].
        unfold on. rewrite G. destruct (var_eqb_spec (e, i) (e, i)); [reflexivity|congruence].
      - cbn [andb]. destruct (c m); cbn [filter]; [|reflexivity]. unfold on at 1. cbn [subject]. destruct (var_eqb_spec (b, 0) (e, i)) as [E|]; [injection E; congruence|].
        unfold on. rewrite G. destruct (var_eqb_spec (e, m) (e, i)); [congruence|reflexivity]. }
    rewrite H. destruct (Nat.eqb_spec m i), (Nat.leb_spec m i), (Nat.leb_spec (S m) i), (Nat.ltb_spec i (S m + n)), (Nat.ltb_spec i (m + S n)), (c i); cbn; try reflexivity; lia.
Qed.
Lemma each_none (c : nat -> bool) f (g : nat -> op) b e l : f <> (b, 0) -> fst f <> e -> (forall k, subject (g k) = (e, k)) ->
  flat_map (fun k => filter (on f) (if c k then [Entry (b, 0) k; g k] else [])) l = [].
Proof.
  intros N F G. induction l as [|k l IH]; [reflexivity|]. cbn [flat_map]. rewrite IH, app_nil_r. destruct (c k); cbn [filter]; [|reflexivity].
  unfold on at 1. cbn [subject]. destruct (var_eqb_spec (b, 0) f); [congruence|]. unfold on. rewrite G. destruct (var_eqb_spec (e, k) f) as [<-|]; [elim F; reflexivity|reflexivity].
Qed.

Lemma loc_spec f t : wf t = true -> filter (on f) (expand t) = loc f t.
Proof.
  destruct t as [p|n c b e z|n c b e]; cbn [wf loc expand]; intros W.
  - cbn [filter]. reflexivity.
  - apply negb_true_iff in W. apply String.eqb_neq in W. rewrite filter_flat. destruct (var_eqb_spec (b, 0) f) as [E|N].
    + apply (each_base c f (fun k => Get (e, k) z) b e); [congruence|exact W|reflexivity].
    + destruct (String.eqb_spec e (fst f)) as [E|N2].
      * rewrite (each_elem c f (fun k => Get (e, k) z) b e) by (congruence || reflexivity). destruct f as [s i]. cbn [fst snd] in *. subst s. reflexivity.
      * apply (each_none c f (fun k => Get (e, k) z) b e); solve [congruence|reflexivity].
  - apply negb_true_iff in W. apply String.eqb_neq in W. rewrite filter_flat. destruct (var_eqb_spec (b, 0) f) as [E|N].
    + apply (each_base c f (fun k => Rel (e, k)) b e); [congruence|exact W|reflexivity].
    + destruct (String.eqb_spec e (fst f)) as [E|N2].
      * rewrite (each_elem c f (fun k => Rel (e, k)) b e) by (congruence || reflexivity). destruct f as [s i]. cbn [fst snd] in *. subst s. reflexivity.
      * apply (each_none c f (fun k => Rel (e, k)) b e); solve [congruence|reflexivity].
Qed.
Lemma locs_spec f l : forallb wf l = true -> filter (on f) (ops l) = flat_map (loc f) l.
Proof.
  intros W. unfold ops. rewrite filter_flat. rewrite forallb_forall in W. induction l as [|t l IH]; [reflexivity|].
  cbn [flat_map]. rewrite loc_spec by (apply W; left; reflexivity). rewrite IH; [reflexivity|]. intros x Hx. apply W. right. exact Hx.
Qed.

(** Entries of a table of pointers exist. *)
Lemma entries f n N0 l : (forall k, In k l -> k < n) -> (8 * N.of_nat n <= N0)%N -> lrun (SLive N0) (map (Entry f) l) = Some (SLive N0).
Proof.
  intros H HN. induction l as [|k l IH]; [reflexivity|]. cbn [map lrun lstep]. destruct (N.leb_spec (8 * N.of_nat k + 8) N0) as [_|C].
  - apply IH. intros j Hj. apply H. right. exact Hj.
  - pose proof (H k (or_introl eq_refl)). lia.
Qed.

(** ** Names *)
Definition strings (t : stmt) : list string :=
  match t with Do p => [fst (subject p)] | GetEach _ _ b e _ => [b; e] | RelEach _ _ b e => [b; e] end.
Definition plain (s : string) (t : stmt) : bool :=
  match t with Do p => (negb (fst (subject p) =? s)%string || (snd (subject p) =? 0)) | GetEach _ _ b e _ => negb (b =? s)%string && negb (e =? s)%string | RelEach _ _ b e => negb (b =? s)%string && negb (e =? s)%string end.
Lemma unmentioned f l : ~ In (fst f) (flat_map strings l) -> flat_map (loc f) l = [].
Proof.
  induction l as [|t l IH]; [reflexivity|]. cbn [flat_map]. intros H. rewrite IH by (intros K; apply H, in_or_app; right; exact K).
  rewrite app_nil_r. destruct t as [p|n c b e z|n c b e]; cbn [strings] in H; cbn [loc].
  - unfold on. destruct (var_eqb_spec (subject p) f) as [<-|]; [|reflexivity]. elim H. left. reflexivity.
  - destruct (var_eqb_spec (b, 0) f) as [<-|]; [elim H; left; reflexivity|]. destruct (String.eqb_spec e (fst f)) as [->|]; [elim H; right; left; reflexivity|reflexivity].
  - destruct (var_eqb_spec (b, 0) f) as [<-|]; [elim H; left; reflexivity|]. destruct (String.eqb_spec e (fst f)) as [->|]; [elim H; right; left; reflexivity|reflexivity].
Qed.
Lemma plain_index s i l : forallb (plain s) l = true -> i <> 0 -> flat_map (loc (s, i)) l = [].
Proof.
  intros P N. rewrite forallb_forall in P. induction l as [|t l IH]; [reflexivity|]. cbn [flat_map].
  rewrite IH by (intros x Hx; apply P; right; exact Hx). rewrite app_nil_r. specialize (P t (or_introl eq_refl)).
  destruct t as [p|n c b e z|n c b e]; cbn [plain] in P; cbn [loc].
  - unfold on. destruct (var_eqb_spec (subject p) (s, i)) as [E|]; [|reflexivity]. rewrite E in P. cbn [fst snd] in P. rewrite String.eqb_refl in P.
    apply Nat.eqb_eq in P. contradiction.
  - apply andb_true_iff in P. destruct P as [P1 P2]. apply negb_true_iff in P1, P2. apply String.eqb_neq in P1, P2.
    destruct (var_eqb_spec (b, 0) (s, i)) as [E|]; [injection E; congruence|]. cbn [fst]. destruct (String.eqb_spec e s); [contradiction|reflexivity].
  - apply andb_true_iff in P. destruct P as [P1 P2]. apply negb_true_iff in P1, P2. apply String.eqb_neq in P1, P2.
    destruct (var_eqb_spec (b, 0) (s, i)) as [E|]; [injection E; congruence|]. cbn [fst]. destruct (String.eqb_spec e s); [contradiction|reflexivity].
Qed.

Definition start (f : var) : status := if zeroed (fst f) then SNull else SWild.
Lemma inv_initial : inv initial start.
Proof.
  constructor; unfold initial, start; cbn [value size_of next].
  - intros f. destruct (zeroed (fst f)) eqn:E; cbn; rewrite E; reflexivity.
  - intros f g b. destruct (zeroed (fst f)); discriminate.
  - intros f b. destruct (zeroed (fst f)); discriminate.
  - intros b H. elim H. reflexivity.
  - reflexivity.
Qed.

(** ** Failure *)
Fixpoint no_leak (x : status) (l : list op) : bool :=
  match l with
  | [] => true
  | p :: r => match lstep x p with Some y => no_leak y r | None => match p, x with Get _ _, _ => false | Text _, _ => false | _, _ => true end end
  end.
Lemma step_fails s a p : inv s a -> lstep (a (subject p)) p = None -> (forall f n, p <> Get f n) -> (forall f, p <> Text f) -> step s p = None.
Proof.
  intros I H NG NT. pose proof (i_agrees s a I (subject p)) as A. destruct p as [f n|f|f k|f]; [elim (NG f n eq_refl)|elim (NT f eq_refl)| |]; cbn [subject] in *; cbn [step].
  - destruct (a f); cbn in A, H; rewrite ?A; try reflexivity.
    + destruct A as [b [-> ->]]. change (match k with 0%nat => 0%N | S _ => match N.of_nat k with 0%N => 0%N | N.pos q => N.pos (q~0~0~0) end end) with (8 * N.of_nat k)%N in H.
      destruct (8 * N.of_nat k + 8 <=? n)%N eqn:E; [|reflexivity]. exfalso. clear - H E. unfold N.mul in E. destruct (N.of_nat k); cbn in *; rewrite E in H; discriminate.
    + destruct A as [b [-> ->]]. reflexivity.
  - destruct (a f); cbn in A, H; rewrite ?A; try reflexivity; try discriminate. destruct A as [b [-> ->]]. reflexivity.
Qed.
Lemma exec_fails l : forall s a, inv s a -> (forall f, no_leak (a f) (filter (on f) l) = true) ->
  (exists f, lrun (a f) (filter (on f) l) = None) -> exec s l = None.
Proof.
  induction l as [|p l IH]; intros s a I NL [f F]; [discriminate|]. cbn [exec].
  destruct (lstep (a (subject p)) p) as [x|] eqn:E.
  - destruct (step_sim s a p x I E) as [t [-> It]]. apply (IH t _ It).
    + intros g. specialize (NL g). cbn [filter] in NL. unfold on at 1 in NL. destruct (var_eqb_spec (subject p) g) as [Eg|N]; [|exact NL].
      subst g. cbn [no_leak] in NL. rewrite E in NL. exact NL.
    + exists f. cbn [filter] in F. unfold on at 1 in F. destruct (var_eqb_spec (subject p) f) as [Eg|N]; [|exact F].
      subst f. cbn [lrun] in F. rewrite E in F. exact F.
  - rewrite (step_fails s a p I E); [reflexivity| |].
    + intros g n ->. cbn [subject] in E. specialize (NL g). cbn [filter] in NL. unfold on at 1 in NL. cbn [subject] in NL.
      destruct (var_eqb_spec g g); [|congruence]. cbn [no_leak] in NL. rewrite E in NL. discriminate.
    + intros g ->. cbn [subject] in E. specialize (NL g). cbn [filter] in NL. unfold on at 1 in NL. cbn [subject] in NL.
      destruct (var_eqb_spec g g); [|congruence]. cbn [no_leak] in NL. rewrite E in NL. discriminate.
Qed.
