(** Lemmas: extrema, partition, parallel assembly, buffers. *)
From Coq Require Import List ZArith Reals Bool Arith Lia Lra Permutation.
Import ListNotations.
From Verif Require Import GridModel GridProofs ThreadsModel.

(** ** Extrema *)

(** [le x y]: [y] is at least as extreme as [x]. *)
Record extremal (le : R -> R -> Prop) (greater : dbl -> dbl -> bool) : Prop := {
  ex_refl : forall x, le x x;
  ex_trans : forall x y z, le x y -> le y z -> le x z;
  ex_true : forall x y, greater (Fin x) (Fin y) = true -> le y x;
  ex_false : forall x y, greater (Fin x) (Fin y) = false -> le x y }.

Lemma ex_max : extremal Rle dgt.
Proof.
  split; intros.
  - lra. - lra.
  - unfold dgt, Rgtb in H. destruct (Rlt_dec y x); [lra|discriminate].
  - unfold dgt, Rgtb in H. destruct (Rlt_dec y x); [discriminate|lra].
Qed.
Lemma ex_min : extremal Rge (fun x y => dgt y x).
Proof.
  split; intros.
  - lra. - lra.
  - unfold dgt, Rgtb in H. destruct (Rlt_dec x y); [lra|discriminate].
  - unfold dgt, Rgtb in H. destruct (Rlt_dec x y); [discriminate|lra].
Qed.

(** The most extreme of [c] and the elements of [l]. *)
Definition is_extreme (le : R -> R -> Prop) (c : R) (l : list R) (m : R) : Prop :=
  In m (c :: l) /\ forall x, In x (c :: l) -> le x m.

Lemma merge_all_spec le greater (E : extremal le greater) : forall ths hist cur,
  (forall h, In h hist -> le h cur) ->
  exists m, merge_all greater (map Fin hist) (Fin cur) (map (fun p => (Fin (fst p), snd p)) ths) = Fin m /\
  is_extreme le cur (map fst ths) m.
Proof.
  induction ths as [|[mine pick] r IH]; intros hist cur H; cbn [map merge_all fst snd].
  - exists cur. split; [reflexivity|]. split; [now left|]. intros x [<-|[]]. apply (ex_refl _ _ E).
  - change (Fin cur :: map Fin hist) with (map Fin (cur :: hist)).
    rewrite map_nth.
    set (seen := nth pick (cur :: hist) cur).
    assert (Hs : le seen cur).
    { unfold seen. destruct (nth_in_or_default pick (cur :: hist) cur) as [[<-|I]| ->]; [apply (ex_refl _ _ E)|auto|apply (ex_refl _ _ E)]. }
    unfold merge_one.
    assert (K : exists c', (if greater (Fin mine) (Fin seen)
       then if greater (Fin mine) (Fin cur) then Fin mine else Fin cur else Fin cur) = Fin c'
       /\ le cur c' /\ le mine c' /\ (c' = cur \/ c' = mine)).
    { destruct (greater (Fin mine) (Fin seen)) eqn:G1; [destruct (greater (Fin mine) (Fin cur)) eqn:G2|].
      - exists mine. repeat split; [|apply (ex_refl _ _ E)|tauto]. exact (ex_true _ _ E _ _ G2).
      - exists cur. repeat split; [apply (ex_refl _ _ E)| |tauto]. exact (ex_false _ _ E _ _ G2).
      - exists cur. repeat split; [apply (ex_refl _ _ E)| |tauto].
        exact (ex_trans _ _ E _ _ _ (ex_false _ _ E _ _ G1) Hs). }
    destruct K as (c' & -> & L1 & L2 & C).
    destruct (IH (cur :: hist) c') as (m & -> & M1 & M2).
    { intros h [<-|I]; [exact L1|]. eapply (ex_trans _ _ E); [now apply H|exact L1]. }
    exists m. split; [reflexivity|]. split.
    + destruct M1 as [<-|M1]; [destruct C as [->| ->]; cbn; tauto|right; right; exact M1].
    + intros x [<-|[<-|I]].
      * eapply (ex_trans _ _ E); [exact L1|]. apply M2. now left.
      * eapply (ex_trans _ _ E); [exact L2|]. apply M2. now left.
      * apply M2. now right.
Qed.

(** One thread, all its entries finite. *)
Lemma thread_extrema_spec check keep f : forall idx, exists mn mx,
  thread_extrema check keep (fun k => Fin (f k)) idx = Some (Fin mn, Fin mx) /\
  is_extreme Rge (f 0) (map f (filter keep idx)) mn /\ is_extreme Rle (f 0) (map f (filter keep idx)) mx.
Proof.
  intros idx. unfold thread_extrema.
  set (step := fun (s : option (dbl * dbl)) k => match s with None => None | Some (pmin, pmax) => _ end).
  assert (G : forall idx mn mx, exists mn' mx',
    fold_left step idx (Some (Fin mn, Fin mx)) = Some (Fin mn', Fin mx') /\
    is_extreme Rge mn (map f (filter keep idx)) mn' /\ is_extreme Rle mx (map f (filter keep idx)) mx').
  { clear idx. induction idx as [|k r IH]; intros mn mx; cbn [fold_left].
    - exists mn, mx. repeat split; try (now left); intros x [<-|[]]; lra.
    - unfold step at 2. cbn [finite negb]. rewrite andb_false_r. cbn [filter].
      destruct (keep k); cbn [andb].
      + assert (Emx : (if dgt (Fin (f k)) (Fin mx) then Fin (f k) else Fin mx) = Fin (Rmax mx (f k))).
        { destruct (dgt (Fin (f k)) (Fin mx)) eqn:D; [apply (ex_true _ _ ex_max) in D|apply (ex_false _ _ ex_max) in D];
          f_equal; unfold Rmax; destruct (Rle_dec mx (f k)); lra. }
        assert (Emn : (if dgt (Fin mn) (Fin (f k)) then Fin (f k) else Fin mn) = Fin (Rmin mn (f k))).
        { destruct (dgt (Fin mn) (Fin (f k))) eqn:D; [apply (ex_true _ _ ex_max) in D|apply (ex_false _ _ ex_max) in D];
          f_equal; unfold Rmin; destruct (Rle_dec mn (f k)); lra. }
        rewrite Emx, Emn. destruct (IH (Rmin mn (f k)) (Rmax mx (f k))) as (mn' & mx' & -> & [A1 A2] & [B1 B2]).
        exists mn', mx'. split; [reflexivity|]. cbn [map]. split; split.
        * destruct A1 as [<-|A1]; [|now right; right]. unfold Rmin. destruct (Rle_dec mn (f k)); cbn; tauto.
        * intros x [<-|[<-|I]]; [| |apply A2; now right];
          (eapply Rge_trans; [|apply A2; now left]); pose proof (Rmin_l mn (f k)); pose proof (Rmin_r mn (f k)); lra.
        * destruct B1 as [<-|B1]; [|now right; right]. unfold Rmax. destruct (Rle_dec mx (f k)); cbn; tauto.
        * intros x [<-|[<-|I]]; [| |apply B2; now right];
          (eapply Rle_trans; [|apply B2; now left]); pose proof (Rmax_l mx (f k)); pose proof (Rmax_r mx (f k)); lra.
      + apply IH. }
  apply G.
Qed.

Lemma thread_extrema_stops keep a k : forall idx, In k idx -> finite (a k) = false ->
  thread_extrema true keep a idx = None.
Proof.
  intros idx I Hk. unfold thread_extrema.
  set (step := fun (s : option (dbl * dbl)) k => match s with None => None | Some (pmin, pmax) => _ end).
  assert (N : forall l, fold_left step l None = None) by (induction l; [reflexivity|exact IHl]).
  generalize (Some (a 0, a 0)). induction idx as [|j r IH]; intros s; [destruct I|].
  cbn [fold_left]. destruct I as [->|I]; [|now apply IH].
  assert (S0 : step s k = None).
  { unfold step. destruct s as [[p q]|]; [|reflexivity]. now rewrite Hk. }
  rewrite S0. apply N.
Qed.

Lemma opt_all_map {A B} (f : A -> option B) (g : A -> B) l :
  (forall x, In x l -> f x = Some (g x)) -> opt_all (map f l) = Some (map g l).
Proof.
  induction l as [|x r IH]; intros H; [reflexivity|]. cbn. rewrite (H x (or_introl eq_refl)).
  rewrite IH; [reflexivity|]. intros y I. apply H. now right.
Qed.

Lemma opt_all_none {A B} (f : A -> option B) l x : In x l -> f x = None -> opt_all (map f l) = None.
Proof.
  induction l as [|y r IH]; intros I H; [destruct I|]. cbn.
  destruct I as [->|I]; [now rewrite H|]. destruct (f y); [|reflexivity]. now rewrite IH.
Qed.

(** A schedule: a partition of [0..size-1] among threads and two merge orders in
    which every thread occurs exactly once. *)
Definition schedule (size : nat) (parts : list (list nat)) (omax omin : list (nat * nat)) : Prop :=
  Permutation (concat parts) (seq 0 size) /\
  Permutation (map fst omax) (seq 0 (length parts)) /\
  Permutation (map fst omin) (seq 0 (length parts)).

Lemma minmax_spec check keep f size parts omax omin :
  schedule size parts omax omin ->
  exists mn mx, minmax check keep (fun k => Fin (f k)) parts omax omin = Some (Fin mn, Fin mx) /\
  is_extreme Rge (f 0) (map f (filter keep (seq 0 size))) mn /\
  is_extreme Rle (f 0) (map f (filter keep (seq 0 size))) mx.
Proof.
  intros (HP & Hmax & Hmin).
  (* the values computed by the threads *)
  assert (EX : exists mns mxs : list nat -> R, forall p,
    thread_extrema check keep (fun k => Fin (f k)) p = Some (Fin (mns p), Fin (mxs p)) /\
    is_extreme Rge (f 0) (map f (filter keep p)) (mns p) /\
    is_extreme Rle (f 0) (map f (filter keep p)) (mxs p)).
  { exists (fun p => match thread_extrema check keep (fun k => Fin (f k)) p with Some (Fin a, _) => a | _ => 0%R end),
           (fun p => match thread_extrema check keep (fun k => Fin (f k)) p with Some (_, Fin b) => b | _ => 0%R end).
    intros p. destruct (thread_extrema_spec check keep f p) as (mn & mx & -> & A & B). auto. }
  destruct EX as (mns & mxs & HE).
  unfold minmax. rewrite (opt_all_map _ (fun p => (Fin (mns p), Fin (mxs p)))) by (intros p _; apply HE).
  set (ex := map (fun p => (Fin (mns p), Fin (mxs p))) parts).
  assert (G : forall le greater (vals : list nat -> R) (sel : dbl * dbl -> dbl) (order : list (nat * nat)),
    extremal le greater ->
    (forall p, is_extreme le (f 0) (map f (filter keep p)) (vals p)) ->
    (forall p, sel (Fin (mns p), Fin (mxs p)) = Fin (vals p)) -> sel (Fin (f 0), Fin (f 0)) = Fin (f 0) ->
    Permutation (map fst order) (seq 0 (length parts)) ->
    exists m, merge_all greater [] (Fin (f 0))
      (map (fun o => (sel (nth (fst o) ex (Fin (f 0), Fin (f 0))), snd o)) order) = Fin m /\
    is_extreme le (f 0) (map f (filter keep (seq 0 size))) m).
  { intros le greater vals sel order E Hv Hsel Hsel0 Ho.
    set (val_of := fun i => match nth_error parts i with Some p => vals p | None => f 0 end).
    assert (Em : map (fun o => (sel (nth (fst o) ex (Fin (f 0), Fin (f 0))), snd o)) order
                 = map (fun p => (Fin (fst p), snd p)) (map (fun o => (val_of (fst o), snd o)) order)).
    { rewrite map_map. apply map_ext. intros [i a]. cbn [fst snd]. f_equal. unfold val_of, ex.
      destruct (nth_error parts i) as [p|] eqn:Ei.
      - rewrite (nth_error_nth _ _ _ (map_nth_error _ _ _ Ei)). apply Hsel.
      - apply nth_error_None in Ei. rewrite nth_overflow by (now rewrite map_length). apply Hsel0. }
    rewrite Em. destruct (merge_all_spec le greater E (map (fun o => (val_of (fst o), snd o)) order) [] (f 0))
      as (m & Hm & M1 & M2); [intros h []|].
    exists m. split; [exact Hm|]. clear Hm Em.
    (* the merged values are those of all the parts *)
    assert (Hin : forall x, In x (map fst (map (fun o => (val_of (fst o), snd o)) order)) <-> In x (map vals parts)).
    { intros x. rewrite map_map. cbn [fst]. rewrite <- (map_map fst val_of), in_map_iff, in_map_iff. split.
      - intros (i & <- & I). apply (Permutation_in _ Ho) in I. apply in_seq in I.
        destruct (nth_error parts i) as [p|] eqn:Ei.
        + exists p. unfold val_of. rewrite Ei. split; [reflexivity|]. now apply nth_error_In in Ei.
        + apply nth_error_None in Ei. lia.
      - intros (p & <- & I). apply In_nth_error in I as [i Ei]. exists i. split; [unfold val_of; now rewrite Ei|].
        apply (Permutation_in _ (Permutation_sym Ho)). apply in_seq.
        assert (i < length parts) by (apply nth_error_Some; congruence). lia. }
    assert (Hall : forall k, In k (filter keep (seq 0 size)) <-> exists p, In p parts /\ In k (filter keep p)).
    { intros k. rewrite filter_In. split.
      - intros [I K]. apply (Permutation_in _ (Permutation_sym HP)) in I. apply in_concat in I as (p & Ip & Ik).
        exists p. split; [exact Ip|]. now apply filter_In.
      - intros (p & Ip & Ik). apply filter_In in Ik as [Ik K]. split; [|exact K].
        apply (Permutation_in _ HP). apply in_concat. now exists p. }
    split.
    - destruct M1 as [<-|M1]; [now left|]. apply Hin, in_map_iff in M1 as (p & <- & Ip).
      destruct (Hv p) as [V1 _]. destruct V1 as [<-|V1]; [now left|]. right.
      apply in_map_iff in V1 as (k & <- & Ik). apply in_map_iff. exists k. split; [reflexivity|].
      apply Hall. now exists p.
    - intros x [<-|I]; [apply M2; now left|].
      apply in_map_iff in I as (k & <- & Ik). apply Hall in Ik as (p & Ip & Ik).
      eapply (ex_trans _ _ E); [apply (Hv p); right; apply in_map_iff; exists k; split; [reflexivity|exact Ik]|].
      apply M2. right. apply Hin. now apply in_map. }
  destruct (G Rle dgt mxs snd omax ex_max) as (mx & Emx & Smx); try assumption; try reflexivity; [intros p; apply HE|].
  destruct (G Rge (fun x y => dgt y x) mns fst omin ex_min) as (mn & Emn & Smn); try assumption; try reflexivity; [intros p; apply HE|].
  exists mn, mx. cbv zeta. rewrite Emx, Emn. auto.
Qed.

Lemma is_extreme_unique_le c l m m' : is_extreme Rle c l m -> is_extreme Rle c l m' -> m = m'.
Proof. intros [A B] [A' B']. apply Rle_antisym; auto. Qed.
Lemma is_extreme_unique_ge c l m m' : is_extreme Rge c l m -> is_extreme Rge c l m' -> m = m'.
Proof. intros [A B] [A' B']. apply Rge_antisym; auto. Qed.

(** ** Partition *)

Lemma decompose_spec N n d0 : 0 < n ->
  let d := decompose (Z.of_nat N) (Z.of_nat n) d0 in
  forall i, i < n ->
  estart d i = Z.of_nat (i * (N / n)) /\
  (eend d i + 1)%Z = Z.of_nat (if i =? n - 1 then N else (i + 1) * (N / n)) /\
  DD d i = (eend d i + 1 - estart d i)%Z.
Proof.
  intros Hn d. unfold decompose in d.
  set (eps := Z.rem (Z.of_nat N) (Z.of_nat n)) in d.
  set (bs := Z.quot (Z.of_nat N - eps) (Z.of_nat n)) in d.
  assert (He : eps = Z.of_nat (N mod n)).
  { unfold eps. rewrite Z.rem_mod_nonneg by lia. now rewrite Nat2Z.inj_mod. }
  assert (Hdm : N = n * (N / n) + N mod n) by (apply Nat.div_mod; lia).
  assert (Hb : bs = Z.of_nat (N / n)).
  { unfold bs. rewrite He. replace (Z.of_nat N - Z.of_nat (N mod n))%Z with (Z.of_nat (N / n) * Z.of_nat n)%Z by nia.
    apply Z.quot_mul. lia. }
  clearbody eps bs. subst eps bs.
  set (b := N / n) in *. set (e := N mod n) in *. clearbody b e.
  set (body := fun d ith => _) in d.
  pose proof (loop_ind (fun m d' => m <= n ->
    (m < n -> x0 d' = Z.of_nat (m * b)) /\ forall i, i < m ->
      estart d' i = Z.of_nat (i * b) /\
      (eend d' i + 1)%Z = Z.of_nat (if i =? n - 1 then N else (i + 1) * b) /\
      DD d' i = (eend d' i + 1 - estart d' i)%Z) body n 0 (Decomp (estart d0) (eend d0) (DD d0) 0)) as L.
  cbv beta in L. unfold d. rewrite Nat2Z.id. apply L; clear L; [| |lia].
  - intros _. split; [reflexivity|intros; lia].
  - intros m s Hm IH Hle. destruct (IH ltac:(lia)) as [I0 I1]. clear IH. specialize (I0 ltac:(lia)).
    unfold body. cbn [x0 estart eend DD].
    set (dd := if (Z.of_nat m <? Z.of_nat n - 1)%Z then Z.of_nat b else (Z.of_nat b + Z.of_nat e)%Z).
    assert (Hdd : (x0 s + dd)%Z = Z.of_nat (if m =? n - 1 then N else (m + 1) * b)).
    { unfold dd. rewrite I0. destruct (Nat.eqb_spec m (n - 1)).
      - rewrite (proj2 (Z.ltb_ge _ _)) by lia. nia.
      - rewrite (proj2 (Z.ltb_lt _ _)) by lia. nia. }
    split.
    + intros Hm'. rewrite Hdd. destruct (Nat.eqb_spec m (n - 1)); [lia|]. f_equal. lia.
    + intros i Hi. destruct (Nat.eq_dec i m) as [->|Hne].
      * rewrite !upd_same. repeat split; [exact I0|lia|lia].
      * rewrite !upd_other by exact Hne. apply I1. lia.
Qed.

Lemma concat_blocks b N : forall k n, k * b <= N -> n = S k ->
  concat (map (fun i => seq (i * b) ((if i =? n - 1 then N else (i + 1) * b) - i * b)) (seq 0 n)) = seq 0 N.
Proof.
  intros k n HN ->. rewrite seq_S, map_app, concat_app. cbn [map concat plus].
  rewrite (proj2 (Nat.eqb_eq k (S k - 1))) by lia. rewrite app_nil_r.
  rewrite (map_ext_in _ (fun i => seq (i * b) b)).
  2:{ intros i I. apply in_seq in I. rewrite (proj2 (Nat.eqb_neq i (S k - 1))) by lia. f_equal. nia. }
  assert (C : concat (map (fun i => seq (i * b) b) (seq 0 k)) = seq 0 (k * b)).
  { clear HN. induction k as [|k IH]; [reflexivity|].
    rewrite seq_S, map_app, concat_app, IH. cbn [map concat plus]. rewrite app_nil_r.
    replace (S k * b) with (k * b + b) by lia. now rewrite seq_app. }
  rewrite C. replace N with (k * b + (N - k * b)) at 2 by lia. now rewrite seq_app.
Qed.

Lemma thread_nodes_concat N n : 0 < n -> concat (thread_nodes N n) = seq 0 N.
Proof.
  intros Hn. unfold thread_nodes.
  pose proof (decompose_spec N n no_decomp Hn) as D. cbv zeta in D.
  rewrite (map_ext_in _ (fun i => seq (i * (N / n)) ((if i =? n - 1 then N else (i + 1) * (N / n)) - i * (N / n)))).
  - destruct n as [|k]; [lia|]. apply (concat_blocks (N / S k) N k); [|reflexivity].
    pose proof (Nat.mul_div_le N (S k)). lia.
  - intros i I. apply in_seq in I. destruct (D i ltac:(lia)) as (D1 & D2 & _). unfold block.
    rewrite D2, D1. f_equal; lia.
Qed.

Lemma thread_nodes_length N n : length (thread_nodes N n) = n.
Proof. unfold thread_nodes. now rewrite map_length, seq_length. Qed.

Lemma block_size N n nodes : 0 < n -> In nodes (thread_nodes N n) -> length nodes <= N / n + N mod n.
Proof.
  intros Hn I. unfold thread_nodes in I. apply in_map_iff in I as (i & <- & I). apply in_seq in I.
  destruct (decompose_spec N n no_decomp Hn i ltac:(lia)) as (D1 & D2 & _).
  unfold block. rewrite seq_length, D2, D1. pose proof (Nat.div_mod N n). 
  destruct (Nat.eqb_spec i (n - 1)) as [->|]; nia.
Qed.

(** ** Assembly *)

Definition row_of (s : system) (c : nat) : list (Z * R) :=
  if assembled (sgrid s) (typ s c) then entries s c else [].
Definition rows_of (s : system) (nodes : list nat) : list (Z * R) := flat_map (row_of s) nodes.

(** Specification: the stores of a serial assembly that walks over the nodes in
    order, putting each row after the previous one from position [b] on. *)
Fixpoint ic_stores (s : system) (b : Z) (nodes : list nat) : list instr :=
  match nodes with
  | [] => []
  | c :: r => (if assembled (sgrid s) (typ s c) then [store (LIc (eqn s c)) (CI b)] else [])
              ++ ic_stores s (b + Z.of_nat (length (row_of s c))) r
  end.
Fixpoint data_stores (b : Z) (es : list (Z * R)) : list instr :=
  match es with
  | [] => []
  | e :: r => [store (LA b) (CR (snd e)); store (LJ b) (CI (fst e))] ++ data_stores (b + 1) r
  end.

(** The hypotheses on the system. *)
Definition codes (g : unknown) : list Z :=
  match g with
  | EqU => [-1; 2; -2; 0; 11; 13; -12; 30; 31]
  | EqV => [-1; 2; 0; 11; 13; -12; 30; 31]
  | EqP => [-1; 0; 30; 31]
  end%Z.
Definition well_typed (s : system) (N : nat) : Prop :=
  forall c, c < N -> In (typ s c) (codes (sgrid s)).
Definition numbered (s : system) (N : nat) : Prop :=
  forall c c', c < N -> c' < N -> assembled (sgrid s) (typ s c) = true ->
    assembled (sgrid s) (typ s c') = true -> eqn s c = eqn s c' -> c = c'.

Lemma merged_assembled g t : In t (codes g) -> merged t = assembled g t.
Proof.
  destruct g; cbn [codes In]; intros H;
    repeat (destruct H as [<-|H]; [reflexivity|]); destruct H.
Qed.

Lemma data_stores_app : forall a b e, data_stores b (a ++ e) = data_stores b a ++ data_stores (b + Z.of_nat (length a)) e.
Proof.
  induction a as [|x r IH]; intros b e; [cbn; now rewrite Z.add_0_r|].
  cbn [app data_stores]. rewrite IH. cbn [app]. do 4 f_equal. cbn [length]. lia.
Qed.

Lemma ic_stores_app s : forall a b e, ic_stores s b (a ++ e) = ic_stores s b a ++ ic_stores s (b + Z.of_nat (length (rows_of s a))) e.
Proof.
  induction a as [|x r IH]; intros b e; [cbn; now rewrite Z.add_0_r|].
  cbn [app ic_stores]. rewrite IH, <- app_assoc. f_equal. f_equal. f_equal.
  unfold rows_of. cbn [flat_map]. rewrite app_length. lia.
Qed.

Lemma thread_run_buf s : forall nodes t, buf (fold_left (thread_step s) nodes t) = buf t ++ rows_of s nodes.
Proof.
  induction nodes as [|c r IH]; intros t; [cbn; now rewrite app_nil_r|].
  cbn [fold_left]. rewrite IH. unfold thread_step, rows_of. cbn [flat_map]. unfold row_of at 2.
  destruct (assembled _ _); cbn [buf app]; [now rewrite <- app_assoc|reflexivity].
Qed.

Lemma thread_run_keep s e : forall nodes t,
  (forall c, In c nodes -> assembled (sgrid s) (typ s c) = true -> eqn s c <> e) ->
  Itemp (fold_left (thread_step s) nodes t) e = Itemp t e.
Proof.
  induction nodes as [|c r IH]; intros t H; [reflexivity|]. cbn [fold_left].
  rewrite IH by (intros; apply H; [now right|assumption]).
  unfold thread_step. destruct (assembled _ _) eqn:A; [|reflexivity]. cbn [Itemp].
  apply upd_other. apply not_eq_sym. apply H; [now left|exact A].
Qed.

Lemma data_stores_nth es : forall b,
  flat_map (fun k => let l := (b + Z.of_nat k)%Z in let e := nth k es (0%Z, 0%R) in
    [store (LA l) (CR (snd e)); store (LJ l) (CI (fst e))]) (seq 0 (length es)) = data_stores b es.
Proof.
  induction es as [|x r IH]; intros b; [reflexivity|].
  cbn [length]. rewrite <- cons_seq, <- seq_shift. cbn [flat_map data_stores nth].
  rewrite flat_map_concat_map, map_map, <- flat_map_concat_map. rewrite Z.add_0_r. cbn [app]. do 2 f_equal.
  rewrite <- IH. rewrite !flat_map_concat_map. f_equal. apply map_ext. intros k. cbv zeta. cbn [nth].
  replace (b + Z.of_nat (S k))%Z with (b + 1 + Z.of_nat k)%Z by lia. reflexivity.
Qed.

Lemma merge_thread_spec s N nodes b : well_typed s N -> numbered s N -> NoDup nodes ->
  (forall c, In c nodes -> c < N) ->
  merge_thread s nodes (thread_run s nodes) b = ic_stores s b nodes ++ data_stores b (rows_of s nodes).
Proof.
  intros Hw Hn Hd Hlt. unfold merge_thread.
  assert (B : buf (thread_run s nodes) = rows_of s nodes) by (unfold thread_run; now rewrite thread_run_buf).
  rewrite B, data_stores_nth. f_equal.
  unfold thread_run.
  (* generalise over a prefix already processed *)
  assert (G : forall nodes t b, NoDup nodes -> (forall c, In c nodes -> c < N) ->
    map (fun c => store (LIc (eqn s c)) (CI (Itemp (fold_left (thread_step s) nodes t) (eqn s c) + b)))
      (filter (fun c => merged (typ s c)) nodes) = ic_stores s (Z.of_nat (length (buf t)) + b) nodes).
  { clear nodes b Hd Hlt B. induction nodes as [|c r IH]; intros t b Hd Hlt; [reflexivity|].
    cbn [filter fold_left ic_stores]. inversion Hd as [|c' r' Hnin Hd']; subst.
    assert (Hc : c < N) by (apply Hlt; now left).
    rewrite (merged_assembled (sgrid s)) by (now apply Hw).
    assert (L' : length (buf (thread_step s t c)) = length (buf t) + length (row_of s c)).
    { unfold thread_step, row_of. destruct (assembled _ _); cbn [buf]; [now rewrite app_length|cbn; lia]. }
    assert (R : map (fun c0 => store (LIc (eqn s c0)) (CI (Itemp (fold_left (thread_step s) r (thread_step s t c)) (eqn s c0) + b)))
              (filter (fun c => merged (typ s c)) r)
            = ic_stores s (Z.of_nat (length (buf t)) + b + Z.of_nat (length (row_of s c))) r).
    { rewrite IH; [|exact Hd'|intros; apply Hlt; now right]. f_equal. lia. }
    destruct (assembled (sgrid s) (typ s c)) eqn:A; [|cbn [app]; exact R].
    cbn [map app]. rewrite R. f_equal. unfold store. do 3 f_equal.
    rewrite thread_run_keep.
    - unfold thread_step. rewrite A. cbn [Itemp]. now rewrite upd_same.
    - intros c0 I A0 E. apply Hnin. rewrite <- (Hn c0 c); [exact I|apply Hlt; now right|apply Hlt; now left|exact A0|exact A|exact E]. }
  rewrite (G nodes (TState (fun _ => 0%Z) []) b Hd Hlt). reflexivity.
Qed.

Lemma begins_false : forall lens e nn,
  begins false e nn lens = map (fun k => (e + 1 + fold_right Z.add 0 (firstn k lens))%Z) (seq 0 (length lens)).
Proof.
  induction lens as [|n r IH]; intros e nn; [reflexivity|].
  cbn [begins length]. rewrite <- cons_seq, <- seq_shift. cbn [map firstn fold_right]. rewrite Z.add_0_r. f_equal.
  rewrite IH, map_map. apply map_ext. intros k. cbn [firstn fold_right]. lia.
Qed.
Lemma begins_true lens e nn :
  begins true e nn lens = map (fun k => (nn + fold_right Z.add 0 (firstn k lens))%Z) (seq 0 (length lens)).
Proof.
  destruct lens as [|n r]; [reflexivity|].
  cbn [begins length]. rewrite <- cons_seq, <- seq_shift. cbn [map firstn fold_right]. rewrite Z.add_0_r. f_equal.
  rewrite begins_false, map_map. apply map_ext. intros k. cbn [firstn fold_right]. lia.
Qed.

(** Recursive form of the instruction lists. *)
Fixpoint rec_merge (s : system) (b : Z) (blocks : list (list nat)) : list (list instr) :=
  match blocks with
  | [] => []
  | nd :: r => merge_thread s nd (thread_run s nd) b
               :: rec_merge s (b + Z.of_nat (length (buf (thread_run s nd)))) r
  end.

Lemma rec_merge_eq s : forall blocks b,
  rec_merge s b blocks =
  map (fun x => merge_thread s (fst (fst x)) (snd (fst x)) (snd x))
    (combine (combine blocks (map (thread_run s) blocks))
       (map (fun k => (b + fold_right Z.add 0 (firstn k (map (fun t => Z.of_nat (length (buf t))) (map (thread_run s) blocks))))%Z)
          (seq 0 (length blocks)))).
Proof.
  induction blocks as [|nd r IH]; intros b; [reflexivity|].
  cbn [rec_merge map length]. rewrite <- cons_seq, <- seq_shift. cbn [map combine firstn fold_right fst snd].
  rewrite Z.add_0_r. f_equal. rewrite IH, (map_map S). f_equal. f_equal. apply map_ext. intros k.
  cbn [firstn fold_right]. lia.
Qed.

Lemma assembly_rec s N n nnzc : fst (assembly s N n nnzc) = rec_merge s nnzc (thread_nodes N n).
Proof.
  unfold assembly. cbn [fst]. rewrite begins_true, rec_merge_eq. now rewrite !map_length.
Qed.

Lemma NoDup_app_split {A} : forall (a b : list A), NoDup (a ++ b) -> NoDup a /\ NoDup b.
Proof.
  induction a as [|x r IH]; intros b H; [split; [constructor|exact H]|].
  cbn in H. inversion H as [|y l Hn Hd]; subst. destruct (IH b Hd) as [I1 I2]. split; [|exact I2].
  constructor; [|exact I1]. intros I. apply Hn, in_or_app. now left.
Qed.

Lemma rec_merge_perm s N : well_typed s N -> numbered s N -> forall blocks b,
  NoDup (concat blocks) -> (forall c, In c (concat blocks) -> c < N) ->
  Permutation (concat (rec_merge s b blocks))
    (ic_stores s b (concat blocks) ++ data_stores b (rows_of s (concat blocks))).
Proof.
  intros Hw Hn. induction blocks as [|nd r IH]; intros b Hd Hlt; [reflexivity|].
  cbn [concat rec_merge] in *.
  assert (Hnd : NoDup nd /\ NoDup (concat r)).
  { now apply NoDup_app_split. }
  rewrite (merge_thread_spec s N) by (try assumption; try apply Hnd; intros; apply Hlt, in_or_app; now left).
  assert (B : buf (thread_run s nd) = rows_of s nd) by (unfold thread_run; now rewrite thread_run_buf).
  rewrite IH by (try apply Hnd; intros; apply Hlt, in_or_app; now right).
  rewrite B. rewrite ic_stores_app.
  replace (rows_of s (nd ++ concat r)) with (rows_of s nd ++ rows_of s (concat r)) by (unfold rows_of; now rewrite flat_map_app).
  rewrite data_stores_app.
  rewrite <- !app_assoc. apply Permutation_app_head.
  rewrite !app_assoc. apply Permutation_app_tail. apply Permutation_app_comm.
Qed.

(** ** Interleavings *)

Lemma concat_nils {A} (ls : list (list A)) : Forall (fun l => l = []) ls -> concat ls = [].
Proof. induction 1; cbn; subst; auto. Qed.

Lemma interleaving_perm {A} (ls : list (list A)) r : interleaving ls r -> Permutation r (concat ls).
Proof.
  induction 1 as [ls H|ls1 x l ls2 r H IH]; [now rewrite concat_nils|].
  rewrite concat_app in *. cbn [concat] in *. cbn [app].
  rewrite IH. apply Permutation_middle.
Qed.

(** Every family of lists has an interleaving (one thread after the other). *)
Lemma interleaving_exists {A} : forall ls : list (list A), interleaving ls (concat ls).
Proof.
  assert (G : forall (ls2 : list (list A)) ls1, Forall (fun l => l = []) ls1 -> interleaving (ls1 ++ ls2) (concat ls2)).
  { induction ls2 as [|l r IH]; intros ls1 H; [rewrite app_nil_r; now apply il_nil|].
    induction l as [|x l IHl]; cbn [concat app].
    - replace (ls1 ++ [] :: r) with ((ls1 ++ [[]]) ++ r) by (rewrite <- app_assoc; reflexivity).
      apply IH. apply Forall_app. split; [exact H|]. now constructor.
    - apply il_step. exact IHl. }
  intros ls. apply (G ls []). constructor.
Qed.

Lemma exec_notin : forall l m a, ~ In a (map fst l) -> exec l m a = m a.
Proof.
  induction l as [|[b f] r IH]; intros m a H; [reflexivity|]. unfold exec in *. cbn [fold_left].
  rewrite IH by (intros I; apply H; now right). unfold exec1. cbn [fst snd].
  destruct (loc_eq_dec a b) as [->|]; [|reflexivity]. exfalso. apply H. now left.
Qed.

Lemma exec_in : forall l m a f, NoDup (map fst l) -> In (a, f) l -> exec l m a = f (m a).
Proof.
  induction l as [|[b g] r IH]; intros m a f Hd I; [destruct I|].
  cbn [map fst] in Hd. inversion Hd as [|b' r' Hn Hd']; subst.
  unfold exec. cbn [fold_left]. fold (exec r (exec1 m (b, g))).
  destruct I as [E|I].
  - injection E as -> ->. rewrite exec_notin by exact Hn. unfold exec1. cbn. now destruct (loc_eq_dec a a).
  - rewrite (IH _ a f Hd' I). unfold exec1. cbn [fst snd].
    destruct (loc_eq_dec a b) as [->|]; [|reflexivity]. exfalso. apply Hn. now apply (in_map fst) in I.
Qed.

Lemma exec_perm l l' m a : NoDup (map fst l) -> Permutation l l' -> exec l m a = exec l' m a.
Proof.
  intros Hd HP. destruct (in_dec loc_eq_dec a (map fst l)) as [I|N].
  - apply in_map_iff in I as ([b f] & <- & I). cbn [fst].
    rewrite (exec_in l m b f Hd I). symmetry. apply exec_in.
    + eapply Permutation_NoDup; [apply Permutation_map; exact HP|exact Hd].
    + now apply (Permutation_in _ HP).
  - rewrite !exec_notin; [reflexivity| |exact N].
    intros I. apply N. eapply Permutation_in; [apply Permutation_sym, Permutation_map; exact HP|exact I].
Qed.

(** Locations written by the serial assembly are distinct. *)
Lemma ic_locs s : forall nodes b, map fst (ic_stores s b nodes) =
  map (fun c => LIc (eqn s c)) (filter (fun c => assembled (sgrid s) (typ s c)) nodes).
Proof.
  induction nodes as [|c r IH]; intros b; [reflexivity|]. cbn [ic_stores filter].
  rewrite map_app, IH. destruct (assembled _ _); reflexivity.
Qed.

Lemma data_locs : forall es b a, In a (map fst (data_stores b es)) <->
  exists k, k < length es /\ (a = LA (b + Z.of_nat k) \/ a = LJ (b + Z.of_nat k)).
Proof.
  induction es as [|e r IH]; intros b a; [cbn; split; [tauto|intros (k & H & _); lia]|].
  cbn [data_stores app map fst store In]. rewrite IH. split.
  - intros [<-|[<-|(k & Hk & E)]].
    + exists 0. cbn. split; [lia|left; f_equal; lia].
    + exists 0. cbn. split; [lia|right; f_equal; lia].
    + exists (S k). cbn [length]. split; [lia|].
      replace (b + Z.of_nat (S k))%Z with (b + 1 + Z.of_nat k)%Z by lia. exact E.
  - intros ([|k] & Hk & E).
    + rewrite Z.add_0_r in E. destruct E as [->| ->]; tauto.
    + right. right. exists k. cbn [length] in Hk. split; [lia|].
      replace (b + 1 + Z.of_nat k)%Z with (b + Z.of_nat (S k))%Z by lia. exact E.
Qed.

Lemma data_nodup : forall es b, NoDup (map fst (data_stores b es)).
Proof.
  induction es as [|e r IH]; intros b; [constructor|]. cbn [data_stores app map fst store].
  constructor; [|constructor].
  - intros [H|H]; [discriminate|]. apply data_locs in H as (k & _ & [E|E]); [injection E; lia|discriminate].
  - intros H. apply data_locs in H as (k & _ & [E|E]); [discriminate|injection E; lia].
  - apply IH.
Qed.

Lemma NoDup_map_in {A B} (f : A -> B) l : NoDup l ->
  (forall x y, In x l -> In y l -> f x = f y -> x = y) -> NoDup (map f l).
Proof.
  induction 1 as [|x r Hn Hd IH]; intros Hf; [constructor|]. cbn. constructor.
  - intros I. apply in_map_iff in I as (y & E & I). apply Hn.
    rewrite (Hf x y); [exact I|now left|now right|now rewrite E].
  - apply IH. intros y z Iy Iz. apply Hf; now right.
Qed.

Lemma NoDup_app2 {A} (l1 l2 : list A) : NoDup l1 -> NoDup l2 -> (forall x, In x l1 -> ~ In x l2) -> NoDup (l1 ++ l2).
Proof.
  induction 1 as [|x r Hn Hd IH]; intros H2 Hs; [exact H2|]. cbn. constructor.
  - intros I. apply in_app_or in I as [I|I]; [auto|]. apply (Hs x); [now left|exact I].
  - apply IH; [exact H2|]. intros y I. apply Hs. now right.
Qed.

Definition serial (s : system) (N : nat) (nnzc : Z) : list instr :=
  ic_stores s nnzc (seq 0 N) ++ data_stores nnzc (rows_of s (seq 0 N)).

Lemma serial_nodup s N nnzc : numbered s N -> NoDup (map fst (serial s N nnzc)).
Proof.
  intros Hn. unfold serial. rewrite map_app. apply NoDup_app2.
  - rewrite ic_locs. apply NoDup_map_in; [apply NoDup_filter, seq_NoDup|].
    intros x y Ix Iy E. injection E as E. apply filter_In in Ix as [Ix Ax], Iy as [Iy Ay].
    apply in_seq in Ix, Iy. apply Hn; auto; lia.
  - apply data_nodup.
  - intros a I J. rewrite ic_locs in I. apply in_map_iff in I as (c & <- & _).
    apply data_locs in J as (k & _ & [E|E]); discriminate.
Qed.

Lemma assembly_any s N n nnzc r m a : well_typed s N -> numbered s N -> 0 < n ->
  interleaving (fst (assembly s N n nnzc)) r -> exec r m a = exec (serial s N nnzc) m a.
Proof.
  intros Hw Hn Hpos HI.
  assert (HP : Permutation (serial s N nnzc) r).
  { apply Permutation_sym. eapply Permutation_trans; [apply interleaving_perm; exact HI|].
    rewrite assembly_rec. unfold serial. rewrite <- (thread_nodes_concat N n Hpos).
    apply (rec_merge_perm s N Hw Hn).
    - rewrite thread_nodes_concat by exact Hpos. apply seq_NoDup.
    - intros c I. rewrite thread_nodes_concat in I by exact Hpos. apply in_seq in I. lia. }
  symmetry. apply exec_perm; [now apply serial_nodup|exact HP].
Qed.

Lemma assembly_count s N n nnzc : 0 < n ->
  snd (assembly s N n nnzc) = (nnzc + Z.of_nat (length (rows_of s (seq 0 N))))%Z.
Proof.
  intros Hn. unfold assembly. cbn [snd]. rewrite <- (thread_nodes_concat N n Hn).
  generalize (thread_nodes N n). intros bl. revert nnzc. induction bl as [|nd r IH]; intros nnzc; [cbn; lia|].
  cbn [map fold_left concat]. rewrite IH.
  replace (buf (thread_run s nd)) with (rows_of s nd) by (unfold thread_run; now rewrite thread_run_buf).
  replace (rows_of s (nd ++ concat r)) with (rows_of s nd ++ rows_of s (concat r)) by (unfold rows_of; now rewrite flat_map_app).
  rewrite app_length. lia.
Qed.

(** What the serial assembly stores. *)
Lemma ic_stores_in s : forall nodes b pre c post, nodes = pre ++ c :: post ->
  assembled (sgrid s) (typ s c) = true ->
  In (store (LIc (eqn s c)) (CI (b + Z.of_nat (length (rows_of s pre))))) (ic_stores s b nodes).
Proof.
  intros nodes b pre c post -> A. rewrite ic_stores_app. apply in_or_app. right.
  cbn [ic_stores]. rewrite A. now left.
Qed.

Lemma data_stores_in : forall es b k e, nth_error es k = Some e ->
  In (store (LA (b + Z.of_nat k)) (CR (snd e))) (data_stores b es) /\
  In (store (LJ (b + Z.of_nat k)) (CI (fst e))) (data_stores b es).
Proof.
  induction es as [|x r IH]; intros b [|k] e H; try discriminate; cbn [nth_error] in H.
  - injection H as ->. rewrite Z.add_0_r. cbn. tauto.
  - destruct (IH (b + 1)%Z k e H) as [I1 I2].
    replace (b + Z.of_nat (S k))%Z with (b + 1 + Z.of_nat k)%Z by lia.
    cbn [data_stores app In]. tauto.
Qed.

(** ** Right-hand side: read-modify-write instructions *)

Lemma exec_filter (dec := fun a (i : instr) => if loc_eq_dec a (fst i) then true else false) : forall l m a,
  exec l m a = fold_left (fun v i => snd i v) (filter (dec a) l) (m a).
Proof.
  induction l as [|[b f] r IH]; intros m a; [reflexivity|].
  unfold exec. cbn [fold_left filter]. fold (exec r (exec1 m (b, f))). rewrite IH. unfold exec1, dec. cbn [fst snd].
  destruct (loc_eq_dec a b); reflexivity.
Qed.

Lemma interleaving_filter {A} (p : A -> bool) : forall ls r, interleaving ls r ->
  (forall i j, i < length ls -> j < length ls -> filter p (nth i ls []) <> [] -> filter p (nth j ls []) <> [] -> i = j) ->
  filter p r = filter p (concat ls).
Proof.
  induction 1 as [ls H|ls1 x l ls2 r H IH]; intros Hu; [now rewrite concat_nils|].
  assert (Hu' : forall i j, i < length (ls1 ++ l :: ls2) -> j < length (ls1 ++ l :: ls2) ->
    filter p (nth i (ls1 ++ l :: ls2) []) <> [] -> filter p (nth j (ls1 ++ l :: ls2) []) <> [] -> i = j).
  { assert (K : forall i, filter p (nth i (ls1 ++ l :: ls2) []) <> [] -> filter p (nth i (ls1 ++ (x :: l) :: ls2) []) <> []).
    { intros i. destruct (Nat.lt_ge_cases i (length ls1)) as [L|L].
      - now rewrite !app_nth1 by exact L.
      - rewrite !app_nth2 by exact L. destruct (i - length ls1); cbn [nth filter]; [|auto].
        destruct (p x); [discriminate|auto]. }
    intros i j Hi Hj Fi Fj. apply Hu; auto; rewrite app_length in *; cbn [length] in *; lia. }
  specialize (IH Hu'). cbn [filter]. rewrite IH, !concat_app. cbn [concat]. rewrite !filter_app. cbn [filter app].
  destruct (p x) eqn:Px; [|reflexivity].
  (* nothing in ls1 *)
  assert (E : filter p (concat ls1) = []).
  { destruct (filter p (concat ls1)) as [|y q] eqn:F; [reflexivity|]. exfalso.
    assert (I : In y (filter p (concat ls1))) by (rewrite F; now left).
    apply filter_In in I as [I Py]. apply in_concat in I as (l0 & I0 & Iy).
    apply In_nth_error in I0 as [i Ei]. assert (Li : i < length ls1) by (apply nth_error_Some; congruence).
    specialize (Hu i (length ls1)). rewrite app_length in Hu. cbn [length] in Hu.
    assert (i = length ls1); [|lia]. apply Hu; try lia.
    - rewrite app_nth1 by exact Li. rewrite (nth_error_nth _ _ _ Ei). intros N.
      assert (In y (filter p l0)) by (now apply filter_In). rewrite N in *. contradiction.
    - rewrite app_nth2, Nat.sub_diag by lia. cbn [nth filter]. rewrite Px. discriminate. }
  rewrite E. reflexivity.
Qed.

Lemma rhs_thread_loc s ops nodes i : In i (rhs_thread s ops nodes) ->
  exists c, In c nodes /\ assembled (sgrid s) (typ s c) = true /\ fst i = LB (eqn s c).
Proof.
  unfold rhs_thread. intros I. apply in_flat_map in I as (c & Ic & I).
  destruct (assembled _ _) eqn:A; [|destruct I]. apply in_map_iff in I as (f & <- & _). now exists c.
Qed.

Lemma NoDup_concat_nth {A} : forall (ls : list (list A)) i j x, NoDup (concat ls) ->
  In x (nth i ls []) -> In x (nth j ls []) -> i = j.
Proof.
  induction ls as [|l r IH]; intros i j x Hd Ii Ij; [destruct i; destruct Ii|].
  cbn [concat] in Hd.
  assert (S : forall k, In x (nth k r []) -> In x (concat r)).
  { intros k Ik. apply in_concat. destruct (nth_in_or_default k r []) as [I0|E]; [now exists (nth k r [])|].
    rewrite E in Ik. destruct Ik. }
  assert (D : In x l -> In x (concat r) -> False).
  { intros I1 I2. clear - Hd I1 I2. induction l as [|y l IHl]; [destruct I1|]. cbn in Hd. inversion Hd; subst.
    destruct I1 as [->|I1]; [apply H1, in_or_app; now right|auto]. }
  destruct i, j; cbn [nth] in *; [reflexivity|exfalso; eauto|exfalso; eauto|].
  f_equal. eapply IH; eauto. now apply NoDup_app_split in Hd.
Qed.

Lemma rhs_any s ops N n r m a : numbered s N -> 0 < n ->
  interleaving (map (rhs_thread s ops) (thread_nodes N n)) r ->
  exec r m a = exec (rhs_thread s ops (seq 0 N)) m a.
Proof.
  intros Hn Hpos HI.
  assert (C : concat (map (rhs_thread s ops) (thread_nodes N n)) = rhs_thread s ops (seq 0 N)).
  { rewrite <- (thread_nodes_concat N n Hpos). unfold rhs_thread.
    generalize (thread_nodes N n). induction l as [|nd q IH]; [reflexivity|].
    cbn [map concat]. rewrite IH. now rewrite flat_map_app. }
  rewrite !exec_filter. f_equal. rewrite <- C. apply interleaving_filter; [exact HI|].
  rewrite map_length. intros i j Hi Hj Fi Fj.
  assert (W : forall k, k < length (thread_nodes N n) ->
    filter (fun i0 : instr => if loc_eq_dec a (fst i0) then true else false) (nth k (map (rhs_thread s ops) (thread_nodes N n)) []) <> [] ->
    exists c, In c (nth k (thread_nodes N n) []) /\ assembled (sgrid s) (typ s c) = true /\ a = LB (eqn s c)).
  { intros k Hk F.
    rewrite (nth_indep _ [] (rhs_thread s ops [])) in F by (now rewrite map_length).
    rewrite map_nth in F.
    match type of F with ?X <> [] => destruct X as [|y q] eqn:E; [congruence|] end.
    assert (I : In y (y :: q)) by (now left). rewrite <- E in I. apply filter_In in I as [I D].
    apply rhs_thread_loc in I as (c & Ic & A & L). exists c. repeat split; auto.
    destruct (loc_eq_dec a (fst y)); [congruence|discriminate]. }
  destruct (W i Hi Fi) as (c & Ic & Ac & Ec). destruct (W j Hj Fj) as (c' & Ic' & Ac' & Ec').
  assert (Lt : forall k x, In x (nth k (thread_nodes N n) []) -> x < N).
  { intros k x Ix. assert (In x (concat (thread_nodes N n))).
    { apply in_concat. destruct (nth_in_or_default k (thread_nodes N n) []) as [I0|E]; [now exists (nth k (thread_nodes N n) [])|].
      rewrite E in Ix. destruct Ix. }
    rewrite thread_nodes_concat in H by exact Hpos. apply in_seq in H. lia. }
  assert (c = c').
  { apply Hn; eauto. congruence. }
  subst c'. eapply NoDup_concat_nth; [|exact Ic|exact Ic'].
  rewrite thread_nodes_concat by exact Hpos. apply seq_NoDup.
Qed.

(** ** Buffers *)

Lemma written_le g ty cnt m : forall nodes, (forall c, In c nodes -> cnt c <= m) ->
  written g ty cnt nodes <= m * length nodes.
Proof.
  intros nodes. unfold written.
  assert (G : forall nodes a, (forall c, In c nodes -> cnt c <= m) ->
    fold_left (fun n c => if assembled g (ty c) then n + cnt c else n) nodes a <= a + m * length nodes).
  { clear nodes. induction nodes as [|c r IH]; intros a H; [cbn; lia|]. cbn [fold_left length].
    eapply Nat.le_trans; [apply IH; intros; apply H; now right|].
    pose proof (H c (or_introl eq_refl)). destruct (assembled g (ty c)); nia. }
  intros H. specialize (G nodes 0 H). lia.
Qed.

Lemma emit_le l : emit l <= length l.
Proof. unfold emit. induction l as [|x r IH]; cbn; [lia|]. destruct (fst x && _); cbn; lia. Qed.

Lemma buffer_ok g ty cnt m N n nnz nodes : 0 < n -> (forall c, cnt c <= m) ->
  n * (m * (N / n + N mod n)) <= nnz ->
  In nodes (thread_nodes N n) -> written g ty cnt nodes <= capacity nnz n.
Proof.
  intros Hn Hc Hb I. pose proof (block_size N n nodes Hn I) as L.
  eapply Nat.le_trans; [apply (written_le g ty cnt m); auto|].
  eapply Nat.le_trans; [apply Nat.mul_le_mono_l; exact L|].
  unfold capacity. apply Nat.div_le_lower_bound; [lia|exact Hb].
Qed.

(** Bound on the size of the largest block. *)
Lemma largest_block N n : 0 < n -> n * (N / n + N mod n) <= N + (n - 1) * (n - 1).
Proof.
  intros Hn. pose proof (Nat.div_mod N n ltac:(lia)). pose proof (Nat.mod_upper_bound N n ltac:(lia)). nia.
Qed.
