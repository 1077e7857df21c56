(** * C75: markers added to depleted cells *)
From Coq Require Import ZArith Reals List Bool Lia Lra Psatz Permutation Arith.
Import ListNotations.
From Verif Require Import P2GModel P2GProofs AdvModel AdvProofs ReseedModel ReseedProofs.
Local Open Scope R_scope.

(** ** Specification *)
(** A rock cell with fewer than two active markers. *)
Definition depleted (s : setting) (n : nat) (ms : nat -> part) (c : Z * Z) : Prop :=
  in_grid (sbox s) c /\ rock_cell (sbox s) (sflag s) c /\ exists N, population (sbox s) n ms c N /\ (N < 2)%nat.
(** A marker (number [k]) that could serve as source for the cell. *)
Definition source (s : setting) (n : nat) (ms : nat -> part) (c : Z * Z) (k : nat) : Prop :=
  (k < n)%nat /\ exists c', in_grid (sbox s) c' /\ within2 c c' /\ holds (sbox s) c' (ms k).
(** The freed counters still hold the counts when they are read. *)
Definition intact (s : setting) (n : nat) (ms : nat -> part) : Prop :=
  exists g, sfreed s = Some g /\ forall c N, in_grid (sbox s) c -> population (sbox s) n ms c N ->
    g (fst c + snd c * (2 * bNx (sbox s) - 2))%Z = N.

Section S.
Variable s : setting.
Variable n : nat.
Variable ms : nat -> part.
Hypothesis OK : box_ok (sbox s).
Notation b := (sbox s).
Notation cnt := (fst (count_parts b n ms)).
Notation reuse := (snd (count_parts b n ms)).

Definition depletedb (c : Z * Z) : bool := (cnt (flat b c) <? 2)%nat && negb (fine_flag b (sflag s) (fst c) (snd c) =? 30)%Z.

Lemma depletedb_spec : forall c, in_grid b c -> depletedb c = true <-> depleted s n ms c.
Proof.
  intros c Hc. unfold depletedb, depleted, rock_cell. rewrite andb_true_iff, Nat.ltb_lt, negb_true_iff, Z.eqb_neq.
  rewrite fine_flag_spec by assumption. rewrite counts. split.
  - intros (A & B). split; [exact Hc|]. split; [exact B|]. exists (length (members b n ms (flat b c))). split; [|exact A].
    now apply population_members.
  - intros (_ & A & N & P & L). apply population_members in P; try assumption. subst N. tauto.
Qed.

Lemma source_block : forall c k, in_grid b c -> In k (flat_map (members b n ms) (block b (fst c) (snd c))) <-> source s n ms c k.
Proof. intros c k Hc. unfold source. now apply block_members. Qed.

Lemma in_box_true : forall c h, in_grid b c ->
  Rgeb (centre_x b (fst c)) (bx0 b) && Rgeb (bx1 b) (centre_x b (fst c)) && Rgeb (centre_z b (snd c)) (bz0 b) &&
  (Rgeb (bz1 b) (centre_z b (snd c)) || Rgeb h (centre_z b (snd c))) = true.
Proof.
  intros c h Hc. destruct (centre_in_box b OK c Hc) as ((A & B) & C & D).
  assert (G : forall u v, v <= u -> Rgeb u v = true).
  { intros u v H. unfold Rgeb. destruct (Rge_dec u v); [reflexivity|lra]. }
  rewrite !G by assumption. reflexivity.
Qed.

Notation around c := (flat_map (members b n ms) (block b (fst c) (snd c))).
Notation stores := (store_parts b n ms).

Lemma block_nonempty : forall c, in_grid b c -> exists k ks, block b (fst c) (snd c) = k :: ks.
Proof.
  intros c Hc. assert (I : In (flat b c) (block b (fst c) (snd c))).
  { apply block_In; try assumption. exists c. split; [assumption|]. split; [split; rewrite Z.sub_diag; cbn; lia|reflexivity]. }
  destruct (block b (fst c) (snd c)) as [|k ks]; [contradiction|eauto].
Qed.

Lemma cell_full : forall st c, depletedb c = false -> reseed_cell s cnt reuse stores st c = Done st.
Proof. intros st c H. unfold reseed_cell. cbv zeta. fold (flat b c). fold (depletedb c). now rewrite H. Qed.

Lemma cell_alone : forall st c, depletedb c = true -> around c = [] -> reseed_cell s cnt reuse stores st c = Exits 122.
Proof.
  intros st c H HL. unfold reseed_cell. cbv zeta. fold (flat b c). fold (depletedb c). rewrite H, sum_lengths, HL. reflexivity.
Qed.

(** ** C semantics *)
Lemma cell_none : forall st c, in_grid b c -> sfreed s = None -> depletedb c = true -> around c <> [] ->
  reseed_cell s cnt reuse stores st c = UB.
Proof.
  intros st c Hc HF H HL. unfold reseed_cell. cbv zeta. fold (flat b c). fold (depletedb c). rewrite H, sum_lengths, HF.
  destruct (Nat.eqb_spec (0 + length (around c)) 0) as [E|_]; [destruct (around c); [contradiction|discriminate]|].
  unfold neighbours. destruct (block_nonempty c Hc) as (k & ks & ->). reflexivity.
Qed.

Lemma cells_none : forall cs st, (forall c, In c cs -> in_grid b c) -> sfreed s = None ->
  ((forall c, In c cs -> depletedb c = false) /\ reseed_cells s cnt reuse stores cs st = Done st) \/
  ((exists c, In c cs /\ depletedb c = true) /\
   (reseed_cells s cnt reuse stores cs st = UB \/
    (exists c, In c cs /\ depletedb c = true /\ around c = []) /\ reseed_cells s cnt reuse stores cs st = Exits 122)).
Proof.
  induction cs as [|c cs IH]; intros st HG HF; cbn [reseed_cells].
  - left. split; [contradiction|reflexivity].
  - destruct (depletedb c) eqn:D.
    + right. split; [exists c; split; [now left|exact D]|]. destruct (around c) eqn:EL.
      * right. rewrite cell_alone by assumption. split; [|reflexivity]. exists c. split; [now left|]. split; assumption.
      * left. rewrite cell_none; try assumption; try reflexivity; [apply HG; now left|]. rewrite EL. discriminate.
    + rewrite cell_full by assumption.
      destruct (IH st (fun c' H => HG c' (or_intror H)) HF) as [(A & B)|((c1 & I1 & A) & B)].
      * left. split; [|exact B]. intros c' [<-|H]; auto.
      * right. split; [exists c1; split; [now right|exact A]|]. destruct B as [B|((c2 & I2 & B1) & B2)]; [now left|right].
        split; [|exact B2]. exists c2. split; [now right|exact B1].
Qed.

(** ** Counters intact *)
Hypothesis G : intact s n ms.

Lemma neigh : forall c, in_grid b c ->
  neighbours (sfreed s) stores (length (around c)) (block b (fst c) (snd c)) = Some (around c).
Proof.
  intros c Hc. destruct G as (g & -> & HG). unfold neighbours.
  assert (R : forall ks, (forall k, In k ks -> g k = length (members b n ms k)) ->
    read_cells (Some g) stores ks = Some (flat_map (members b n ms) ks)).
  { induction ks as [|k ks IH]; intros HK; [reflexivity|]. cbn [read_cells flat_map]. rewrite IH by (intros; apply HK; now right).
    unfold read_cell. rewrite stored, (HK k (or_introl eq_refl)), Nat.leb_refl, firstn_all. reflexivity. }
  rewrite R; [now rewrite Nat.leb_refl|]. intros k Hk. apply block_In in Hk; try assumption. destruct Hk as (c' & HC & _ & ->).
  apply HG; [exact HC|]. now apply population_members.
Qed.

(** The marker created in a cell. *)
Definition src (c : Z * Z) : nat :=
  closest ms (Part (centre_x b (fst c)) (centre_z b (snd c)) 0 1 0 0) (bx1 b - bx0 b) (around c).
Definition created (c : Z * Z) : part :=
  let x := centre_x b (fst c) in let z := centre_z b (snd c) in
  Part x z (qph (ms (src c))) 1 (kept (ms (src c))) (if sdirect s then itp (ms (src c)) else sgrid s x z).

Definition slot (t : nat) : nat := if (t <? length reuse)%nat then nth t reuse 0%nat else (n + (t - length reuse))%nat.

Lemma reuse_spec : forall k, In k reuse <-> (k < n)%nat /\ activeb (ms k) = false.
Proof. intros k. rewrite reuses, filter_In, in_seq, negb_true_iff. split; intros (A & B); split; try exact B; lia. Qed.
Lemma reuse_NoDup : NoDup reuse.
Proof. rewrite reuses. apply NoDup_filter, seq_NoDup. Qed.

Lemma slot_free : forall t, (slot t < n)%nat -> activeb (ms (slot t)) = false /\ (t < length reuse)%nat.
Proof.
  intros t. unfold slot. destruct (Nat.ltb_spec t (length reuse)); intros H1; [|lia].
  split; [|assumption]. apply reuse_spec. now apply nth_In.
Qed.
Lemma slot_inj : forall t t', slot t = slot t' -> t = t'.
Proof.
  intros t t'. unfold slot. destruct (Nat.ltb_spec t (length reuse)) as [L|L]; destruct (Nat.ltb_spec t' (length reuse)) as [L'|L']; intros E.
  - apply (proj1 (NoDup_nth reuse 0%nat) reuse_NoDup); assumption.
  - assert (I := nth_In reuse 0%nat L). apply reuse_spec in I. lia.
  - assert (I := nth_In reuse 0%nat L'). apply reuse_spec in I. lia.
  - lia.
Qed.

Lemma source_active : forall c k, In k (around c) -> (k < n)%nat /\ activeb (ms k) = true.
Proof.
  intros c k H. apply in_flat_map in H. destruct H as (kc & _ & H). unfold members in H. apply filter_In in H.
  destruct H as (A & B). apply in_seq in A. apply andb_true_iff in B. split; [lia|tauto].
Qed.

Lemma src_in : forall c, around c <> [] -> In (src c) (around c).
Proof. intros c H. now apply closest_In. Qed.

Record inv (D : list (Z * Z)) (st : state) : Prop := Inv {
  i_used : used st = Nat.min (length D) (length reuse);
  i_nbp : nbp st = (n + (length D - length reuse))%nat;
  i_new : forall t, (t < length D)%nat -> arr st (slot t) = created (nth t D (0, 0)%Z);
  i_old : forall k, (forall t, (t < length D)%nat -> k <> slot t) -> arr st k = ms k;
  i_count : forall c, in_grid b c -> length (members b (nbp st) (arr st) (flat b c)) =
    (length (members b n ms (flat b c)) + length (filter (fun d => (flat b d =? flat b c)%Z) D))%nat }.

Lemma cell_step : forall D st c, inv D st -> in_grid b c -> depletedb c = true -> around c <> [] ->
  ((length D < length reuse)%nat \/ (n + (length D - length reuse) + 1 < smax s)%nat) ->
  exists st', reseed_cell s cnt reuse stores st c = Done st' /\ inv (D ++ [c]) st'.
Proof.
  intros D st c I Hc H HL Cap. unfold reseed_cell. cbv zeta. fold (flat b c). fold (depletedb c). rewrite H, sum_lengths.
  cbn [plus]. change (0 + length (around c))%nat with (length (around c)).
  destruct (Nat.eqb_spec (length (around c)) 0) as [E|_]; [destruct (around c); [contradiction|discriminate]|].
  rewrite neigh by exact Hc. rewrite in_box_true by exact Hc.
  set (t := length D). set (st1 := State (n + (S t - length reuse)) (arr st) (Nat.min (S t) (length reuse))).
  assert (SEL : (if (used st <? length reuse)%nat && (0 <? length reuse)%nat
                 then Done (nth (used st) reuse 0%nat, State (nbp st) (arr st) (S (used st)))
                 else if (smax s <=? nbp st + 1)%nat then Exits 190
                 else Done (nbp st, State (S (nbp st)) (arr st) (used st))) = Done (slot t, st1)).
  { rewrite (i_used _ _ I), (i_nbp _ _ I). fold t. unfold slot, st1. destruct (Nat.ltb_spec t (length reuse)) as [L|L].
    - rewrite (Nat.min_l t) by lia. rewrite (Nat.min_l (S t)) by lia. destruct (Nat.ltb_spec t (length reuse)); [|lia].
      destruct (Nat.ltb_spec 0 (length reuse)); [|lia]. cbn [andb].
      do 3 f_equal; lia.
    - rewrite (Nat.min_r t) by lia. rewrite (Nat.min_r (S t)) by lia. rewrite Nat.ltb_irrefl. cbn [andb].
      destruct (Nat.leb_spec (smax s) (n + (t - length reuse) + 1)); [fold t in Cap; lia|]. do 3 f_equal; lia. }
  rewrite SEL. cbv zeta.
  set (p := Part _ _ _ _ _ _). set (arr1 := nupd (arr st) (slot t) p).
  assert (KEEP : forall k, In k (around c) -> arr1 k = ms k).
  { intros k Hk. apply source_active in Hk. destruct Hk as (K1 & K2).
    assert (NS : forall t', k <> slot t').
    { intros t' ->. destruct (slot_free t' K1). congruence. }
    unfold arr1, nupd. destruct (Nat.eqb_spec k (slot t)) as [E|_]; [now apply NS in E|]. apply (i_old _ _ I). intros t' _. apply NS. }
  assert (EK : closest arr1 p (bx1 b - bx0 b) (around c) = src c) by (unfold src; now apply closest_ext).
  rewrite EK. rewrite (KEEP _ (src_in c HL)).
  assert (ACT := proj2 (source_active c _ (src_in c HL))).
  destruct (Z.eqb_spec (qph (ms (src c))) (-1)) as [E|_]; [unfold activeb in ACT; rewrite E in ACT; discriminate|].
  assert (EA : assign (sdirect s) (sgrid s) p (ms (src c)) = created c) by reflexivity. rewrite EA.
  assert (UU : forall k, nupd arr1 (slot t) (created c) k = nupd (arr st) (slot t) (created c) k).
  { intros k. unfold arr1, nupd. now destruct (_ =? _)%nat. }
  eexists. split; [reflexivity|].
  assert (AC : activeb (created c) = true) by exact ACT.
  assert (CC : cell b (created c) = flat b c) by (apply centre_cell; [exact OK|exact Hc|reflexivity|reflexivity]).
  split; cbn [used nbp arr st1]; rewrite ?app_length; cbn [length]; fold t.
  - lia.
  - lia.
  - intros t' Ht. rewrite UU. unfold nupd. destruct (Nat.eqb_spec (slot t') (slot t)) as [E|N].
    + apply slot_inj in E. subst t'. unfold t. now rewrite app_nth2, Nat.sub_diag by lia.
    + assert (t' <> t) by congruence. rewrite app_nth1 by (fold t; lia). apply (i_new _ _ I). fold t. lia.
  - intros k Hk. rewrite UU. unfold nupd. destruct (Nat.eqb_spec k (slot t)) as [E|N]; [exfalso; apply (Hk t); [lia|exact E]|].
    apply (i_old _ _ I). fold t. intros t' Ht. apply Hk. lia.
  - intros c' Hc'. rewrite filter_app, app_length.
    rewrite (members_ext b _ _ (nupd (arr st) (slot t) (created c))) by (intros; apply UU).
    assert (ADD : length (members b (n + (S t - length reuse)) (nupd (arr st) (slot t) (created c)) (flat b c')) =
      (length (members b (nbp st) (arr st) (flat b c')) + if (flat b c =? flat b c')%Z then 1 else 0)%nat).
    { rewrite <- CC. rewrite (i_nbp _ _ I). fold t. destruct (Nat.ltb_spec t (length reuse)) as [L|L].
      - replace (n + (S t - length reuse))%nat with n by lia. replace (n + (t - length reuse))%nat with n by lia.
        assert (SL : slot t = nth t reuse 0%nat) by (unfold slot; destruct (Nat.ltb_spec t (length reuse)); [reflexivity|lia]).
        assert (SI := nth_In reuse 0%nat L). rewrite <- SL in SI. apply reuse_spec in SI. destruct SI as (S1 & S2).
        apply count_recycled; [exact S1| |exact AC].
        rewrite (i_old _ _ I); [exact S2|]. fold t. intros t' Ht E. apply slot_inj in E. lia.
      - replace (n + (S t - length reuse))%nat with (S (n + (t - length reuse))) by lia.
        assert (SL : slot t = (n + (t - length reuse))%nat) by (unfold slot; destruct (Nat.ltb_spec t (length reuse)); [lia|reflexivity]).
        rewrite SL. now apply count_new. }
    rewrite ADD, (i_count _ _ I c' Hc'). cbn [filter]. destruct (flat b c =? flat b c')%Z; cbn [length]; lia.
Qed.

Lemma run : forall cs D st, inv D st -> (forall c, In c cs -> in_grid b c) ->
  (forall c, In c cs -> depletedb c = true -> around c <> []) ->
  (let T := (length D + length (filter depletedb cs))%nat in (T <= length reuse)%nat \/ (n + (T - length reuse) < smax s)%nat) ->
  exists st', reseed_cells s cnt reuse stores cs st = Done st' /\ inv (D ++ filter depletedb cs) st'.
Proof.
  induction cs as [|c cs IH]; intros D st I HG HS Cap; cbn [reseed_cells filter].
  - exists st. rewrite app_nil_r. split; [reflexivity|exact I].
  - cbv zeta in Cap. cbn [filter] in Cap. destruct (depletedb c) eqn:E.
    + destruct (cell_step D st c I (HG c (or_introl eq_refl)) E (HS c (or_introl eq_refl) E)) as (st1 & -> & I1).
      { cbn [length] in Cap. lia. }
      destruct (IH (D ++ [c]) st1 I1) as (st2 & E2 & I2).
      * intros; apply HG; now right.
      * intros c' H; apply HS; now right.
      * cbv zeta. rewrite app_length. cbn [length] in *. lia.
      * exists st2. split; [exact E2|]. rewrite <- app_assoc in I2. exact I2.
    + rewrite cell_full by exact E. apply IH; try assumption; intros c' H; [apply HG|apply HS]; now right.
Qed.

Lemma inv0 : inv [] (State n ms 0).
Proof.
  split; cbn [used nbp arr length]; try lia.
  - reflexivity.
  - intros c _. cbn. lia.
Qed.
End S.

(** ** Theorems *)
(** What a new marker in cell [c] looks like. *)
Definition new_marker (s : setting) (n : nat) (ms : nat -> part) (c : Z * Z) (p : part) : Prop :=
  middle (sbox s) c p /\ qgen p = 1%Z /\
  exists k, source s n ms c k /\ qph p = qph (ms k) /\ kept p = kept (ms k) /\
    itp p = (if sdirect s then itp (ms k) else sgrid s (qx p) (qz p)) /\
    ((exists k', source s n ms c k' /\ dist2 p (ms k') < (bx1 (sbox s) - bx0 (sbox s)) * (bx1 (sbox s) - bx0 (sbox s))) ->
     forall k', source s n ms c k' -> dist2 p (ms k) <= dist2 p (ms k')).

Lemma created_new : forall s n ms c, box_ok (sbox s) -> in_grid (sbox s) c ->
  flat_map (members (sbox s) n ms) (block (sbox s) (fst c) (snd c)) <> [] -> new_marker s n ms c (created s n ms c).
Proof.
  intros s n ms c OK Hc HL. assert (SI := src_in s n ms c HL). split.
  { unfold middle, created, centre_x, centre_z, fdx, fdz, bdx, bdz. cbn [qx qz]. split; field; apply not_0_IZR; destruct OK; lia. }
  split; [reflexivity|]. exists (src s n ms c).
  split; [now apply source_block|]. split; [reflexivity|]. split; [reflexivity|]. split; [reflexivity|].
  intros (k1 & S1 & L1) k' S'. apply source_block in S1; try assumption. apply source_block in S'; try assumption.
  unfold src. apply (closest_min ms (Part (centre_x (sbox s) (fst c)) (centre_z (sbox s) (snd c)) 0 1 0 0)); [|exact S'].
  exists k1. split; [exact S1|]. unfold dist2, created in L1. cbn [qx qz] in L1. unfold distance. cbn [qx qz].
  destruct OK as (_ & _ & W & _). rewrite <- (sqrt_square (bx1 (sbox s) - bx0 (sbox s))) by lra.
  apply sqrt_lt_1_alt.
  set (u := centre_x (sbox s) (fst c) - qx (ms k1)) in *. set (v := centre_z (sbox s) (snd c) - qz (ms k1)) in *.
  pose proof (Rle_0_sqr u). pose proof (Rle_0_sqr v). unfold Rsqr in *. split; [nra|]. cbn [pow]. lra.
Qed.

Theorem C75_reseeding : forall s n ms D Rz,
  box_ok (sbox s) -> intact s n ms ->
  NoDup D -> (forall c, In c D <-> depleted s n ms c) ->
  NoDup Rz -> (forall k, In k Rz <-> (k < n)%nat /\ ~ active (ms k)) ->
  (forall c, depleted s n ms c -> exists k, source s n ms c k) ->
  ((length D <= length Rz)%nat \/ (n + (length D - length Rz) < smax s)%nat) ->
  exists st, reseed s n ms = Done st /\
    nbp st = (n + (length D - length Rz))%nat /\
    (forall k, (k < n)%nat -> active (ms k) -> arr st k = ms k) /\
    (forall c N, in_grid (sbox s) c -> population (sbox s) n ms c N ->
       population (sbox s) (nbp st) (arr st) c N /\ ~ depleted s n ms c \/
       population (sbox s) (nbp st) (arr st) c (S N) /\ depleted s n ms c) /\
    (forall k, (k < nbp st)%nat -> ~ (k < n /\ active (ms k))%nat ->
       (k < n)%nat /\ arr st k = ms k \/ exists c, depleted s n ms c /\ new_marker s n ms c (arr st k)).
Proof.
  intros s n ms D Rz OK HI ND HD NR HR HS Cap.
  assert (LR : length Rz = length (snd (count_parts (sbox s) n ms))).
  { apply Nat.le_antisymm; apply NoDup_incl_length; try assumption; try apply reuse_NoDup; intros k Hk.
    - apply reuse_spec. apply HR in Hk. destruct Hk as (A & B). split; [exact A|].
      destruct (activeb (ms k)) eqn:E; [|reflexivity]. now apply activeb_spec in E.
    - apply HR. apply reuse_spec in Hk. destruct Hk as (A & B). split; [exact A|]. intros C. apply activeb_spec in C. congruence. }
  set (D' := filter (depletedb s n ms) (all_cells (sbox s))).
  assert (ID : forall c, In c D' <-> depleted s n ms c).
  { intros c. unfold D'. rewrite filter_In, all_cells_In. split.
    - intros (A & B). now apply depletedb_spec.
    - intros A. assert (A' := A). destruct A' as (A1 & _). split; [exact A1|]. now apply depletedb_spec. }
  assert (ND' : NoDup D') by (apply NoDup_filter, all_cells_NoDup).
  assert (LD : length D = length D').
  { apply Nat.le_antisymm; apply NoDup_incl_length; try assumption; intros c Hc; [apply ID; now apply HD|apply HD; now apply ID]. }
  assert (NE : forall c, in_grid (sbox s) c -> depletedb s n ms c = true ->
    flat_map (members (sbox s) n ms) (block (sbox s) (fst c) (snd c)) <> []).
  { intros c Hc E K. destruct (HS c) as (k & Hk); [now apply depletedb_spec|].
    apply source_block in Hk; try assumption. rewrite K in Hk. contradiction. }
  destruct (run s n ms OK HI (all_cells (sbox s)) [] (State n ms 0) (inv0 s n ms)) as (st & E & I).
  { intros c Hc. now apply all_cells_In in Hc. }
  { intros c Hc E. apply NE; [now apply all_cells_In|exact E]. }
  { cbv zeta. cbn [length plus]. fold D'. rewrite <- LD, <- LR. exact Cap. }
  cbn [app] in I. fold D' in I. exists st. split; [exact E|].
  split; [rewrite (i_nbp _ _ _ _ _ I); lia|].
  assert (NSL : forall k, (k < n)%nat -> active (ms k) -> forall t, k <> slot s n ms t).
  { intros k Hk A t ->. destruct (slot_free s n ms t Hk) as (B & _). apply activeb_spec in A. congruence. }
  split; [intros k Hk A; apply (i_old _ _ _ _ _ I); intros; now apply NSL|].
  split.
  - intros c N Hc P. apply population_members in P; try assumption.
    assert (Q := i_count _ _ _ _ _ I c Hc). rewrite P in Q.
    assert (FL : length (filter (fun d => (flat (sbox s) d =? flat (sbox s) c)%Z) D') = if depletedb s n ms c then 1%nat else 0%nat).
    { assert (IN : forall d, In d (filter (fun d => (flat (sbox s) d =? flat (sbox s) c)%Z) D') <-> d = c /\ depletedb s n ms c = true).
      { intros d. rewrite filter_In, ID, Z.eqb_eq. split.
        - intros (A & B). assert (A' := A). destruct A' as (A1 & _). apply flat_inj in B; try assumption. subst d.
          split; [reflexivity|]. now apply depletedb_spec.
        - intros (-> & B). split; [now apply depletedb_spec|reflexivity]. }
      assert (NDF : NoDup (filter (fun d => (flat (sbox s) d =? flat (sbox s) c)%Z) D')) by now apply NoDup_filter.
      destruct (depletedb s n ms c).
      - apply Nat.le_antisymm.
        + apply (NoDup_incl_length (l' := [c]) NDF). intros d Hd. apply IN in Hd. destruct Hd as (-> & _). now left.
        + apply (NoDup_incl_length (l := [c])); [constructor; [easy|constructor]|]. intros d [<-|[]]. now apply IN.
      - destruct (filter _ D') as [|d l]; [reflexivity|]. exfalso. destruct (proj1 (IN d) (or_introl eq_refl)). discriminate. }
    rewrite FL in Q. destruct (depletedb s n ms c) eqn:Ec.
    + right. split; [apply population_members; [assumption|assumption|lia]|now apply depletedb_spec].
    + left. split; [apply population_members; [assumption|assumption|lia]|].
      intros K. apply depletedb_spec in K; try assumption. congruence.
  - intros k Hk Ho.
    destruct (In_dec Nat.eq_dec k (map (slot s n ms) (seq 0 (length D')))) as [K|K].
    + right. apply in_map_iff in K. destruct K as (t & <- & Ht). apply in_seq in Ht.
      assert (IC : In (nth t D' (0, 0)%Z) D') by (apply nth_In; lia).
      exists (nth t D' (0, 0)%Z). split; [now apply ID|]. rewrite (i_new _ _ _ _ _ I) by lia.
      apply ID in IC. assert (IC' := IC). destruct IC' as (G1 & _). apply created_new; try assumption. apply NE; [exact G1|]. now apply depletedb_spec.
    + left. assert (KN : (k < n)%nat).
      { destruct (Nat.lt_ge_cases k n) as [|L]; [assumption|]. exfalso. apply K. apply in_map_iff.
        rewrite (i_nbp _ _ _ _ _ I) in Hk.
        exists (length (snd (count_parts (sbox s) n ms)) + (k - n))%nat. split; [|apply in_seq; lia].
        unfold slot. destruct (Nat.ltb_spec (length (snd (count_parts (sbox s) n ms)) + (k - n)) (length (snd (count_parts (sbox s) n ms)))); lia. }
      split; [exact KN|]. apply (i_old _ _ _ _ _ I). intros t Ht ->. apply K. apply in_map_iff. exists t. split; [reflexivity|]. apply in_seq. lia.
Qed.
Print Assumptions C75_reseeding.

(** Nothing depleted: nothing changes, whatever the freed memory holds. *)
Theorem C75_nothing_to_do : forall s n ms, box_ok (sbox s) ->
  (forall c, ~ depleted s n ms c) -> reseed s n ms = Done (State n ms 0).
Proof.
  intros s n ms OK H. unfold reseed. cbv zeta.
  assert (K : forall cs, (forall c, In c cs -> in_grid (sbox s) c) ->
    reseed_cells s (fst (count_parts (sbox s) n ms)) (snd (count_parts (sbox s) n ms)) (store_parts (sbox s) n ms) cs (State n ms 0) = Done (State n ms 0)).
  { induction cs as [|c cs IH]; intros HG; cbn [reseed_cells]; [reflexivity|]. rewrite cell_full; [apply IH; intros; apply HG; now right|].
    destruct (depletedb s n ms c) eqn:E; [|reflexivity]. exfalso. apply (H c). apply depletedb_spec; try assumption. apply HG. now left. }
  apply K. intros c Hc. now apply all_cells_In.
Qed.
Print Assumptions C75_nothing_to_do.

(** A depleted cell with no active marker two cells around stops the run. *)
Theorem C75_isolated_cell_stops : forall s n ms c, box_ok (sbox s) ->
  depleted s n ms c -> (forall k, ~ source s n ms c k) -> forall st, reseed s n ms <> Done st.
Proof.
  intros s n ms c OK HD HS st. unfold reseed. cbv zeta.
  assert (GC : in_grid (sbox s) c) by now destruct HD.
  assert (AL : flat_map (members (sbox s) n ms) (block (sbox s) (fst c) (snd c)) = []).
  { destruct (flat_map _ _) as [|k l] eqn:E; [reflexivity|]. exfalso. apply (HS k). apply source_block; try assumption. rewrite E. now left. }
  assert (K : forall cs st0, In c cs ->
    reseed_cells s (fst (count_parts (sbox s) n ms)) (snd (count_parts (sbox s) n ms)) (store_parts (sbox s) n ms) cs st0 <> Done st).
  { induction cs as [|c' cs IH]; intros st0 Hin; [contradiction|destruct Hin as [->|Hc]]; cbn [reseed_cells].
    - rewrite cell_alone; [discriminate|now apply depletedb_spec|exact AL].
    - destruct (reseed_cell _ _ _ _ _ _); try discriminate. now apply IH. }
  apply K. now apply all_cells_In.
Qed.
Print Assumptions C75_isolated_cell_stops.

(** The marker array never overflows, and markers are never lost from the count. *)
Theorem C75_capacity : forall s n ms st, reseed s n ms = Done st -> nbp st = n \/ (n < nbp st < smax s)%nat.
Proof.
  intros s n ms st. unfold reseed. cbv zeta.
  assert (K : forall cs st0, nbp st0 = n \/ (n < nbp st0 < smax s)%nat ->
    reseed_cells s (fst (count_parts (sbox s) n ms)) (snd (count_parts (sbox s) n ms)) (store_parts (sbox s) n ms) cs st0 = Done st ->
    nbp st = n \/ (n < nbp st < smax s)%nat).
  { induction cs as [|c cs IH]; intros st0 H0; cbn [reseed_cells]; [intros E; injection E as <-; exact H0|].
    destruct (reseed_cell _ _ _ _ _ _) as [st1| |] eqn:E1; try discriminate. apply IH. revert E1. unfold reseed_cell. cbv zeta.
    destruct (_ && _); [|intros E; injection E as <-; exact H0].
    destruct (_ =? 0)%nat; [discriminate|]. destruct (neighbours _ _ _ _) as [l|]; [|discriminate].
    destruct (_ && _) ; [|intros E; injection E as <-; exact H0].
    destruct (_ && _).
    - cbv zeta. destruct (_ =? -1)%Z; [discriminate|]. intros E. injection E as <-. exact H0.
    - destruct (Nat.leb_spec (smax s) (nbp st0 + 1)); [discriminate|]. destruct (_ =? -1)%Z; [discriminate|].
      intros E. injection E as <-. cbn [nbp]. lia. }
  apply K. now left.
Qed.
Print Assumptions C75_capacity.

(** Taken literally the routine never adds a marker: before the first one it reads
    counters that were freed. *)
Theorem C75_use_after_free_refuted : forall s n ms, box_ok (sbox s) -> sfreed s = None ->
  (exists c, depleted s n ms c) -> (forall c, depleted s n ms c -> exists k, source s n ms c k) -> reseed s n ms = UB.
Proof.
  intros s n ms OK HF (c & HD) HS. unfold reseed. cbv zeta.
  destruct (cells_none s n ms (all_cells (sbox s)) (State n ms 0)) as [(A & _)|(_ & [B|((c' & I & B1 & B2) & _)])]; try assumption.
  - intros c' H. now apply all_cells_In in H.
  - exfalso. assert (HD' := HD). destruct HD' as (G & _). apply depletedb_spec in HD; try assumption. rewrite A in HD; [discriminate|]. now apply all_cells_In.
  - exfalso. apply all_cells_In in I. assert (D' : depleted s n ms c') by now apply depletedb_spec.
    destruct (HS c' D') as (k & Hk). apply source_block in Hk; try assumption. rewrite B2 in Hk. contradiction.
Qed.
Print Assumptions C75_use_after_free_refuted.

(** The topography has no influence. *)
Theorem C75_topography_ignored : forall s n ms h fs, box_ok (sbox s) ->
  reseed (Setting (sbox s) (sflag s) h fs (sdirect s) (sgrid s) (smax s) (sfreed s)) n ms = reseed s n ms.
Proof.
  intros s n ms h fs OK. unfold reseed. cbv zeta. cbn [sbox].
  assert (K : forall cs st, (forall c, In c cs -> in_grid (sbox s) c) ->
    reseed_cells (Setting (sbox s) (sflag s) h fs (sdirect s) (sgrid s) (smax s) (sfreed s)) (fst (count_parts (sbox s) n ms)) (snd (count_parts (sbox s) n ms)) (store_parts (sbox s) n ms) cs st =
    reseed_cells s (fst (count_parts (sbox s) n ms)) (snd (count_parts (sbox s) n ms)) (store_parts (sbox s) n ms) cs st).
  { induction cs as [|c cs IH]; intros st HG; cbn [reseed_cells]; [reflexivity|].
    assert (E : reseed_cell (Setting (sbox s) (sflag s) h fs (sdirect s) (sgrid s) (smax s) (sfreed s)) (fst (count_parts (sbox s) n ms)) (snd (count_parts (sbox s) n ms)) (store_parts (sbox s) n ms) st c =
      reseed_cell s (fst (count_parts (sbox s) n ms)) (snd (count_parts (sbox s) n ms)) (store_parts (sbox s) n ms) st c).
    { unfold reseed_cell. cbn [sbox sflag sheight sfree_surface sdirect sgrid smax sfreed]. cbv zeta.
      rewrite !(in_box_true s OK c _ (HG c (or_introl eq_refl))). reflexivity. }
    rewrite E. destruct (reseed_cell s _ _ _ st c) as [st1| |]; [|reflexivity|reflexivity]. apply IH. intros; apply HG; now right. }
  apply K. intros c H. now apply all_cells_In in H.
Qed.
Print Assumptions C75_topography_ignored.

(** ** A case: one mesh cell, its four quarters; the two upper quarters are empty, one
    recycled and one new slot are used; the surface lies at 1.2, the new markers at 1.5. *)
Definition ex_box : box := Box 2 2 0 2 0 2.
Definition ex_ms (k : nat) : part :=
  match k with
  | 0 => Part (3 / 10) (1 / 2) 4 0 10 20 | 1 => Part (7 / 10) (1 / 2) 5 0 11 21
  | 2 => Part (13 / 10) (1 / 2) 6 0 12 22 | 3 => Part (17 / 10) (1 / 2) 7 0 13 23
  | _ => Part 0 0 (-1) 0 0 0
  end.
Definition ex_set : setting := Setting ex_box (fun _ => (-1)%Z) (fun _ => 12 / 10) true true (fun _ _ => 0) 10
  (Some (fun k => if (k <? 2)%Z then 2%nat else 0%nat)).

Lemma ex_cells : forall c, in_grid ex_box c -> c = (0, 0)%Z \/ c = (1, 0)%Z \/ c = (0, 1)%Z \/ c = (1, 1)%Z.
Proof.
  intros (i & j) (I & J). cbn in I, J. assert (i = 0 \/ i = 1)%Z as [-> | ->] by lia; assert (j = 0 \/ j = 1)%Z as [-> | ->] by lia; tauto.
Qed.
Lemma ex_axis : forall i x, on_axis 0 ((2 - 0) / IZR (2 - 1) / 2) (2 * (2 - 1)) i x <->
  (IZR i < x \/ i = 0%Z) /\ (x <= IZR i + 1 \/ i = 1%Z).
Proof.
  intros i x. unfold on_axis. replace ((2 - 0) / IZR (2 - 1) / 2) with 1 by (change (IZR (2 - 1)) with 1; lra).
  rewrite Rplus_0_l, !Rmult_1_r, Rplus_0_l. tauto.
Qed.
Lemma ex_holds : forall c k, in_grid ex_box c ->
  holds ex_box c (ex_ms k) <-> c = (0, 0)%Z /\ (k = 0 \/ k = 1)%nat \/ c = (1, 0)%Z /\ (k = 2 \/ k = 3)%nat.
Proof.
  intros c k Hc. unfold holds. cbn [bx0 bx1 bz0 bz1 bNx bNz ex_box]. rewrite !ex_axis.
  destruct k as [|[|[|[|k]]]]; cbn [ex_ms qx qz];
    try (assert (A : forall x z p g q w, p <> (-1)%Z -> active (Part x z p g q w)) by (intros; assumption)).
  5:{ split; [intros (H & _); exfalso; apply H; reflexivity|intros [(_ & [E|E])|(_ & [E|E])]; lia]. }
  all: destruct (ex_cells c Hc) as [->|[->|[->| ->]]]; cbn [fst snd];
    (split; [intros (_ & (X1 & X2) & Z1 & Z2)|intros H]).
  all: try (left; split; [reflexivity|lia]).
  all: try (right; split; [reflexivity|lia]).
  all: try (exfalso; destruct X1 as [X1|X1]; destruct X2 as [X2|X2]; destruct Z1 as [Z1|Z1]; destruct Z2 as [Z2|Z2]; try lia; lra).
  all: destruct H as [(E & [H|H])|(E & [H|H])]; try discriminate.
  all: split; [apply A; discriminate|].
  all: repeat split; (left; lra) || (right; lia).
Qed.

Lemma ex_population : forall c N, in_grid ex_box c -> population ex_box 5 ex_ms c N <-> N = (if (snd c =? 0)%Z then 2%nat else 0%nat).
Proof.
  intros c N Hc.
  assert (OK : box_ok ex_box) by (split; [|split; [|split]]; cbn; lia || lra).
  assert (P : population ex_box 5 ex_ms c (if (snd c =? 0)%Z then 2%nat else 0%nat)).
  { destruct (ex_cells c Hc) as [E|[E|[E|E]]]; rewrite E in *; cbn [snd Z.eqb].
    1: exists [0; 1]%nat. 2: exists [2; 3]%nat. 3,4: exists []%nat.
    all: split; [repeat (constructor; [cbn; lia|]); constructor|]; split; [|reflexivity];
      intros k; rewrite (ex_holds _ k Hc); cbn [In];
      (split; [intros K|intros (K1 & [(K2 & K3)|(K2 & K3)])]); try discriminate; try lia.
    - split; [lia|left; split; [reflexivity|lia]].
    - split; [lia|right; split; [reflexivity|lia]].
    }
  split; [|intros ->; exact P]. intros Q. apply population_members in P; try assumption. apply population_members in Q; try assumption. congruence.
Qed.

Lemma ex_depleted : forall c, depleted ex_set 5 ex_ms c <-> In c [(0, 1); (1, 1)]%Z.
Proof.
  intros c. unfold depleted. cbn [sbox ex_set]. split.
  - intros (Hc & _ & N & P & L). apply ex_population in P; [|exact Hc].
    destruct (ex_cells c Hc) as [->|[->|[->| ->]]]; cbn [snd Z.eqb] in P; try lia; cbn; tauto.
  - intros H. assert (Hc : in_grid ex_box c) by (destruct H as [<-|[<-|[]]]; split; cbn; lia).
    split; [exact Hc|]. split; [intros E; discriminate|]. exists 0%nat. split; [|lia].
    apply ex_population; [exact Hc|]. destruct H as [<-|[<-|[]]]; reflexivity.
Qed.

Lemma ex_hyps : box_ok (sbox ex_set) /\ intact ex_set 5 ex_ms /\
  (forall c, depleted ex_set 5 ex_ms c -> exists k, source ex_set 5 ex_ms c k).
Proof.
  split; [split; [|split; [|split]]; cbn; lia || lra|]. split.
  - eexists. split; [reflexivity|]. cbn [sbox ex_set]. intros c N Hc P. apply ex_population in P; [|exact Hc]. subst N.
    destruct (ex_cells c Hc) as [->|[->|[->| ->]]]; reflexivity.
  - intros c Hc. exists 0%nat. split; [lia|]. exists (0, 0)%Z. cbn [sbox ex_set].
    assert (G : in_grid ex_box (0, 0)%Z) by (split; cbn; lia). split; [exact G|].
    split; [apply ex_depleted in Hc; destruct Hc as [<-|[<-|[]]]; split; cbn; lia|].
    apply ex_holds; [exact G|]. left. split; [reflexivity|now left].
Qed.

(** With a free surface, markers are created above the topography. *)
Theorem C75_above_surface_refuted : exists s n ms st k, box_ok (sbox s) /\ intact s n ms /\ sfree_surface s = true /\
  reseed s n ms = Done st /\ (k < nbp st)%nat /\ active (arr st k) /\
  (forall i, sheight s i < qz (arr st k)).
Proof.
  destruct ex_hyps as (OK & HI & HS).
  destruct (C75_reseeding ex_set 5 ex_ms [(0, 1); (1, 1)]%Z [4%nat] OK HI) as (st & E & NB & _ & PO & NW).
  - repeat (constructor; [cbn; intuition congruence|]). constructor.
  - intros c. now rewrite ex_depleted.
  - constructor; [easy|constructor].
  - intros k. split.
    + intros [<-|[]]. split; [lia|]. intros A. now apply A.
    + intros (K & A). destruct k as [|[|[|[|k]]]]; try (exfalso; apply A; cbn; discriminate). left. lia.
  - exact HS.
  - right. cbn. lia.
  - cbn [length] in NB. replace (5 + (2 - 1))%nat with 6%nat in NB by lia.
    assert (G : in_grid (sbox ex_set) (0, 1)%Z) by (split; cbn; lia).
    exists ex_set, 5%nat, ex_ms, st, 5%nat. split; [exact OK|]. split; [exact HI|]. split; [reflexivity|]. split; [exact E|]. split; [lia|].
    destruct (NW 5%nat) as [(K & _)|(c & Dc & (M1 & M2) & _ & k0 & S0 & P0 & _)]; [lia|lia|lia|].
    split.
    + destruct S0 as (_ & c' & _ & _ & (A & _)). unfold active. rewrite P0. exact A.
    + intros i. rewrite M2. cbn [sbox ex_set ex_box sheight bz0 bz1 bNz].
      apply ex_depleted in Dc. change (IZR (2 - 1)) with 1. destruct Dc as [<-|[<-|[]]]; cbn [snd]; lra.
Qed.
Print Assumptions C75_above_surface_refuted.

Example C75_ex : exists st, reseed ex_set 5 ex_ms = Done st /\ nbp st = 6%nat /\
  population ex_box 6 (arr st) (0, 1)%Z 1 /\ population ex_box 6 (arr st) (1, 1)%Z 1 /\ population ex_box 6 (arr st) (0, 0)%Z 2.
Proof.
  destruct ex_hyps as (OK & HI & HS).
  destruct (C75_reseeding ex_set 5 ex_ms [(0, 1); (1, 1)]%Z [4%nat] OK HI) as (st & E & NB & _ & PO & NW).
  - repeat (constructor; [cbn; intuition congruence|]). constructor.
  - intros c. now rewrite ex_depleted.
  - constructor; [easy|constructor].
  - intros k. split.
    + intros [<-|[]]. split; [lia|]. intros A. now apply A.
    + intros (K & A). destruct k as [|[|[|[|k]]]]; try (exfalso; apply A; cbn; discriminate). left. lia.
  - exact HS.
  - right. cbn. lia.
  - cbn [length] in NB. replace (5 + (2 - 1))%nat with 6%nat in NB by lia. exists st. split; [exact E|]. split; [exact NB|].
    rewrite NB in PO.
    assert (Q : forall c, in_grid ex_box c -> population ex_box 6 (arr st) c (if (snd c =? 0)%Z then 2%nat else 1%nat)).
    { intros c Hc. destruct (PO c _ Hc (proj2 (ex_population c _ Hc) eq_refl)) as [(P & N)|(P & D)].
      - destruct (ex_cells c Hc) as [->|[->|[->| ->]]]; cbn [snd Z.eqb] in *; try exact P; exfalso; apply N; apply ex_depleted; cbn; tauto.
      - apply ex_depleted in D. destruct D as [<-|[<-|[]]]; exact P. }
    split; [apply (Q (0, 1)%Z); split; cbn; lia|]. split; [apply (Q (1, 1)%Z); split; cbn; lia|]. apply (Q (0, 0)%Z). split; cbn; lia.
Qed.
