(** * C100: markers added to depleted cells by the default method *)
From Coq Require Import ZArith Reals List Bool Lia Lra Psatz Permutation Arith.
Import ListNotations.
From Verif Require Import P2GModel P2GProofs AdvModel AdvProofs ReseedModel ReseedProofs ReseedProps SeedModel SeedProofs.
Local Open Scope R_scope.

(** ** The marker copied *)
Lemma sed_fold : forall s ms p l d0 k0,
  let r := fold_left (closer_sed s ms p) l (d0, k0) in
  fst r <= d0 /\ (forall k, In k l -> sediment s (ms k) -> fst r <= distance p (ms k)) /\
  (r = (d0, k0) \/ (In (snd r) l /\ sediment s (ms (snd r)) /\ fst r = distance p (ms (snd r)) /\ fst r < d0)).
Proof.
  intros s ms p l. induction l as [|k l IH]; intros d0 k0; cbn [fold_left].
  - cbn. split; [lra|]. split; [tauto|now left].
  - cbv zeta. assert (EC : closer_sed s ms p (d0, k0) k =
      if Rltb (distance p (ms k)) d0 && ((qph (ms k) =? dised1 s)%Z || (qph (ms k) =? dised2 s)%Z) then (distance p (ms k), k) else (d0, k0)) by reflexivity.
    rewrite !EC. clear EC.
    assert (SD : ((qph (ms k) =? dised1 s)%Z || (qph (ms k) =? dised2 s)%Z) = true <-> sediment s (ms k)).
    { unfold sediment. rewrite orb_true_iff, !Z.eqb_eq. tauto. }
    destruct (Rltb_spec (distance p (ms k)) d0) as [L|L]; cbn [andb].
    + destruct ((qph (ms k) =? dised1 s)%Z || (qph (ms k) =? dised2 s)%Z) eqn:ES.
      * destruct (IH (distance p (ms k)) k) as (A & B & C). cbv zeta.
        set (r := fold_left (closer_sed s ms p) l (distance p (ms k), k)) in *. split; [lra|]. split.
        -- intros k' [->|Hk]; [intros; exact A|auto].
        -- right. destruct C as [->|(C1 & C2 & C3 & C4)]; [cbn; split; [now left|split; [now apply SD|split; [reflexivity|exact L]]]|].
           split; [now right|]. split; [exact C2|]. split; [exact C3|lra].
      * destruct (IH d0 k0) as (A & B & C). cbv zeta. set (r := fold_left (closer_sed s ms p) l (d0, k0)) in *.
        split; [exact A|]. split; [intros k' [->|Hk] K; [apply SD in K; discriminate|auto]|].
        destruct C as [C|(C1 & C2)]; [now left|right; split; [now right|exact C2]].
    + destruct (IH d0 k0) as (A & B & C). cbv zeta. set (r := fold_left (closer_sed s ms p) l (d0, k0)) in *.
      split; [exact A|]. split; [intros k' [->|Hk] K; [lra|auto]|].
      destruct C as [C|(C1 & C2)]; [now left|right; split; [now right|exact C2]].
Qed.

Lemma closest2_In : forall s ms p sed l, l <> [] -> In (closest2 s ms p sed l) l.
Proof.
  intros s ms p sed l Hl. unfold closest2. destruct sed; [|now apply closest_In].
  destruct (sed_fold s ms p l (bx1 (dbox s) - bx0 (dbox s)) (nth 0 l 0%nat)) as (_ & _ & [E|(H & _)]); [|exact H].
  rewrite E. cbn [snd]. apply nth_In. destruct l; [contradiction|cbn; lia].
Qed.

Section S.
Variable s : seeding.
Variable n : nat.
Variable ms : nat -> part.
Notation b := (dbox s).
Hypothesis OK : box_ok b.
Hypothesis T : tidy b n ms.
Notation near c := (flat_map (ipcell s n ms) (around (efx b) (kd s c))).
Notation reuse := (ipreuse n ms).

Definition born (c : Z * Z) : part :=
  let k := mother s n ms c in
  Part (mx s c) (mz s c) (qph (ms k)) 1 (kept (ms k)) (if ddirect s then itp (ms k) else dgrid s (mx s c) (mz s c)).

Lemma reuse_iff : forall k, In k reuse <-> (k < n)%nat /\ ~ active (ms k).
Proof.
  intros k. unfold ipreuse, active. rewrite filter_In, in_seq, Z.eqb_eq. split; intros (A & B); split; try lia.
Qed.
Lemma reuse_uniq : NoDup reuse.
Proof. unfold ipreuse. apply NoDup_filter, seq_NoDup. Qed.

Definition seat (t : nat) : nat := if (t <? length reuse)%nat then nth t reuse 0%nat else (n + (t - length reuse))%nat.
Lemma seat_free : forall t, (seat t < n)%nat -> ~ active (ms (seat t)) /\ (t < length reuse)%nat.
Proof.
  intros t. unfold seat. destruct (Nat.ltb_spec t (length reuse)); intros H1; [|lia].
  split; [|assumption]. apply reuse_iff. now apply nth_In.
Qed.
Lemma seat_inj : forall t t', seat t = seat t' -> t = t'.
Proof.
  intros t t'. unfold seat. destruct (Nat.ltb_spec t (length reuse)) as [L|L]; destruct (Nat.ltb_spec t' (length reuse)) as [L'|L']; intros E.
  - apply (proj1 (NoDup_nth reuse 0%nat) reuse_uniq); assumption.
  - assert (X := nth_In reuse 0%nat L). apply reuse_iff in X. lia.
  - assert (X := nth_In reuse 0%nat L'). apply reuse_iff in X. lia.
  - lia.
Qed.

Lemma near_active : forall c k, In k (near c) -> (k < n)%nat /\ active (ms k).
Proof.
  intros c k H. apply in_flat_map in H. destruct H as (kc & _ & H). rewrite ipcell_eq in H by assumption. apply filter_In in H.
  destruct H as (A & B). apply in_seq in A. unfold at_kd in B. apply andb_true_iff in B. destruct B as (B & _). apply activeb_spec in B.
  split; [lia|exact B].
Qed.
Lemma mother_near : forall c, near c <> [] -> In (mother s n ms c) (near c).
Proof. intros c H. now apply closest2_In. Qed.

Record inv (D : list (Z * Z)) (a : nat -> part) : Prop := Inv {
  j_new : forall t, (t < length D)%nat -> a (seat t) = born (nth t D (0, 0)%Z);
  j_old : forall k, (forall t, (t < length D)%nat -> k <> seat t) -> a k = ms k;
  j_count : forall c, in_grid b c -> length (members b (n + (length D - length reuse)) a (flat b c)) =
    (length (members b n ms (flat b c)) + length (filter (fun d => (flat b d =? flat b c)%Z) D))%nat }.

Lemma settle_step : forall D a c, inv D a -> in_grid b c -> near c <> [] -> (seat (length D) < dmax s)%nat ->
  exists a', inv (D ++ [c]) a' /\ forall news,
    settle s n reuse (length D) (length D - length reuse) (made s n ms c :: news) a =
    settle s n reuse (length (D ++ [c])) (length (D ++ [c]) - length reuse) news a'.
Proof.
  intros D a c J Hc HL Cap. set (t := length D) in *.
  set (p := Part (mx s c) (mz s c) (qph (a (seat t))) 1 (kept (a (seat t))) (itp (a (seat t)))).
  set (a1 := nupd a (seat t) p).
  assert (MN := near_active c _ (mother_near c HL)). destruct MN as (M1 & M2).
  assert (NS : forall t', mother s n ms c <> seat t').
  { intros t' E. rewrite E in M1, M2. now destruct (seat_free t' M1). }
  assert (KEEP : a1 (mother s n ms c) = ms (mother s n ms c)).
  { unfold a1, nupd. destruct (Nat.eqb_spec (mother s n ms c) (seat t)) as [E|_]; [now apply NS in E|]. apply (j_old _ _ J). intros; apply NS. }
  assert (EA : assign (ddirect s) (dgrid s) p (a1 (mother s n ms c)) = born c) by (rewrite KEEP; reflexivity).
  set (a2 := nupd a1 (seat t) (born c)).
  assert (UU : forall k, a2 k = nupd a (seat t) (born c) k).
  { intros k. unfold a2, a1, nupd. now destruct (_ =? _)%nat. }
  assert (AC : activeb (born c) = true) by (apply activeb_spec; exact M2).
  assert (CC : cell b (born c) = flat b c) by (apply centre_cell; [exact OK|exact Hc|reflexivity|reflexivity]).
  exists a2. split.
  - split; rewrite ?app_length; cbn [length]; fold t.
    + intros t' Ht. rewrite UU. unfold nupd. destruct (Nat.eqb_spec (seat t') (seat t)) as [E|N].
      * apply seat_inj in E. subst t'. unfold t. now rewrite app_nth2, Nat.sub_diag by lia.
      * assert (t' <> t) by congruence. rewrite app_nth1 by (fold t; lia). apply (j_new _ _ J). fold t. lia.
    + intros k Hk. rewrite UU. unfold nupd. destruct (Nat.eqb_spec k (seat t)) as [E|N]; [exfalso; apply (Hk t); [lia|exact E]|].
      apply (j_old _ _ J). fold t. intros t' Ht. apply Hk. lia.
    + intros c' Hc'. rewrite filter_app, app_length.
      rewrite (members_ext b _ _ (nupd a (seat t) (born c))) by (intros; apply UU).
      assert (ADD : length (members b (n + (t + 1 - length reuse)) (nupd a (seat t) (born c)) (flat b c')) =
        (length (members b (n + (t - length reuse)) a (flat b c')) + if (flat b c =? flat b c')%Z then 1 else 0)%nat).
      { rewrite <- CC. destruct (Nat.ltb_spec t (length reuse)) as [L|L].
        - replace (n + (t + 1 - length reuse))%nat with n by lia. replace (n + (t - length reuse))%nat with n by lia.
          assert (SL : seat t = nth t reuse 0%nat) by (unfold seat; destruct (Nat.ltb_spec t (length reuse)); [reflexivity|lia]).
          assert (SI := nth_In reuse 0%nat L). rewrite <- SL in SI. apply reuse_iff in SI. destruct SI as (S1 & S2).
          apply count_recycled; [exact S1| |exact AC].
          rewrite (j_old _ _ J); [|fold t; intros t' Ht E; apply seat_inj in E; lia].
          destruct (activeb (ms (seat t))) eqn:EE; [|reflexivity]. apply activeb_spec in EE. contradiction.
        - replace (n + (t + 1 - length reuse))%nat with (S (n + (t - length reuse))) by lia.
          assert (SL : seat t = (n + (t - length reuse))%nat) by (unfold seat; destruct (Nat.ltb_spec t (length reuse)); [lia|reflexivity]).
          rewrite SL. now apply count_new. }
      assert (JC := j_count _ _ J c' Hc'). fold t in JC.
      rewrite ADD, JC. cbn [filter]. destruct (flat b c =? flat b c')%Z; cbn [length]; lia.
  - intros news. cbn [settle made fst snd]. fold t.
    assert (SEL : (if (t <? length reuse)%nat then nth t reuse 0%nat else (n + (t - length reuse))%nat) = seat t) by reflexivity.
    rewrite SEL. destruct (Nat.ltb_spec (dmax s) (seat t)); [lia|]. destruct (Nat.eqb_spec (seat t) (dmax s)); [lia|].
    cbv zeta. fold p. fold a1. rewrite EA. fold a2. rewrite app_length. cbn [length]. fold t.
    replace (t + 1)%nat with (S t) by lia. f_equal. destruct (Nat.ltb_spec t (length reuse)); lia.
Qed.

Lemma settle_run : forall cs D a, inv D a -> (forall c, In c cs -> in_grid b c) -> (forall c, In c cs -> near c <> []) ->
  (forall t, (t < length D + length cs)%nat -> (seat t < dmax s)%nat) ->
  exists a', settle s n reuse (length D) (length D - length reuse) (map (made s n ms) cs) a =
    Done ((length (D ++ cs) - length reuse)%nat, a') /\ inv (D ++ cs) a'.
Proof.
  induction cs as [|c cs IH]; intros D a J HG HS Cap; cbn [map].
  - exists a. rewrite app_nil_r. split; [reflexivity|exact J].
  - destruct (settle_step D a c J (HG c (or_introl eq_refl)) (HS c (or_introl eq_refl))) as (a1 & J1 & E1).
    { apply Cap. cbn [length]. lia. }
    rewrite E1. destruct (IH (D ++ [c]) a1 J1) as (a2 & E2 & J2).
    + intros; apply HG; now right.
    + intros c' H; apply HS; now right.
    + intros t Ht. apply Cap. rewrite app_length in Ht. cbn [length] in *. lia.
    + exists a2. rewrite E2. rewrite <- app_assoc in *. split; [reflexivity|exact J2].
Qed.

(** The array is too short: the write past its end comes before the test stops the run. *)
Lemma settle_over : forall cs D a, inv D a -> (forall c, In c cs -> in_grid b c) -> (forall c, In c cs -> near c <> []) ->
  (forall t, (t < length D)%nat -> (seat t < dmax s)%nat) -> (n <= dmax s)%nat ->
  (exists t, (t < length D + length cs)%nat /\ (dmax s <= seat t)%nat) ->
  settle s n reuse (length D) (length D - length reuse) (map (made s n ms) cs) a = UB.
Proof.
  induction cs as [|c cs IH]; intros D a J HG HS Lo Nm (t & Ht & Hx); cbn [map].
  - exfalso. cbn [length] in Ht. rewrite Nat.add_0_r in Ht. specialize (Lo t Ht). lia.
  - destruct (Nat.lt_ge_cases (seat (length D)) (dmax s)) as [L|L].
    + destruct (settle_step D a c J (HG c (or_introl eq_refl)) (HS c (or_introl eq_refl)) L) as (a1 & J1 & E1).
      rewrite E1. apply IH; try assumption.
      * intros; apply HG; now right.
      * intros c' H; apply HS; now right.
      * intros t' Ht'. rewrite app_length in Ht'. cbn [length] in Ht'. destruct (Nat.eq_dec t' (length D)) as [->|]; [exact L|]. apply Lo. lia.
      * exists t. split; [rewrite app_length; cbn [length] in *; lia|exact Hx].
    + cbn [settle].
      assert (SEL : (if (length D <? length reuse)%nat then nth (length D) reuse 0%nat else (n + (length D - length reuse))%nat) = seat (length D)) by reflexivity.
      rewrite SEL. assert (E : seat (length D) = dmax s).
      { apply Nat.le_antisymm; [|exact L]. unfold seat in *. destruct (Nat.ltb_spec (length D) (length reuse)) as [LR|LR].
        - assert (X := nth_In reuse 0%nat LR). apply reuse_iff in X. lia.
        - destruct (Nat.eq_dec (length D) (length reuse)) as [E|NE]; [lia|].
          assert (LL := Lo (length D - 1)%nat ltac:(lia)). destruct (Nat.ltb_spec (length D - 1) (length reuse)); lia. }
      rewrite E, Nat.ltb_irrefl, Nat.eqb_refl. reflexivity.
Qed.

Lemma inv_start : inv [] ms.
Proof.
  split; cbn [length].
  - intros; lia.
  - reflexivity.
  - intros c _. cbn. rewrite !Nat.add_0_r. reflexivity.
Qed.

Lemma no_misfit : misfit n ms = false.
Proof.
  unfold misfit. destruct (existsb _ _) eqn:E; [|reflexivity]. exfalso. apply existsb_exists in E. destruct E as (k & Hk & E).
  apply in_seq in Hk. apply andb_true_iff in E. destruct E as (A & B). apply activeb_spec in A. destruct (T k ltac:(lia) A) as (P & _).
  apply negb_true_iff, Z.leb_gt in B. lia.
Qed.

Lemma born_newborn : forall c, in_grid b c -> near c <> [] -> newborn s n ms c (born c).
Proof.
  intros c Hc HL. split; [now apply middle_iff|]. split; [reflexivity|]. exists (mother s n ms c).
  split; [apply near_In; try assumption; now apply mother_near|]. do 3 (split; [reflexivity|]).
  assert (W : 0 < bx1 b - bx0 b) by (destruct OK as (_ & _ & W & _); lra).
  assert (DL : forall k, dist2 (born c) (ms k) < width2 s -> distance (here0 s c) (ms k) < bx1 b - bx0 b).
  { intros k H. unfold dist2, born, width2 in H. cbn [qx qz] in H. unfold distance, here0. cbn [qx qz].
    rewrite <- (sqrt_square (bx1 b - bx0 b)) by lra. apply sqrt_lt_1_alt.
    set (u := mx s c - qx (ms k)) in *. set (v := mz s c - qz (ms k)) in *.
    pose proof (Rle_0_sqr u). pose proof (Rle_0_sqr v). unfold Rsqr in *. split; [nra|]. cbn [pow]. lra. }
  split.
  - intros ND (k1 & N1 & L1) k' N'. apply near_In in N1; try assumption. apply near_In in N'; try assumption.
    assert (ED : depositb s c = false) by (destruct (depositb s c) eqn:E; [apply depositb_spec in E; contradiction|reflexivity]).
    unfold mother, closest2. rewrite ED.
    apply (closest_min ms (here0 s c)); [|exact N']. exists k1. split; [exact N1|]. now apply DL.
  - intros ND (k1 & N1 & S1 & L1). apply near_In in N1; try assumption. apply depositb_spec in ND.
    unfold mother, closest2. rewrite ND. set (l := near c) in *.
    destruct (sed_fold s ms (here0 s c) l (bx1 b - bx0 b) (nth 0 l 0%nat)) as (_ & B & [E|(_ & C & E & _)]).
    + exfalso. specialize (B k1 N1 S1). rewrite E in B. cbn [fst] in B. specialize (DL k1 L1). lra.
    + split; [exact C|]. intros k' N' S'. apply near_In in N'; try assumption.
      change (dist2 (born c)) with (dist2 (here0 s c)). apply distance_dist2. rewrite <- E. apply B; assumption.
Qed.
End S.

(** ** Theorems *)
Definition fill (s : seeding) (n : nat) (ms : nat -> part) (c : Z * Z) : Prop := short s n ms c /\ buried s c.

Section Lists.
Variable s : seeding.
Variable n : nat.
Variable ms : nat -> part.
Variable D : list (Z * Z).
Variable Rz : list nat.
Hypothesis OK : box_ok (dbox s).
Hypothesis T : tidy (dbox s) n ms.
Hypothesis ND : NoDup D.
Hypothesis HD : forall c, In c D <-> fill s n ms c.
Hypothesis NR : NoDup Rz.
Hypothesis HR : forall k, In k Rz <-> (k < n)%nat /\ ~ active (ms k).
Hypothesis HS : forall c, short s n ms c -> exists k, nearby s n ms c k.
Notation D' := (filter (wantedb s n ms) (all_cells (dbox s))).
Notation near c := (flat_map (ipcell s n ms) (around (efx (dbox s)) (kd s c))).

Lemma lens : length Rz = length (ipreuse n ms).
Proof using NR HR.
  clear - NR HR. apply Nat.le_antisymm; apply NoDup_incl_length; try assumption; try apply reuse_uniq; intros k Hk.
  - apply reuse_iff. now apply HR.
  - apply HR. now apply reuse_iff in Hk.
Qed.
Lemma fills : forall c, In c D' <-> fill s n ms c.
Proof using OK.
  clear - OK. intros c. unfold fill, wantedb. rewrite filter_In, all_cells_In, andb_true_iff, buriedb_spec. split.
  - intros (A & B & C). split; [now apply shortb_spec|exact C].
  - intros (A & C). assert (A' := A). destruct A' as (G & _). split; [exact G|]. split; [now apply shortb_spec|exact C].
Qed.
Lemma fills_uniq : NoDup D'.
Proof using. apply NoDup_filter, all_cells_NoDup. Qed.
Lemma lend : length D = length D'.
Proof using OK ND HD.
  clear HS. apply Nat.le_antisymm; apply NoDup_incl_length; try assumption; try apply fills_uniq; intros c Hc; [apply fills; now apply HD|apply HD; now apply fills].
Qed.
Lemma near_some : forall c, in_grid (dbox s) c -> shortb s n ms c = true -> near c <> [].
Proof using OK T HS.
  intros c Hc E K. destruct (HS c) as (k & Hk); [now apply shortb_spec|]. apply near_In in Hk; try assumption. rewrite K in Hk. contradiction.
Qed.
Lemma fill_grid : forall c, In c D' -> in_grid (dbox s) c.
Proof using OK. intros c Hc. apply fills in Hc. now destruct Hc as ((G & _) & _). Qed.
Lemma fill_near : forall c, In c D' -> near c <> [].
Proof using OK T HS.
  intros c Hc. apply near_some; [now apply fill_grid|]. apply fills in Hc. destruct Hc as (A & _). apply shortb_spec; [exact OK|now destruct A|exact A].
Qed.
Lemma collected : collect s n ms (fine_cells (dbox s)) [] = if (length D <=? n)%nat then Done (map (made s n ms) D') else UB.
Proof using OK T HS ND HD.
  rewrite fine_all, collect_run; try assumption.
  - cbn [length plus app]. now rewrite lend.
  - intros c Hc. now apply all_cells_In in Hc.
  - intros c Hc. apply near_some. now apply all_cells_In in Hc.
  - cbn. lia.
Qed.
Lemma seat_bound : (n + (length D - length Rz) <= dmax s)%nat -> (n <= dmax s)%nat -> forall t, (t < length D')%nat -> (seat n ms t < dmax s)%nat.
Proof using OK ND HD NR HR.
  intros H N t Ht. rewrite <- lend in Ht. rewrite lens in H. unfold seat. destruct (Nat.ltb_spec t (length (ipreuse n ms))) as [L|L]; [|lia].
  assert (X := nth_In (ipreuse n ms) 0%nat L). apply reuse_iff in X. lia.
Qed.
End Lists.

Theorem C100_reseeding : forall s n ms D Rz,
  box_ok (dbox s) -> tidy (dbox s) n ms ->
  NoDup D -> (forall c, In c D <-> fill s n ms c) ->
  NoDup Rz -> (forall k, In k Rz <-> (k < n)%nat /\ ~ active (ms k)) ->
  (forall c, short s n ms c -> exists k, nearby s n ms c k) ->
  (length D <= n)%nat -> (n + (length D - length Rz) <= dmax s)%nat ->
  exists n' ms', seed s n ms = Done (n', ms') /\
    n' = (n + (length D - length Rz))%nat /\
    (forall k, (k < n)%nat -> active (ms k) -> ms' k = ms k) /\
    (forall c N, in_grid (dbox s) c -> population (dbox s) n ms c N ->
       population (dbox s) n' ms' c N /\ ~ fill s n ms c \/ population (dbox s) n' ms' c (S N) /\ fill s n ms c) /\
    (forall k, (k < n')%nat -> ~ (k < n /\ active (ms k))%nat ->
       (k < n)%nat /\ ms' k = ms k \/ exists c, fill s n ms c /\ newborn s n ms c (ms' k)) /\
    (forall c, fill s n ms c -> exists k, (k < n')%nat /\ ~ (k < n /\ active (ms k))%nat /\ newborn s n ms c (ms' k)).
Proof.
  intros s n ms D Rz OK T ND HD NR HR HS Buf Cap.
  assert (LR := lens n ms Rz NR HR). assert (LD := lend s n ms D OK ND HD).
  set (D' := filter (wantedb s n ms) (all_cells (dbox s))) in *.
  assert (SB := seat_bound s n ms D Rz OK ND HD NR HR Cap ltac:(lia)). fold D' in SB.
  destruct (settle_run s n ms OK T D' [] ms (inv_start s n ms)) as (a & E & J).
  { intros c Hc. now apply (fill_grid s n ms OK). }
  { intros c Hc. now apply (fill_near s n ms OK T HS). }
  { exact SB. }
  cbn [app] in J, E. change (length (@nil (Z * Z))) with 0%nat in E. change (0 - length (ipreuse n ms))%nat with 0%nat in E.
  exists (n + (length D' - length (ipreuse n ms)))%nat, a. split.
  { unfold seed. rewrite (no_misfit s n ms T), (collected s n ms D OK T ND HD HS). destruct (Nat.leb_spec (length D) n); [|lia].
    fold D'. rewrite E. reflexivity. }
  split; [lia|].
  assert (NSL : forall k, (k < n)%nat -> active (ms k) -> forall t, k <> seat n ms t).
  { intros k Hk A t ->. now destruct (seat_free n ms t Hk) as (B & _). }
  split; [intros k Hk A; apply (j_old _ _ _ _ _ J); intros; now apply NSL|].
  assert (ID := fills s n ms OK). fold D' in ID.
  split.
  - intros c N Hc P. apply population_members in P; try assumption.
    assert (Q := j_count _ _ _ _ _ J c Hc). rewrite P in Q.
    set (F := filter (fun d => (flat (dbox s) d =? flat (dbox s) c)%Z) D') in *.
    assert (IN : forall d, In d F <-> d = c /\ wantedb s n ms c = true).
    { intros d. unfold F. rewrite filter_In, Z.eqb_eq. split.
      - intros (A & B). assert (A' := A). apply (fill_grid s n ms OK) in A'. apply flat_inj in B; try assumption. subst d.
        split; [reflexivity|]. unfold D' in A. apply filter_In in A. tauto.
      - intros (-> & B). split; [|reflexivity]. unfold D'. apply filter_In. split; [now apply all_cells_In|exact B]. }
    assert (NDF : NoDup F) by (apply NoDup_filter, fills_uniq).
    assert (W : wantedb s n ms c = true <-> fill s n ms c).
    { rewrite <- ID. unfold D'. rewrite filter_In, all_cells_In. tauto. }
    destruct (wantedb s n ms c) eqn:Ec.
    + right. split; [|now apply W]. apply population_members; [assumption|assumption|].
      assert (length F = 1%nat); [|lia]. apply Nat.le_antisymm.
      * apply (NoDup_incl_length (l' := [c]) NDF). intros d Hd. apply IN in Hd. destruct Hd as (-> & _). now left.
      * apply (NoDup_incl_length (l := [c])); [constructor; [easy|constructor]|]. intros d [<-|[]]. now apply IN.
    + left. split; [|intros K; apply W in K; discriminate]. apply population_members; [assumption|assumption|].
      assert (length F = 0%nat); [|lia]. destruct F as [|d l]; [reflexivity|]. exfalso. destruct (proj1 (IN d) (or_introl eq_refl)). discriminate.
  - assert (BN : forall t, (t < length D')%nat -> newborn s n ms (nth t D' (0, 0)%Z) (a (seat n ms t))).
    { intros t Ht. rewrite (j_new _ _ _ _ _ J) by lia. assert (IC : In (nth t D' (0, 0)%Z) D') by now apply nth_In.
      apply born_newborn; try assumption; [now apply (fill_grid s n ms OK)|now apply (fill_near s n ms OK T HS)]. }
    split.
    2:{ intros c Fc. apply ID in Fc. apply (In_nth _ _ (0, 0)%Z) in Fc. destruct Fc as (t & Ht & Ec).
      exists (seat n ms t). split.
      - unfold seat. destruct (Nat.ltb_spec t (length (ipreuse n ms))) as [L|L]; [|lia].
        assert (X := nth_In (ipreuse n ms) 0%nat L). apply reuse_iff in X. lia.
      - split; [intros (K1 & K2); now apply (NSL _ K1 K2 t)|]. rewrite <- Ec. now apply BN. }
    intros k Hk Ho.
    destruct (In_dec Nat.eq_dec k (map (seat n ms) (seq 0 (length D')))) as [K|K].
    + right. apply in_map_iff in K. destruct K as (t & <- & Ht). apply in_seq in Ht.
      assert (IC : In (nth t D' (0, 0)%Z) D') by (apply nth_In; lia).
      exists (nth t D' (0, 0)%Z). split; [now apply ID|]. apply BN. lia.
    + left. assert (KN : (k < n)%nat).
      { destruct (Nat.lt_ge_cases k n) as [|L]; [assumption|]. exfalso. apply K. apply in_map_iff.
        exists (length (ipreuse n ms) + (k - n))%nat. split; [|apply in_seq; lia].
        unfold seat. destruct (Nat.ltb_spec (length (ipreuse n ms) + (k - n)) (length (ipreuse n ms))); lia. }
      split; [exact KN|]. apply (j_old _ _ _ _ _ J). intros t Ht ->. apply K. apply in_map_iff. exists t. split; [reflexivity|]. apply in_seq. lia.
Qed.
Print Assumptions C100_reseeding.

(** Above the initial surface, where only sediment has come to lie: without a sediment
    marker nearby the new marker takes a rock phase. *)
Theorem C100_sediment_refuted : forall s n ms D Rz c,
  box_ok (dbox s) -> tidy (dbox s) n ms ->
  NoDup D -> (forall c, In c D <-> fill s n ms c) ->
  NoDup Rz -> (forall k, In k Rz <-> (k < n)%nat /\ ~ active (ms k)) ->
  (forall c, short s n ms c -> exists k, nearby s n ms c k) ->
  (length D <= n)%nat -> (n + (length D - length Rz) <= dmax s)%nat ->
  fill s n ms c -> deposit s c -> (forall k, nearby s n ms c k -> ~ sediment s (ms k)) ->
  exists n' ms' k, seed s n ms = Done (n', ms') /\ (k < n')%nat /\ middle (dbox s) c (ms' k) /\ active (ms' k) /\ ~ sediment s (ms' k).
Proof.
  intros s n ms D Rz c OK T ND HD NR HR HS Buf Cap Fc _ NoS.
  destruct (C100_reseeding s n ms D Rz OK T ND HD NR HR HS Buf Cap) as (n' & ms' & E & _ & _ & _ & _ & NW).
  destruct (NW c Fc) as (k & Hk & _ & M & _ & k0 & N0 & P0 & _).
  exists n', ms', k. split; [exact E|]. split; [exact Hk|]. split; [exact M|].
  assert (A := N0). destruct A as (_ & c' & _ & _ & (A & _)). unfold active. rewrite P0. split; [exact A|].
  unfold sediment. rewrite P0. exact (NoS k0 N0).
Qed.
Print Assumptions C100_sediment_refuted.

(** Nothing short: nothing changes. In particular when fewer than four markers per cell
    are asked for. *)
Theorem C100_nothing_to_do : forall s n ms, box_ok (dbox s) -> tidy (dbox s) n ms ->
  (forall c, ~ fill s n ms c) -> (forall c, short s n ms c -> exists k, nearby s n ms c k) -> seed s n ms = Done (n, ms).
Proof.
  intros s n ms OK T H HS. unfold seed. rewrite (no_misfit s n ms T).
  rewrite (collected s n ms [] OK T (NoDup_nil _)); [|intros c; split; [contradiction|intros K; now apply H in K]|exact HS].
  cbn [length Nat.leb].
  assert (E : filter (wantedb s n ms) (all_cells (dbox s)) = []).
  { destruct (filter _ _) as [|c l] eqn:E; [reflexivity|]. exfalso. apply (H c). apply (fills s n ms OK). rewrite E. now left. }
  rewrite E. cbn [map settle fst snd]. now rewrite Nat.add_0_r.
Qed.
Print Assumptions C100_nothing_to_do.
Theorem C100_few_wanted : forall s n ms, box_ok (dbox s) -> tidy (dbox s) n ms -> (dmin s < 4)%Z -> seed s n ms = Done (n, ms).
Proof.
  intros s n ms OK T M. assert (NS : forall c, ~ short s n ms c) by (intros c (_ & _ & N & _ & L); lia).
  apply C100_nothing_to_do; try assumption.
  - intros c (K & _). now apply NS in K.
  - intros c K. now apply NS in K.
Qed.
Print Assumptions C100_few_wanted.

(** A short cell with no live marker two cells around stops the run, also when it is
    above the surface. *)
Theorem C100_isolated_cell_stops : forall s n ms c, box_ok (dbox s) -> tidy (dbox s) n ms ->
  short s n ms c -> (forall k, ~ nearby s n ms c k) -> forall r, seed s n ms <> Done r.
Proof.
  intros s n ms c OK T HD HS r. unfold seed. rewrite (no_misfit s n ms T), (fine_all s).
  assert (GC : in_grid (dbox s) c) by now destruct HD.
  assert (AL : flat_map (ipcell s n ms) (around (efx (dbox s)) (kd s c)) = []).
  { destruct (flat_map _ _) as [|k l] eqn:E; [reflexivity|]. exfalso. apply (HS k). apply near_In; try assumption. rewrite E. now left. }
  assert (K : forall cs news, In c cs -> (forall c', In c' cs -> in_grid (dbox s) c') ->
    forall l, collect s n ms (map shift cs) news <> Done l).
  { induction cs as [|c' cs IH]; intros news Hin HG l; [contradiction|destruct Hin as [->|Hc]]; cbn [map collect].
    - rewrite cell_step by assumption. apply shortb_spec in HD; try assumption. rewrite HD, AL. discriminate.
    - destruct (collect_cell _ _ _ _ _); try discriminate. apply IH; [exact Hc|]. intros; apply HG; now right. }
  destruct (collect _ _ _ _ _) as [l| |] eqn:E; try discriminate. exfalso. revert E. apply K; [now apply all_cells_In|].
  intros c' H. now apply all_cells_In in H.
Qed.
Print Assumptions C100_isolated_cell_stops.

(** The list of new markers is as long as the number of markers. If more are needed the
    run writes past its end. *)
Theorem C100_new_list_refuted : forall s n ms D,
  box_ok (dbox s) -> tidy (dbox s) n ms -> NoDup D -> (forall c, In c D <-> fill s n ms c) ->
  (forall c, short s n ms c -> exists k, nearby s n ms c k) -> (n < length D)%nat -> seed s n ms = UB.
Proof.
  intros s n ms D OK T ND HD HS L. unfold seed. rewrite (no_misfit s n ms T), (collected s n ms D OK T ND HD HS).
  destruct (Nat.leb_spec (length D) n); [lia|reflexivity].
Qed.
Print Assumptions C100_new_list_refuted.

(** The test against the size of the marker arrays never stops the run in time: the
    marker just past the end is written first. *)
Theorem C100_capacity_refuted : forall s n ms D Rz,
  box_ok (dbox s) -> tidy (dbox s) n ms -> NoDup D -> (forall c, In c D <-> fill s n ms c) ->
  NoDup Rz -> (forall k, In k Rz <-> (k < n)%nat /\ ~ active (ms k)) ->
  (forall c, short s n ms c -> exists k, nearby s n ms c k) -> (n <= dmax s)%nat ->
  (dmax s < n + (length D - length Rz))%nat -> seed s n ms = UB.
Proof.
  intros s n ms D Rz OK T ND HD NR HR HS Nm Cap. unfold seed. rewrite (no_misfit s n ms T), (collected s n ms D OK T ND HD HS).
  destruct (Nat.leb_spec (length D) n); [|reflexivity].
  assert (LR := lens n ms Rz NR HR). assert (LD := lend s n ms D OK ND HD).
  assert (E := settle_over s n ms OK T (filter (wantedb s n ms) (all_cells (dbox s))) [] ms (inv_start s n ms)).
  change (length (@nil (Z * Z))) with 0%nat in E. change (0 - length (ipreuse n ms))%nat with 0%nat in E. rewrite E; [reflexivity| | | | |].
  - intros c Hc. now apply (fill_grid s n ms OK).
  - intros c Hc. now apply (fill_near s n ms OK T HS).
  - intros; lia.
  - exact Nm.
  - exists (length D - 1)%nat. split; [lia|]. unfold seat. destruct (Nat.ltb_spec (length D - 1) (length (ipreuse n ms))); lia.
Qed.
Print Assumptions C100_capacity_refuted.

(** Markers across a periodic side are never found: the periodic copies of the cells
    outside the box hold no marker, and the result is that of a closed box. *)
Theorem C100_periodic_neighbours_refuted : forall s n ms v, box_ok (dbox s) -> tidy (dbox s) n ms ->
  seed (Seeding (dbox s) (dflag s) (dfree s) (dta s) (dtb s) (dia s) (dib s) (dproc s) (dised1 s) (dised2 s) (dmin s) v (ddirect s) (dgrid s) (dmax s)) n ms =
  seed s n ms.
Proof.
  intros s n ms v OK T. set (s' := Seeding _ _ _ _ _ _ _ _ _ _ _ v _ _ _).
  unfold seed. destruct (misfit n ms); [reflexivity|]. change (dbox s') with (dbox s).
  assert (IP : forall kc, ipcell s' n ms kc = ipcell s n ms kc).
  { intros kc. rewrite (ipcell_eq s' n ms OK T), (ipcell_eq s n ms OK T). reflexivity. }
  assert (MP : forall kc, mpc s' n ms kc = mpc s n ms kc).
  { intros kc. rewrite (mpc_eq s' n ms OK T), (mpc_eq s n ms OK T). now rewrite IP. }
  assert (CC : forall news c, collect_cell s' n ms news c = collect_cell s n ms news c).
  { intros news c. unfold collect_cell. change (dbox s') with (dbox s). change (dflag s') with (dflag s). change (dmin s') with (dmin s).
    cbv zeta. destruct (negb _); [|reflexivity]. rewrite MP. destruct (_ <? _)%Z; [|reflexivity].
    assert (FE : forall ks a, fold_left (fun a kc => a + mpc s' n ms kc)%nat ks a = fold_left (fun a kc => a + mpc s n ms kc)%nat ks a).
    { induction ks as [|k ks IH]; intros a; [reflexivity|]. cbn [fold_left]. now rewrite MP, IH. }
    rewrite FE, (flat_map_ext _ _ IP). reflexivity. }
  assert (CS : forall cs news, collect s' n ms cs news = collect s n ms cs news).
  { induction cs as [|c cs IH]; intros news; cbn [collect]; [reflexivity|]. rewrite CC. destruct (collect_cell s n ms news c); try reflexivity. apply IH. }
  rewrite CS. destruct (collect s n ms _ _) as [news| |]; try reflexivity.
  assert (SE : forall news r ip nb a, settle s' n r ip nb news a = settle s n r ip nb news a).
  { induction news0 as [|t news0 IH]; intros r ip nb a; cbn [settle]; [reflexivity|].
    change (dmax s') with (dmax s). change (ddirect s') with (ddirect s). change (dgrid s') with (dgrid s).
    destruct (dmax s <? _)%nat; [reflexivity|]. destruct (_ =? dmax s)%nat; [reflexivity|]. cbv zeta. apply IH. }
  now rewrite SE.
Qed.
Print Assumptions C100_periodic_neighbours_refuted.

(** ** Cases: one mesh cell with its four quarters (the markers of C75). The initial
    surface lies at 1.2, the present one at 1.8, the upper quarter centres at 1.5. *)
Definition ex_seed (ised : Z) (most : nat) : seeding :=
  Seeding ex_box (fun _ => (-1)%Z) true (fun _ => 0) (fun _ => 18 / 10) (fun _ => 0) (fun _ => 12 / 10) 1 ised 9 8 true true (fun _ _ => 0) most.

Lemma ex_ok : box_ok ex_box.
Proof. split; [|split; [|split]]; cbn; lia || lra. Qed.
Lemma ex_tidy : forall n, tidy ex_box n ex_ms.
Proof.
  intros n k _ A. destruct k as [|[|[|[|k]]]]; cbn [ex_ms qph qx qz]; try (split; [lia|]; cbn [ex_box bx0 bx1 bz0 bz1]; lra).
  exfalso. apply A. reflexivity.
Qed.
Lemma ex_mid : forall i m c, in_grid ex_box c -> snd c = 1%Z -> buried (ex_seed i m) c /\ deposit (ex_seed i m) c.
Proof.
  intros i m c Hc E. assert (Q : forall p, middle ex_box c p -> qz p = 15 / 10).
  { intros p (_ & M). rewrite M, E. cbn [ex_box bz0 bz1 bNz]. change (IZR (2 - 1)) with 1. lra. }
  split; [|split; [reflexivity|]]; intros p M; rewrite (Q p M); unfold surface, surface0; cbn [ex_seed dfree dta dtb dia dib]; lra.
Qed.
Lemma ex_fill : forall i m c, fill (ex_seed i m) 5 ex_ms c <-> In c [(0, 1); (1, 1)]%Z.
Proof.
  intros i m c. unfold fill, short. cbn [dbox ex_seed dmin]. split.
  - intros ((Hc & _ & N & P & L) & _). apply ex_population in P; [|exact Hc].
    destruct (ex_cells c Hc) as [->|[->|[->| ->]]]; cbn [snd Z.eqb] in P; subst N; try lia; cbn; tauto.
  - intros H. assert (Hc : in_grid ex_box c) by (destruct H as [<-|[<-|[]]]; split; cbn; lia).
    assert (E : snd c = 1%Z) by (destruct H as [<-|[<-|[]]]; reflexivity).
    split; [|now apply ex_mid]. split; [exact Hc|]. split; [intros K; discriminate|]. exists 0%nat. split; [|lia].
    apply ex_population; [exact Hc|]. now rewrite E.
Qed.
Lemma ex_near : forall i m c n, in_grid ex_box c -> (0 < n)%nat -> nearby (ex_seed i m) n ex_ms c 0.
Proof.
  intros i m c n Hc Hn. split; [exact Hn|]. exists (0, 0)%Z. cbn [dbox ex_seed].
  assert (G : in_grid ex_box (0, 0)%Z) by (split; cbn; lia). split; [exact G|].
  split; [destruct (ex_cells c Hc) as [->|[->|[->| ->]]]; split; cbn; lia|].
  apply ex_holds; [exact G|]. left. split; [reflexivity|now left].
Qed.
Lemma ex_free : forall k, In k [4%nat] <-> (k < 5)%nat /\ ~ active (ex_ms k).
Proof.
  intros k. split.
  - intros [<-|[]]. split; [lia|]. intros A. now apply A.
  - intros (K & A). destruct k as [|[|[|[|k]]]]; try (exfalso; apply A; cbn; discriminate). left. lia.
Qed.
Lemma ex_D : NoDup [(0, 1); (1, 1)]%Z.
Proof. repeat (constructor; [cbn; intuition congruence|]). constructor. Qed.
Lemma ex_R : NoDup [4%nat].
Proof. constructor; [easy|constructor]. Qed.

(** Phase 6 is a sediment: both new markers take it, although rock of phase 4 or 5 is as close. *)
Example C100_ex : exists ms', seed (ex_seed 6 10) 5 ex_ms = Done (6%nat, ms') /\
  population ex_box 6 ms' (0, 1)%Z 1 /\ population ex_box 6 ms' (1, 1)%Z 1 /\ population ex_box 6 ms' (0, 0)%Z 2 /\
  qph (ms' 4%nat) = 6%Z /\ qph (ms' 5%nat) = 6%Z /\ ms' 1%nat = ex_ms 1.
Proof.
  destruct (C100_reseeding (ex_seed 6 10) 5 ex_ms [(0, 1); (1, 1)]%Z [4%nat] ex_ok (ex_tidy 5) ex_D) as (n' & ms' & E & NB & OL & PO & NW & FI).
  - intros c. now rewrite ex_fill.
  - exact ex_R.
  - exact ex_free.
  - intros c (Hc & _). exists 0%nat. apply ex_near; [exact Hc|lia].
  - cbn. lia.
  - cbn. lia.
  - cbn [length] in NB. replace (5 + (2 - 1))%nat with 6%nat in NB by lia. subst n'. exists ms'. split; [exact E|].
    assert (Q : forall c, in_grid ex_box c -> population ex_box 6 ms' c (if (snd c =? 0)%Z then 2%nat else 1%nat)).
    { intros c Hc. destruct (PO c _ Hc (proj2 (ex_population c _ Hc) eq_refl)) as [(P & N)|(P & D)].
      - destruct (ex_cells c Hc) as [->|[->|[->| ->]]]; cbn [snd Z.eqb] in *; try exact P; exfalso; apply N; apply ex_fill; cbn; tauto.
      - apply ex_fill in D. destruct D as [<-|[<-|[]]]; exact P. }
    split; [apply (Q (0, 1)%Z); split; cbn; lia|]. split; [apply (Q (1, 1)%Z); split; cbn; lia|]. split; [apply (Q (0, 0)%Z); split; cbn; lia|].
    assert (PH : forall c p, fill (ex_seed 6 10) 5 ex_ms c -> newborn (ex_seed 6 10) 5 ex_ms c p -> qph p = 6%Z).
    { intros c p Fc (M & _ & k & Nk & P & _ & _ & _ & SD). assert (Fc' := Fc). destruct Fc' as ((Hc & _) & _). cbn [dbox ex_seed] in Hc, M.
      apply ex_fill in Fc. assert (E1 : snd c = 1%Z) by (destruct Fc as [<-|[<-|[]]]; reflexivity).
      destruct (ex_mid 6 10 c Hc E1) as (_ & DP).
      destruct SD as (SK & _); [exact DP| |].
      - exists 2%nat. split.
        + split; [lia|]. exists (1, 0)%Z. assert (G : in_grid ex_box (1, 0)%Z) by (split; cbn; lia). split; [exact G|].
          split; [destruct Fc as [<-|[<-|[]]]; split; cbn; lia|]. apply ex_holds; [exact G|]. right. split; [reflexivity|now left].
        + split; [now left|]. destruct M as (M1 & M2). unfold dist2, width2. rewrite M1, M2. cbn [ex_seed dbox ex_box bx0 bx1 bz0 bz1 bNx bNz ex_ms qx qz].
          change (IZR (2 - 1)) with 1. destruct Fc as [<-|[<-|[]]]; cbn [fst snd]; lra.
      - rewrite P. destruct SK as [SK|SK]; cbn [ex_seed dised1 dised2] in SK; [exact SK|]. exfalso.
        destruct k as [|[|[|[|k]]]]; cbn in SK; discriminate. }
    split; [|split].
    + destruct (NW 4%nat) as [(_ & K)|(c & Fc & Nc)]; [lia|intros (_ & A); now apply A| |now apply (PH c)].
      exfalso. destruct (FI (0, 1)%Z) as (k1 & K1 & X1 & N1); [apply ex_fill; cbn; tauto|].
      destruct (FI (1, 1)%Z) as (k2 & K2 & X2 & N2); [apply ex_fill; cbn; tauto|].
      assert (ST : forall k, (k < 6)%nat -> ~ (k < 5 /\ active (ex_ms k))%nat -> k = 4%nat \/ k = 5%nat).
      { intros k L X. destruct k as [|[|[|[|k]]]]; try (exfalso; apply X; split; [lia|cbn; discriminate]). lia. }
      assert (D4 : ms' 4%nat = Part 0 0 (-1) 0 0 0) by exact K.
      destruct N1 as ((A1 & _) & _). destruct N2 as ((A2 & _) & _). cbn [ex_seed dbox ex_box bx0 bx1 bNx fst] in A1, A2. change (IZR (2 - 1)) with 1 in A1, A2.
      destruct (ST k1 K1 X1) as [-> | ->]; destruct (ST k2 K2 X2) as [-> | ->]; try (rewrite D4 in A1; cbn [qx] in A1; lra); try (rewrite D4 in A2; cbn [qx] in A2; lra).
      rewrite A1 in A2. lra.
    + destruct (NW 5%nat) as [(K & _)|(c & Fc & Nc)]; [lia|lia|lia|now apply (PH c)].
    + apply OL; [lia|]. cbn. discriminate.
Qed.

Example C100_sediment_ex : exists n' ms' k, seed (ex_seed 8 10) 5 ex_ms = Done (n', ms') /\ (k < n')%nat /\
  middle ex_box (0, 1)%Z (ms' k) /\ active (ms' k) /\ ~ sediment (ex_seed 8 10) (ms' k).
Proof.
  apply (C100_sediment_refuted (ex_seed 8 10) 5 ex_ms [(0, 1); (1, 1)]%Z [4%nat] (0, 1)%Z ex_ok (ex_tidy 5) ex_D).
  - intros c. now rewrite ex_fill.
  - exact ex_R.
  - exact ex_free.
  - intros c (Hc & _). exists 0%nat. apply ex_near; [exact Hc|lia].
  - cbn. lia.
  - cbn. lia.
  - apply ex_fill. cbn. tauto.
  - apply ex_mid; [split; cbn; lia|reflexivity].
  - intros k (Hk & c' & _ & _ & (A & _)) K. destruct K as [K|K]; destruct k as [|[|[|[|k]]]]; cbn in K; discriminate.
Qed.

(** Room for five markers, six needed. *)
Example C100_capacity_ex : seed (ex_seed 6 5) 5 ex_ms = UB.
Proof.
  apply (C100_capacity_refuted (ex_seed 6 5) 5 ex_ms [(0, 1); (1, 1)]%Z [4%nat] ex_ok (ex_tidy 5) ex_D).
  - intros c. now rewrite ex_fill.
  - exact ex_R.
  - exact ex_free.
  - intros c (Hc & _). exists 0%nat. apply ex_near; [exact Hc|lia].
  - cbn. lia.
  - cbn. lia.
Qed.

(** Only the first marker: all four quarters are short, one place on the list. *)
Example C100_new_list_ex : seed (ex_seed 6 100) 1 ex_ms = UB.
Proof.
  assert (P : forall c, in_grid ex_box c -> exists N, population ex_box 1 ex_ms c N /\ (N <= 1)%nat).
  { intros c Hc. exists (length (members ex_box 1 ex_ms (flat ex_box c))). split; [now apply population_members; [exact ex_ok| |]|].
    unfold members. cbn [seq filter]. destruct (_ && _); cbn; lia. }
  assert (B0 : forall c, in_grid ex_box c -> buried (ex_seed 6 100) c).
  { intros c Hc p (_ & M). rewrite M. unfold surface. cbn [ex_seed dbox dfree dta dtb ex_box bz0 bz1 bNz]. change (IZR (2 - 1)) with 1.
    destruct (ex_cells c Hc) as [->|[->|[->| ->]]]; cbn [snd]; lra. }
  apply (C100_new_list_refuted (ex_seed 6 100) 1 ex_ms [(0, 0); (0, 1); (1, 0); (1, 1)]%Z ex_ok (ex_tidy 1)).
  - repeat (constructor; [cbn; intuition congruence|]). constructor.
  - intros c. unfold fill, short. cbn [dbox ex_seed dmin]. split.
    + intros H. assert (Hc : in_grid ex_box c) by (destruct H as [<-|[<-|[<-|[<-|[]]]]]; split; cbn; lia).
      split; [|now apply B0]. split; [exact Hc|]. split; [intros K; discriminate|]. destruct (P c Hc) as (N & PN & L). exists N. split; [exact PN|lia].
    + intros ((Hc & _) & _). destruct (ex_cells c Hc) as [->|[->|[->| ->]]]; cbn; tauto.
  - intros c (Hc & _). exists 0%nat. apply ex_near; [exact Hc|lia].
  - cbn. lia.
Qed.

(** No live marker at all. *)
Example C100_isolated_ex : forall r, seed (ex_seed 6 10) 3 (fun _ => Part 0 0 (-1) 0 0 0) <> Done r.
Proof.
  assert (D0 : ~ active (Part 0 0 (-1) 0 0 0)) by (intros A; now apply A).
  apply (C100_isolated_cell_stops (ex_seed 6 10) 3 _ (0, 0)%Z ex_ok).
  - intros k _ A. now apply D0 in A.
  - assert (G : in_grid ex_box (0, 0)%Z) by (split; cbn; lia). split; [exact G|]. split; [intros K; discriminate|]. exists 0%nat. split; [|cbn; lia].
    exists []. split; [constructor|]. split; [|reflexivity]. intros k. split; [contradiction|]. intros (_ & (A & _)). now apply D0 in A.
  - intros k (_ & c' & _ & _ & (A & _)). now apply D0 in A.
Qed.

(** Fewer than four markers wanted. *)
Example C100_few_ex : seed (Seeding ex_box (fun _ => (-1)%Z) true (fun _ => 0) (fun _ => 18 / 10) (fun _ => 0) (fun _ => 12 / 10) 1 8 9 3 true true (fun _ _ => 0) 10) 5 ex_ms = Done (5%nat, ex_ms).
Proof. apply C100_few_wanted; [exact ex_ok|exact (ex_tidy 5)|reflexivity]. Qed.

(** The case of [C100_ex] is a periodic one; closed it gives the same. *)
Example C100_periodic_ex : dper (ex_seed 6 10) = true /\
  seed (Seeding ex_box (fun _ => (-1)%Z) true (fun _ => 0) (fun _ => 18 / 10) (fun _ => 0) (fun _ => 12 / 10) 1 6 9 8 false true (fun _ _ => 0) 10) 5 ex_ms = seed (ex_seed 6 10) 5 ex_ms.
Proof. split; [reflexivity|]. exact (C100_periodic_neighbours_refuted (ex_seed 6 10) 5 ex_ms false ex_ok (ex_tidy 5)). Qed.
