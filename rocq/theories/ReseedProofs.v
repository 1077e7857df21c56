(** * Specification and lemmas for C75 *)
From Coq Require Import ZArith Reals List Bool Lia Lra Psatz Permutation Arith.
Import ListNotations.
From Verif Require Import P2GModel P2GProofs AdvModel AdvProofs ReseedModel.
Local Open Scope R_scope.

(** ** Specification *)
Definition box_ok (b : box) : Prop := (2 <= bNx b)%Z /\ (2 <= bNz b)%Z /\ bx0 b < bx1 b /\ bz0 b < bz1 b.
Definition active (p : part) : Prop := qph p <> (-1)%Z.
(** Cells of half the mesh spacing; a side belongs to the cell before it, what lies
    outside the box to the nearest cell. *)
Definition in_grid (b : box) (c : Z * Z) : Prop := (0 <= fst c < 2 * (bNx b - 1))%Z /\ (0 <= snd c < 2 * (bNz b - 1))%Z.
Definition on_axis (lo d : R) (n i : Z) (x : R) : Prop :=
  (lo + IZR i * d < x \/ i = 0%Z) /\ (x <= lo + (IZR i + 1) * d \/ i = (n - 1)%Z).
Definition holds (b : box) (c : Z * Z) (p : part) : Prop :=
  active p /\ on_axis (bx0 b) ((bx1 b - bx0 b) / IZR (bNx b - 1) / 2) (2 * (bNx b - 1)) (fst c) (qx p) /\
  on_axis (bz0 b) ((bz1 b - bz0 b) / IZR (bNz b - 1) / 2) (2 * (bNz b - 1)) (snd c) (qz p).
(** [N] of the [n] markers lie in the cell. *)
Definition population (b : box) (n : nat) (ms : nat -> part) (c : Z * Z) (N : nat) : Prop :=
  exists l, NoDup l /\ (forall k, In k l <-> (k < n)%nat /\ holds b c (ms k)) /\ length l = N.
(** The mesh cell containing the small cell is rock (not air, tag 30). *)
Definition rock_cell (b : box) (flag : Z -> Z) (c : Z * Z) : Prop :=
  flag (fst c / 2 + snd c / 2 * (bNx b - 1))%Z <> 30%Z.
(** Small cells at most two columns and two lines apart. *)
Definition within2 (c c' : Z * Z) : Prop := (Z.abs (fst c - fst c') <= 2)%Z /\ (Z.abs (snd c - snd c') <= 2)%Z.
Definition middle (b : box) (c : Z * Z) (p : part) : Prop :=
  qx p = bx0 b + (IZR (fst c) + 1 / 2) * ((bx1 b - bx0 b) / IZR (bNx b - 1) / 2) /\
  qz p = bz0 b + (IZR (snd c) + 1 / 2) * ((bz1 b - bz0 b) / IZR (bNz b - 1) / 2).
Definition dist2 (p q : part) : R := (qx p - qx q) * (qx p - qx q) + (qz p - qz q) * (qz p - qz q).

(** ** Cells *)
Lemma nearest_axis : forall lo d n i x, 0 < d -> (0 < n)%Z ->
  nearest x (lo + d / 2) d n = i <-> (0 <= i < n)%Z /\ on_axis lo d n i x.
Proof.
  intros lo d n i x Hd Hn.
  assert (P : (0 <= nearest x (lo + d / 2) d n < n)%Z /\ on_axis lo d n (nearest x (lo + d / 2) d n) x).
  { split; [now apply nearest_range|]. unfold nearest.
    replace ((x - (lo + d / 2)) / d + / 2) with ((x - lo) / d) by (field; lra).
    destruct (Zceil_spec ((x - lo) / d)) as (C1 & C2). set (t := (x - lo) / d) in *.
    assert (E : x = lo + t * d) by (unfold t; field; lra).
    set (k := (Zceil t - 1)%Z). assert (K : IZR k < t <= IZR k + 1) by (unfold k; rewrite minus_IZR; lra). clearbody k t.
    unfold on_axis. destruct (Z.ltb_spec k 0).
    - destruct (Z.ltb_spec (n - 1) 0); [lia|]. split; [now right|]. left. assert (IZR k <= -1) by (apply IZR_le; lia). nra.
    - destruct (Z.ltb_spec (n - 1) k).
      + split; [|now right]. left. assert (IZR n <= IZR k) by (apply IZR_le; lia). rewrite minus_IZR. nra.
      + split; left; nra. }
  split; [intros <-; exact P|]. intros (I & (A & B)).
  set (k := nearest x (lo + d / 2) d n) in *. clearbody k. destruct P as (K & (A' & B')).
  destruct (Z.lt_trichotomy k i) as [L|[L|L]]; [exfalso|exact L|exfalso].
  - destruct A as [A|A]; [|lia]. destruct B' as [B'|B']; [|lia].
    assert (IZR k + 1 <= IZR i) by (rewrite <- plus_IZR; apply IZR_le; lia). nra.
  - destruct A' as [A'|A']; [|lia]. destruct B as [B|B]; [|lia].
    assert (IZR i + 1 <= IZR k) by (rewrite <- plus_IZR; apply IZR_le; lia). nra.
Qed.

Section B.
Variable b : box.
Hypothesis OK : box_ok b.

Lemma steps : 0 < bdx b /\ 0 < bdz b /\ 0 < fdx b /\ 0 < fdz b /\ (0 < ncx b)%Z /\ (0 < ncz b)%Z /\
  bx0 b + IZR (ncx b) * fdx b = bx1 b /\ bz0 b + IZR (ncz b) * fdz b = bz1 b.
Proof.
  destruct OK as (X & Zz & HX & HZ). unfold fdx, fdz, bdx, bdz, ncx, ncz.
  assert (A : 0 < IZR (bNx b - 1)) by (apply IZR_lt; lia). assert (B : 0 < IZR (bNz b - 1)) by (apply IZR_lt; lia).
  assert (D1 : 0 < (bx1 b - bx0 b) / IZR (bNx b - 1)) by (apply Rdiv_lt_0_compat; lra).
  assert (D2 : 0 < (bz1 b - bz0 b) / IZR (bNz b - 1)) by (apply Rdiv_lt_0_compat; lra).
  repeat (split; [lra || lia|]).
  split.
  - replace (2 * bNx b - 2)%Z with (2 * (bNx b - 1))%Z by lia. rewrite mult_IZR. field. lra.
  - replace (2 * bNz b - 2)%Z with (2 * (bNz b - 1))%Z by lia. rewrite mult_IZR. field. lra.
Qed.

Definition flat (c : Z * Z) : Z := (fst c + snd c * ncx b)%Z.
Lemma in_grid_nc : forall c, in_grid b c <-> (0 <= fst c < ncx b)%Z /\ (0 <= snd c < ncz b)%Z.
Proof.
  intros c. unfold in_grid, ncx, ncz.
  replace (2 * bNx b - 2)%Z with (2 * (bNx b - 1))%Z by lia. replace (2 * bNz b - 2)%Z with (2 * (bNz b - 1))%Z by lia. reflexivity.
Qed.
Lemma flat_inj : forall c c', in_grid b c -> in_grid b c' -> flat c = flat c' -> c = c'.
Proof.
  intros (i & j) (i' & j') H H' E. apply in_grid_nc in H, H'. cbn in *. unfold flat in E. cbn in E.
  assert (j = j') by nia. subst. f_equal. lia.
Qed.

Definition here (c : Z * Z) (p : part) : bool := activeb p && (cell b p =? flat c)%Z.

Lemma activeb_spec : forall p, activeb p = true <-> active p.
Proof. intros p. unfold activeb, active. destruct (Z.eqb_spec (qph p) (-1)); cbn; split; intros; congruence || tauto. Qed.

Lemma cell_grid : forall p, exists c, in_grid b c /\ cell b p = flat c.
Proof.
  intros p. destruct steps as (_ & _ & _ & _ & X & Zz & _).
  exists (cell_x b p, cell_z b p). split; [|reflexivity]. apply in_grid_nc. cbn. split; apply nearest_range; assumption.
Qed.

Lemma here_holds : forall c p, in_grid b c -> here c p = true <-> holds b c p.
Proof.
  intros c p Hc. unfold here, holds. rewrite andb_true_iff, activeb_spec, Z.eqb_eq.
  destruct steps as (_ & _ & DX & DZ & X & Zz & _).
  assert (EX : cell_x b p = fst c <-> on_axis (bx0 b) ((bx1 b - bx0 b) / IZR (bNx b - 1) / 2) (2 * (bNx b - 1)) (fst c) (qx p)).
  { unfold cell_x. rewrite nearest_axis by assumption. unfold fdx, bdx. apply in_grid_nc in Hc.
    replace (2 * (bNx b - 1))%Z with (ncx b) by (unfold ncx; lia). tauto. }
  assert (EZ : cell_z b p = snd c <-> on_axis (bz0 b) ((bz1 b - bz0 b) / IZR (bNz b - 1) / 2) (2 * (bNz b - 1)) (snd c) (qz p)).
  { unfold cell_z. rewrite nearest_axis by assumption. unfold fdz, bdz. apply in_grid_nc in Hc.
    replace (2 * (bNz b - 1))%Z with (ncz b) by (unfold ncz; lia). tauto. }
  rewrite <- EX, <- EZ. split; intros (A & B); (split; [exact A|]).
  - assert (K : (cell_x b p, cell_z b p) = c).
    { apply flat_inj; [|exact Hc|exact B]. apply in_grid_nc. cbn. split; apply nearest_range; assumption. }
    rewrite <- K. split; reflexivity.
  - destruct B as (B1 & B2). unfold cell, flat. now rewrite B1, B2.
Qed.

(** *** Counts *)
Definition members (n : nat) (ms : nat -> part) (kc : Z) : list nat :=
  filter (fun k => activeb (ms k) && (cell b (ms k) =? kc)%Z) (seq 0 n).

Lemma count_fold : forall ms ks c0 r0 kc,
  fst (fold_left (count_step b ms) ks (c0, r0)) kc =
    (c0 kc + length (filter (fun k => activeb (ms k) && (cell b (ms k) =? kc)%Z) ks))%nat /\
  snd (fold_left (count_step b ms) ks (c0, r0)) = r0 ++ filter (fun k => negb (activeb (ms k))) ks.
Proof.
  intros ms ks. induction ks as [|k ks IH]; intros c0 r0 kc; cbn [fold_left filter].
  - cbn. rewrite app_nil_r. split; [lia|reflexivity].
  - unfold count_step at 2 4. cbn [fst snd]. destruct (activeb (ms k)); cbn [negb andb].
    + destruct (IH (zupd c0 (cell b (ms k)) (S (c0 (cell b (ms k))))) r0 kc) as (A & B). rewrite A, B. split; [|reflexivity].
      unfold zupd. rewrite (Z.eqb_sym kc). destruct (Z.eqb_spec (cell b (ms k)) kc) as [->|]; cbn [length]; lia.
    + destruct (IH c0 (r0 ++ [k]) kc) as (A & B). rewrite A, B. split; [lia|]. now rewrite <- app_assoc.
Qed.
Lemma store_fold : forall ms ks s0 kc,
  fold_left (store_step b ms) ks s0 kc = s0 kc ++ filter (fun k => activeb (ms k) && (cell b (ms k) =? kc)%Z) ks.
Proof.
  intros ms ks. induction ks as [|k ks IH]; intros s0 kc; cbn [fold_left filter].
  - now rewrite app_nil_r.
  - rewrite IH. unfold store_step. destruct (activeb (ms k)); cbn [andb]; [|reflexivity].
    unfold zupd. rewrite (Z.eqb_sym kc). destruct (Z.eqb_spec (cell b (ms k)) kc) as [->|]; [|reflexivity]. now rewrite <- app_assoc.
Qed.
Lemma counts : forall n ms kc, fst (count_parts b n ms) kc = length (members n ms kc).
Proof. intros. unfold count_parts. now destruct (count_fold ms (seq 0 n) (fun _ => 0%nat) [] kc) as (-> & _). Qed.
Lemma reuses : forall n ms, snd (count_parts b n ms) = filter (fun k => negb (activeb (ms k))) (seq 0 n).
Proof. intros. unfold count_parts. now destruct (count_fold ms (seq 0 n) (fun _ => 0%nat) [] 0%Z) as (_ & ->). Qed.
Lemma stored : forall n ms kc, store_parts b n ms kc = members n ms kc.
Proof. intros. unfold store_parts. now rewrite store_fold. Qed.

Lemma member_iff : forall n ms c k, in_grid b c -> In k (members n ms (flat c)) <-> (k < n)%nat /\ holds b c (ms k).
Proof.
  intros n ms c k Hc. unfold members. rewrite filter_In, in_seq. fold (here c (ms k)). rewrite here_holds by exact Hc.
  split; intros (A & B); split; try exact B; lia.
Qed.

Lemma population_members : forall n ms c N, in_grid b c -> population b n ms c N <-> length (members n ms (flat c)) = N.
Proof.
  intros n ms c N Hc. unfold population. split.
  - intros (l & ND & HL & <-). apply Nat.le_antisymm; apply NoDup_incl_length;
      try (apply NoDup_filter, seq_NoDup); try exact ND; intros k Hk.
    + apply HL. now apply member_iff.
    + apply member_iff; [exact Hc|]. now apply HL.
  - intros E. exists (members n ms (flat c)). split; [apply NoDup_filter, seq_NoDup|]. split; [|exact E].
    intros k. now apply member_iff.
Qed.

Lemma members_ext : forall n ms ms' kc, (forall k, (k < n)%nat -> ms k = ms' k) -> members n ms kc = members n ms' kc.
Proof.
  intros. unfold members. apply filter_ext_in. intros k Hk. apply in_seq in Hk. rewrite H by lia. reflexivity.
Qed.

Lemma members_S : forall n ms kc, members (S n) ms kc = members n ms kc ++ (if activeb (ms n) && (cell b (ms n) =? kc)%Z then [n] else []).
Proof. intros. unfold members. rewrite seq_S, filter_app. reflexivity. Qed.

Lemma count_new : forall n ms p kc, activeb p = true ->
  length (members (S n) (nupd ms n p) kc) = (length (members n ms kc) + if (cell b p =? kc)%Z then 1 else 0)%nat.
Proof.
  intros n ms p kc Hp. rewrite members_S, app_length. f_equal.
  - f_equal. apply members_ext. intros k Hk. unfold nupd. destruct (Nat.eqb_spec k n); [lia|reflexivity].
  - unfold nupd. rewrite Nat.eqb_refl, Hp. cbn. now destruct (_ =? _)%Z.
Qed.
Lemma count_recycled : forall n ms p s kc, (s < n)%nat -> activeb (ms s) = false -> activeb p = true ->
  length (members n (nupd ms s p) kc) = (length (members n ms kc) + if (cell b p =? kc)%Z then 1 else 0)%nat.
Proof.
  intros n ms p s kc Hs H0 Hp. induction n as [|n IH]; [lia|]. rewrite !members_S, !app_length.
  destruct (Nat.eq_dec s n) as [->|N].
  - unfold nupd at 2 3. rewrite Nat.eqb_refl, Hp, H0. cbn [andb].
    rewrite (members_ext n (nupd ms n p) ms); [destruct (_ =? _)%Z; cbn; lia|].
    intros k Hk. unfold nupd. destruct (Nat.eqb_spec k n); [lia|reflexivity].
  - rewrite IH by lia. unfold nupd at 1 2. destruct (Nat.eqb_spec n s); [lia|]. lia.
Qed.

(** *** The block *)
Lemma zrange_In : forall lo hi i, In i (zrange lo hi) <-> (lo <= i <= hi)%Z.
Proof.
  intros lo hi i. unfold zrange. rewrite in_map_iff. split.
  - intros (t & <- & Ht). apply in_seq in Ht. lia.
  - intros H. exists (Z.to_nat (i - lo)). split; [lia|]. apply in_seq. lia.
Qed.
Lemma zrange_NoDup : forall lo hi, NoDup (zrange lo hi).
Proof. intros. unfold zrange. apply FinFun.Injective_map_NoDup; [intros x y H; lia|apply seq_NoDup]. Qed.

Lemma block_In : forall c kc, in_grid b c ->
  In kc (block b (fst c) (snd c)) <-> exists c', in_grid b c' /\ within2 c c' /\ kc = flat c'.
Proof.
  intros (i & j) kc Hc. cbn [fst snd]. unfold block. rewrite in_flat_map.
  assert (Hc' := proj1 (in_grid_nc _) Hc). cbn [fst snd] in Hc'. destruct Hc' as (I & J).
  assert (L : forall a n k, (0 <= a < n)%Z -> (lo2 a <= k <= hi2 a n)%Z <-> (0 <= k < n)%Z /\ (Z.abs (a - k) <= 2)%Z).
  { intros a n k A. unfold lo2, hi2. cbv zeta. destruct (Z.ltb_spec 0 a); destruct (Z.ltb_spec 1 a);
      destruct (Z.ltb_spec a (n - 1)); destruct (Z.ltb_spec a (n - 2)); lia. }
  split.
  - intros (i' & Hi & Hj). apply zrange_In in Hi. apply in_map_iff in Hj. destruct Hj as (j' & <- & Hj). apply zrange_In in Hj.
    apply (L i (ncx b)) in Hi; [|exact I]. apply (L j (ncz b)) in Hj; [|exact J].
    exists (i', j'). split; [apply in_grid_nc; cbn; tauto|]. split; [split; cbn; tauto|reflexivity].
  - intros ((i' & j') & Hg & (W1 & W2) & ->). apply in_grid_nc in Hg. cbn [fst snd] in *. exists i'. split.
    + apply zrange_In. apply (L i (ncx b)); tauto.
    + apply in_map_iff. exists j'. split; [reflexivity|]. apply zrange_In. apply (L j (ncz b)); tauto.
Qed.

Lemma all_cells_In : forall c, In c (all_cells b) <-> in_grid b c.
Proof.
  intros (i & j). unfold all_cells. rewrite in_prod_iff, !zrange_In, in_grid_nc. cbn. lia.
Qed.
Lemma prod_NoDup : forall (l l' : list Z), NoDup l -> NoDup l' -> NoDup (list_prod l l').
Proof.
  intros l l' H H'. induction H as [|x l Hx H IH]; cbn; [constructor|].
  assert (K : forall m, NoDup m -> NoDup (map (fun y => (x, y)) m ++ list_prod l l')).
  { intros m Hm. induction Hm as [|y m Hy Hm IHm]; cbn; [exact IH|]. constructor; [|exact IHm].
    rewrite in_app_iff, in_map_iff. intros [(y' & E & Y)|Y]; [inversion E; subst; contradiction|]. apply in_prod_iff in Y. tauto. }
  apply K, H'.
Qed.
Lemma all_cells_NoDup : NoDup (all_cells b).
Proof. apply prod_NoDup; apply zrange_NoDup. Qed.

(** *** Flags and centres *)
Lemma fine_flag_spec : forall flag c, in_grid b c ->
  fine_flag b flag (fst c) (snd c) = flag (fst c / 2 + snd c / 2 * (bNx b - 1))%Z.
Proof.
  intros flag (i & j) Hc. cbn [fst snd]. unfold fine_flag. cbv zeta.
  destruct steps as (DX & DZ & _). destruct Hc as (I & J). cbn in I, J.
  assert (K : forall lo d n k, 0 < d -> (0 <= k < 2 * n)%Z -> nearest (lo + d / 2 / 2 + IZR k * (d / 2)) (lo + d / 2) d n = (k / 2)%Z).
  { intros lo d n k Dp Kr. apply nearest_axis; [exact Dp|lia|].
    assert (Q := Z.div_mod k 2 ltac:(lia)). assert (M := Z.mod_pos_bound k 2 ltac:(lia)).
    set (q := (k / 2)%Z) in *. set (r := (k mod 2)%Z) in *. clearbody q r.
    split; [lia|]. assert (EK : IZR k = 2 * IZR q + IZR r) by (rewrite Q, plus_IZR, mult_IZR; reflexivity).
    assert (R : 0 <= IZR r <= 1) by (split; apply IZR_le; lia). split; left; nra. }
  unfold centre_x, centre_z, fdx, fdz.
  rewrite (K (bx0 b) (bdx b) (bNx b - 1)%Z i DX I), (K (bz0 b) (bdz b) (bNz b - 1)%Z j DZ J). reflexivity.
Qed.

Lemma centre_in_box : forall c, in_grid b c ->
  bx0 b <= centre_x b (fst c) <= bx1 b /\ bz0 b <= centre_z b (snd c) <= bz1 b.
Proof.
  intros c Hc. apply in_grid_nc in Hc. destruct Hc as (I & J).
  destruct steps as (_ & _ & DX & DZ & _ & _ & EX & EZ). rewrite <- EX, <- EZ. unfold centre_x, centre_z.
  assert (0 <= IZR (fst c)) by (apply IZR_le; lia). assert (IZR (fst c) + 1 <= IZR (ncx b)) by (rewrite <- plus_IZR; apply IZR_le; lia).
  assert (0 <= IZR (snd c)) by (apply IZR_le; lia). assert (IZR (snd c) + 1 <= IZR (ncz b)) by (rewrite <- plus_IZR; apply IZR_le; lia).
  repeat split; nra.
Qed.

Lemma centre_cell : forall c p, in_grid b c -> qx p = centre_x b (fst c) -> qz p = centre_z b (snd c) -> cell b p = flat c.
Proof.
  intros c p Hc X Y. unfold cell, flat, cell_x, cell_z. apply in_grid_nc in Hc. destruct Hc as (I & J).
  destruct steps as (_ & _ & DX & DZ & NX & NZ & _).
  assert (EX : nearest (qx p) (bx0 b + fdx b / 2) (fdx b) (ncx b) = fst c).
  { apply nearest_axis; try assumption. split; [exact I|]. rewrite X. unfold centre_x. split; left; nra. }
  assert (EZ : nearest (qz p) (bz0 b + fdz b / 2) (fdz b) (ncz b) = snd c).
  { apply nearest_axis; try assumption. split; [exact J|]. rewrite Y. unfold centre_z. split; left; nra. }
  now rewrite EX, EZ.
Qed.

(** *** Neighbours *)
Lemma read_all : forall n ms ks,
  read_cells (Some (fun kc => length (store_parts b n ms kc))) (store_parts b n ms) ks = Some (flat_map (members n ms) ks).
Proof.
  intros n ms ks. induction ks as [|k ks IH]; [reflexivity|]. cbn [read_cells flat_map]. rewrite IH. unfold read_cell.
  rewrite Nat.leb_refl, firstn_all, stored. reflexivity.
Qed.
Lemma sum_lengths : forall n ms ks a,
  fold_left (fun a k => a + fst (count_parts b n ms) k)%nat ks a = (a + length (flat_map (members n ms) ks))%nat.
Proof.
  intros n ms ks. induction ks as [|k ks IH]; intros a; cbn [fold_left flat_map]; [cbn; lia|].
  rewrite IH, counts, app_length. lia.
Qed.

Lemma block_members : forall n ms c k, in_grid b c ->
  In k (flat_map (members n ms) (block b (fst c) (snd c))) <->
  (k < n)%nat /\ exists c', in_grid b c' /\ within2 c c' /\ holds b c' (ms k).
Proof.
  intros n ms c k Hc. rewrite in_flat_map. split.
  - intros (kc & Hk & HM). apply block_In in Hk; [|exact Hc]. destruct Hk as (c' & G & W & ->).
    apply member_iff in HM; [|exact G]. destruct HM. split; [assumption|]. exists c'. tauto.
  - intros (Hk & c' & G & W & H). exists (flat c'). split; [apply block_In; [exact Hc|exists c'; tauto]|]. apply member_iff; tauto.
Qed.
End B.

(** ** Closest neighbour *)
Lemma distance_dist2 : forall p q r, distance p q <= distance p r <-> dist2 p q <= dist2 p r.
Proof.
  intros p q r. unfold distance, dist2.
  replace ((qx p - qx q) ^ 2 + (qz p - qz q) ^ 2) with ((qx p - qx q) * (qx p - qx q) + (qz p - qz q) * (qz p - qz q)) by ring.
  replace ((qx p - qx r) ^ 2 + (qz p - qz r) ^ 2) with ((qx p - qx r) * (qx p - qx r) + (qz p - qz r) * (qz p - qz r)) by ring.
  split; intros H.
  - assert (SQ : forall u v : R, 0 <= u * u + v * v) by (intros u v; pose proof (Rle_0_sqr u); pose proof (Rle_0_sqr v); unfold Rsqr in *; lra).
    apply sqrt_le_0; [apply SQ|apply SQ|exact H].
  - apply sqrt_le_1_alt, H.
Qed.

Lemma closest_fold : forall ms p l d0 k0,
  let r := fold_left (closer ms p) l (d0, k0) in
  fst r <= d0 /\ (forall k, In k l -> fst r <= distance p (ms k)) /\
  (r = (d0, k0) \/ (In (snd r) l /\ fst r = distance p (ms (snd r)) /\ fst r < d0)).
Proof.
  intros ms p l. induction l as [|k l IH]; intros d0 k0; cbn [fold_left].
  - cbn. split; [lra|]. split; [tauto|now left].
  - cbv zeta. assert (EC : closer ms p (d0, k0) k = if Rltb (distance p (ms k)) d0 then (distance p (ms k), k) else (d0, k0)) by reflexivity.
    rewrite !EC. clear EC. destruct (Rltb_spec (distance p (ms k)) d0) as [L|L].
    + destruct (IH (distance p (ms k)) k) as (A & B & C). cbv zeta.
      set (r := fold_left (closer ms p) l (distance p (ms k), k)) in *. split; [lra|]. split.
      * intros k' [->|Hk]; [exact A|auto].
      * right. destruct C as [->|(C1 & C2 & C3)]; [cbn; split; [now left|split; [reflexivity|exact L]]|]. split; [now right|]. split; [exact C2|lra].
    + destruct (IH d0 k0) as (A & B & C). cbv zeta. set (r := fold_left (closer ms p) l (d0, k0)) in *.
      split; [exact A|]. split; [intros k' [->|Hk]; [lra|auto]|].
      destruct C as [C|(C1 & C2)]; [now left|right; split; [now right|exact C2]].
Qed.

Lemma closest_In : forall ms p d0 l, l <> [] -> In (closest ms p d0 l) l.
Proof.
  intros ms p d0 l Hl. unfold closest. destruct (closest_fold ms p l d0 (nth 0 l 0%nat)) as (_ & _ & [E|(H & _)]); [|exact H].
  rewrite E. cbn [snd]. apply nth_In. destruct l; [contradiction|cbn; lia].
Qed.
Lemma closest_min : forall ms p d0 l, (exists k, In k l /\ distance p (ms k) < d0) ->
  forall k, In k l -> dist2 p (ms (closest ms p d0 l)) <= dist2 p (ms k).
Proof.
  intros ms p d0 l (k1 & H1 & L1) k Hk. apply distance_dist2. unfold closest.
  destruct (closest_fold ms p l d0 (nth 0 l 0%nat)) as (_ & B & [E|(_ & E & _)]).
  - exfalso. specialize (B k1 H1). rewrite E in B. cbn in B. lra.
  - rewrite <- E. auto.
Qed.

Lemma closest_ext : forall ms ms' p p' d0 l, qx p = qx p' -> qz p = qz p' -> (forall k, In k l -> ms k = ms' k) ->
  closest ms p d0 l = closest ms' p' d0 l.
Proof.
  intros ms ms' p p' d0 l X Y H. unfold closest. generalize (d0, nth 0 l 0%nat). induction l as [|k l IH]; intros s; [reflexivity|].
  cbn [fold_left]. assert (E : closer ms p s k = closer ms' p' s k).
  { unfold closer, distance. rewrite (H k (or_introl eq_refl)), X, Y. reflexivity. }
  rewrite E. apply IH. intros k' Hk. apply H. now right.
Qed.
