(** * C77: initial marker layout *)
From Coq Require Import ZArith Reals List Bool Lia Lra Psatz Arith.
Import ListNotations.
From Verif Require Import P2GModel AdvModel AdvProofs ReseedModel MarkerModel.
Local Open Scope R_scope.

(** ** Specification *)
Definition layout_ok (l : layout) : Prop :=
  (2 <= lNx l)%nat /\ (2 <= lNz l)%nat /\ (1 <= px_cell l)%nat /\ (1 <= pz_cell l)%nat /\
  xmin (ldom l) < xmax (ldom l) /\ zmin (ldom l) < zmax (ldom l).
(** The box is cut into equal tiles, as many per cell as markers are requested. *)
Definition ncols (l : layout) : nat := ((lNx l - 1) * px_cell l)%nat.
Definition nrows (l : layout) : nat := ((lNz l - 1) * pz_cell l)%nat.
Definition tw (l : layout) : R := (xmax (ldom l) - xmin (ldom l)) / INR (ncols l).
Definition th (l : layout) : R := (zmax (ldom l) - zmin (ldom l)) / INR (nrows l).
Definition mid_x (l : layout) (I : nat) : R := xmin (ldom l) + (INR I + 1 / 2) * tw l.
Definition mid_z (l : layout) (J : nat) : R := zmin (ldom l) + (INR J + 1 / 2) * th l.
(** Inside the tile, at most [c] tile sizes off its middle. *)
Definition in_tile (c : R) (l : layout) (I J : nat) (m : AdvModel.part) : Prop :=
  Rabs (px m - mid_x l I) <= c * tw l /\ Rabs (pz m - mid_z l J) <= c * th l.
(** The middle of the tile lies below the line that represents the surface in its column. *)
Definition below_surface (l : layout) (I J : nat) : Prop :=
  match lsurf l with
  | None => True
  | Some (a, b) => mid_z l J < b (I / px_cell l)%nat + a (I / px_cell l)%nat * mid_x l I
  end.

(** ** Lemmas *)
Lemma list_prod_NoDup : forall A B (l : list A) (l' : list B), NoDup l -> NoDup l' -> NoDup (list_prod l l').
Proof.
  intros A B l l' H H'. induction H as [|x l Hx H IH]; cbn; [constructor|].
  assert (K : forall m, NoDup m -> NoDup (map (fun y => (x, y)) m ++ list_prod l l')).
  { intros m Hm. induction Hm as [|y m Hy Hm IHm]; cbn; [exact IH|]. constructor; [|exact IHm].
    rewrite in_app_iff, in_map_iff. intros [(y' & E & Y)|Y]; [inversion E; subst; contradiction|]. apply in_prod_iff in Y. tauto. }
  apply K, H'.
Qed.

Section L.
Variable l : layout.
Hypothesis OK : layout_ok l.

Lemma sizes : 0 < tw l /\ 0 < th l /\ dxp l = tw l /\ dzp l = th l /\
  xmin (ldom l) + INR (ncols l) * tw l = xmax (ldom l) /\ zmin (ldom l) + INR (nrows l) * th l = zmax (ldom l) /\
  lhx l = INR (px_cell l) * tw l /\ lhz l = INR (pz_cell l) * th l.
Proof.
  destruct OK as (A & B & C & D & X & Zz). unfold tw, th, dxp, dzp, lhx, lhz, ncols, nrows. rewrite !mult_INR.
  assert (0 < INR (lNx l - 1)) by (apply lt_0_INR; lia). assert (0 < INR (lNz l - 1)) by (apply lt_0_INR; lia).
  assert (0 < INR (px_cell l)) by (apply lt_0_INR; lia). assert (0 < INR (pz_cell l)) by (apply lt_0_INR; lia).
  repeat split; try (field; lra); apply Rdiv_lt_0_compat; try lra; nra.
Qed.

Definition col (s : (nat * nat) * (nat * nat)) : nat := (fst (fst s) * px_cell l + fst (snd s))%nat.
Definition row (s : (nat * nat) * (nat * nat)) : nat := (snd (fst s) * pz_cell l + snd (snd s))%nat.
Lemma site_pos : forall s, site_x l s = mid_x l (col s) /\ site_z l s = mid_z l (row s).
Proof.
  intros s. destruct sizes as (_ & _ & EX & EZ & _ & _ & HX & HZ). unfold site_x, site_z, mid_x, mid_z, col, row.
  rewrite EX, EZ, HX, HZ, !plus_INR, !mult_INR. split; ring.
Qed.
Lemma sites_In : forall s, In s (sites l) <-> (fst (fst s) < lNx l - 1)%nat /\ (snd (fst s) < lNz l - 1)%nat /\
  (fst (snd s) < px_cell l)%nat /\ (snd (snd s) < pz_cell l)%nat.
Proof.
  intros ((j & i) & (kj & ki)). unfold sites. rewrite !in_prod_iff, !in_seq. cbn. lia.
Qed.
Lemma sites_NoDup : NoDup (sites l).
Proof. unfold sites. repeat apply list_prod_NoDup; apply seq_NoDup. Qed.

Lemma col_row : forall s, In s (sites l) -> (col s < ncols l)%nat /\ (row s < nrows l)%nat /\ (col s / px_cell l)%nat = fst (fst s).
Proof.
  intros s Hs. apply sites_In in Hs. destruct Hs as (A & B & C & D). unfold col, row, ncols, nrows.
  split; [nia|]. split; [nia|]. rewrite Nat.div_add_l by lia. rewrite Nat.div_small by lia. lia.
Qed.
Lemma site_inj : forall s s', In s (sites l) -> In s' (sites l) -> col s = col s' -> row s = row s' -> s = s'.
Proof.
  intros ((j & i) & (kj & ki)) ((j' & i') & (kj' & ki')) H H' E F. apply sites_In in H, H'. unfold col, row in *. cbn in *.
  assert (j = j') by nia. assert (i = i') by nia. subst. f_equal; f_equal; lia.
Qed.
Lemma site_exists : forall I J, (I < ncols l)%nat -> (J < nrows l)%nat -> exists s, In s (sites l) /\ col s = I /\ row s = J.
Proof.
  intros I J HI HJ. destruct OK as (A & B & C & D & _). unfold ncols, nrows in *.
  exists (((I / px_cell l)%nat, (J / pz_cell l)%nat), ((I mod px_cell l)%nat, (J mod pz_cell l)%nat)).
  assert (E1 := Nat.div_mod I (px_cell l) ltac:(lia)). assert (E2 := Nat.div_mod J (pz_cell l) ltac:(lia)).
  assert (M1 := Nat.mod_upper_bound I (px_cell l) ltac:(lia)). assert (M2 := Nat.mod_upper_bound J (pz_cell l) ltac:(lia)).
  split; [|unfold col, row; cbn; split; lia].
  apply sites_In. cbn. split; [apply Nat.div_lt_upper_bound; lia|]. split; [apply Nat.div_lt_upper_bound; lia|]. split; assumption.
Qed.

Lemma used_spec : forall s, In s (sites l) -> site_used l s = true <-> below_surface l (col s) (row s).
Proof.
  intros s Hs. unfold site_used, below_surface. destruct (lsurf l) as [(a & b)|]; [|tauto].
  destruct (site_pos s) as (-> & ->). destruct (col_row s Hs) as (_ & _ & ->).
  destruct (Rltb_spec (mid_z l (row s)) (b (fst (fst s)) + a (fst (fst s)) * mid_x l (col s))); split; intros; congruence || tauto || lra.
Qed.

Lemma place_all_spec : forall rnd ss np,
  length (place_all l rnd np ss) = length (filter (site_used l) ss) /\
  forall k d d', (k < length (filter (site_used l) ss))%nat ->
    nth k (place_all l rnd np ss) d = place l rnd (np + k) (nth k (filter (site_used l) ss) d').
Proof.
  intros rnd ss. induction ss as [|s ss IH]; intros np; cbn [place_all filter]; [split; [reflexivity|cbn; lia]|].
  destruct (site_used l s).
  - destruct (IH (S np)) as (A & B). split; [cbn; now rewrite A|]. intros [|k] d d' Hk; cbn [nth].
    + now rewrite Nat.add_0_r.
    + rewrite (B k d d') by (cbn in Hk; lia). f_equal. lia.
  - apply IH.
Qed.

Lemma isout_inside : forall m, xmin (ldom l) <= px m <= xmax (ldom l) -> zmin (ldom l) <= pz m <= zmax (ldom l) -> isout_part (ldom l) m = m.
Proof.
  intros m X Y. unfold isout_part. cbv zeta. assert (F : forall u v, v <= u -> Rltb u v = false) by (intros u v H; destruct (Rltb_spec u v); [lra|reflexivity]).
  rewrite (F (px m) (xmin (ldom l))) by lra. rewrite (F (xmax (ldom l)) (px m)) by lra.
  rewrite (F (pz m) (zmin (ldom l))) by lra. rewrite (F (zmax (ldom l)) (pz m)) by lra. now destruct (perx (ldom l)).
Qed.

Lemma place_tile : forall rnd np s, (forall k, 0 <= rnd k <= 1) -> In s (sites l) ->
  in_tile (if lnoise l then 1 / 10 else 0) l (col s) (row s) (place l rnd np s) /\
  xmin (ldom l) < px (place l rnd np s) < xmax (ldom l) /\ zmin (ldom l) < pz (place l rnd np s) < zmax (ldom l) /\ pph (place l rnd np s) = 0%Z.
Proof.
  intros rnd np s HR Hs. destruct sizes as (TW & TH & EX & EZ & BX & BZ & _). destruct (site_pos s) as (PX & PZ).
  destruct (col_row s Hs) as (CI & CJ & _). unfold place. rewrite PX, PZ, EX, EZ.
  assert (I0 : INR 0 <= INR (col s)) by (apply le_INR; lia). assert (I1 : INR (S (col s)) <= INR (ncols l)) by (apply le_INR; lia).
  assert (J0 : INR 0 <= INR (row s)) by (apply le_INR; lia). assert (J1 : INR (S (row s)) <= INR (nrows l)) by (apply le_INR; lia).
  rewrite S_INR in I1, J1. change (INR 0) with 0 in *.
  assert (XL : forall d, - (1 / 10) * tw l <= d <= 1 / 10 * tw l -> xmin (ldom l) < mid_x l (col s) + d < xmax (ldom l)).
  { intros d Hd. unfold mid_x. rewrite <- BX. nra. }
  assert (ZL : forall d, - (1 / 10) * th l <= d <= 1 / 10 * th l -> zmin (ldom l) < mid_z l (row s) + d < zmax (ldom l)).
  { intros d Hd. unfold mid_z. rewrite <- BZ. nra. }
  destruct (lnoise l).
  - set (u := (2 * rnd (2 * np)%nat - 1) * tw l * (1 / 10)). set (v := (2 * rnd (2 * np + 1)%nat - 1) * th l * (1 / 10)).
    assert (U : - (1 / 10) * tw l <= u <= 1 / 10 * tw l) by (unfold u; pose proof (HR (2 * np)%nat); nra).
    assert (V : - (1 / 10) * th l <= v <= 1 / 10 * th l) by (unfold v; pose proof (HR (2 * np + 1)%nat); nra).
    specialize (XL u U). specialize (ZL v V). rewrite isout_inside by (cbn [px pz]; lra). cbn [px pz pph].
    split; [split; cbn [px pz]; apply Rabs_le; lra|]. split; [lra|]. split; [lra|reflexivity].
  - cbn [px pz pph]. specialize (XL 0 ltac:(lra)). specialize (ZL 0 ltac:(lra)). rewrite Rplus_0_r in XL, ZL.
    split; [split; cbn [px pz]; apply Rabs_le; lra|]. split; [lra|]. split; [lra|reflexivity].
Qed.

Lemma tile_unique : forall c I J I' J' m, c < 1 / 2 -> in_tile c l I J m -> in_tile c l I' J' m -> I = I' /\ J = J'.
Proof.
  intros c I J I' J' m Hc (A & B) (A' & B'). destruct sizes as (TW & TH & _).
  assert (K : forall a b : nat, forall w x lo, 0 < w -> Rabs (x - (lo + (INR a + 1 / 2) * w)) <= c * w -> Rabs (x - (lo + (INR b + 1 / 2) * w)) <= c * w -> a = b).
  { intros a b w x lo W H H'.
    assert (T : Rabs ((INR a - INR b) * w) <= 2 * c * w).
    { replace ((INR a - INR b) * w) with ((x - (lo + (INR b + 1 / 2) * w)) - (x - (lo + (INR a + 1 / 2) * w))) by ring.
      pose proof (Rabs_triang (x - (lo + (INR b + 1 / 2) * w)) (- (x - (lo + (INR a + 1 / 2) * w)))) as T. rewrite Rabs_Ropp in T.
      replace (x - (lo + (INR b + 1 / 2) * w) - (x - (lo + (INR a + 1 / 2) * w))) with (x - (lo + (INR b + 1 / 2) * w) + - (x - (lo + (INR a + 1 / 2) * w))) by ring. lra. }
    rewrite Rabs_mult, (Rabs_pos_eq w) in T by lra.
    destruct (Nat.lt_trichotomy a b) as [L|[L|L]]; [exfalso|exact L|exfalso].
    - apply (le_INR (S a)) in L. rewrite S_INR in L. pose proof (Rle_abs (- (INR a - INR b))). rewrite Rabs_Ropp in H0. nra.
    - apply (le_INR (S b)) in L. rewrite S_INR in L. pose proof (Rle_abs (INR a - INR b)). nra. }
  split; [exact (K _ _ _ _ _ TW A A')|exact (K _ _ _ _ _ TH B B')].
Qed.
End L.

(** ** Theorems *)
Definition nomark : AdvModel.part := AdvModel.Part 0 0 (-1) 0 0.

Theorem C77_one_marker_per_tile : forall l rnd, layout_ok l -> (forall k, 0 <= rnd k <= 1) ->
  let ms := put_in_box l rnd in
  (** every marker is active, strictly inside the box and within a tenth of a tile of the middle of a tile *)
  (forall k, (k < length ms)%nat -> let m := nth k ms nomark in
     pph m = 0%Z /\ xmin (ldom l) < px m < xmax (ldom l) /\ zmin (ldom l) < pz m < zmax (ldom l) /\
     exists I J, (I < ncols l)%nat /\ (J < nrows l)%nat /\ below_surface l I J /\ in_tile (if lnoise l then 1 / 10 else 0) l I J m) /\
  (** every tile whose middle is below the surface has exactly one *)
  (forall I J, (I < ncols l)%nat -> (J < nrows l)%nat -> below_surface l I J ->
     exists! k, (k < length ms)%nat /\ in_tile (1 / 10) l I J (nth k ms nomark)).
Proof.
  intros l rnd OK HR ms. destruct (place_all_spec l rnd (sites l) 0) as (LEN & NTH). fold (put_in_box l rnd) in LEN, NTH. fold ms in LEN, NTH.
  set (F := filter (site_used l) (sites l)) in *. set (s0 := ((0, 0), (0, 0))%nat).
  assert (FI : forall s, In s F <-> In s (sites l) /\ below_surface l (col l s) (row l s)).
  { intros s. unfold F. rewrite filter_In. split; intros (A & B); split; try exact A; now apply (used_spec l OK). }
  assert (C0 : (if lnoise l then 1 / 10 else 0) <= 1 / 10) by (destruct (lnoise l); lra).
  destruct (sizes l OK) as (TW & TH & _).
  assert (WK : forall I J m, in_tile (if lnoise l then 1 / 10 else 0) l I J m -> in_tile (1 / 10) l I J m).
  { intros I J m (A & B). split; eapply Rle_trans; try eassumption; apply Rmult_le_compat_r; lra. }
  split.
  - intros k Hk. cbv zeta. rewrite (NTH k nomark s0) by (rewrite <- LEN; exact Hk). cbn [plus].
    assert (IN : In (nth k F s0) F) by (apply nth_In; rewrite <- LEN; exact Hk). apply FI in IN. destruct IN as (IN & BS).
    destruct (place_tile l OK rnd k (nth k F s0) HR IN) as (T & X & Y & P). split; [exact P|]. split; [exact X|]. split; [exact Y|].
    exists (col l (nth k F s0)), (row l (nth k F s0)). destruct (col_row l (nth k F s0) IN) as (A & B & _). tauto.
  - intros I J HI HJ BS. destruct (site_exists l OK I J HI HJ) as (s & IS & EI & EJ).
    assert (IF : In s F) by (apply FI; split; [exact IS|]; now rewrite EI, EJ).
    destruct (In_nth F s s0 IF) as (k & Hk & EK). exists k. split.
    + split; [now rewrite LEN|]. rewrite (NTH k nomark s0) by exact Hk. rewrite EK. cbn [plus].
      destruct (place_tile l OK rnd k s HR IS) as (T & _). rewrite EI, EJ in T. now apply WK.
    + intros k' (Hk' & T'). rewrite LEN in Hk'. rewrite (NTH k' nomark s0) in T' by exact Hk'. cbn [plus] in T'.
      assert (IN : In (nth k' F s0) F) by now apply nth_In. apply FI in IN. destruct IN as (IN & _).
      destruct (place_tile l OK rnd k' _ HR IN) as (T & _). apply WK in T.
      destruct (tile_unique l OK (1 / 10) _ _ _ _ _ ltac:(lra) T T') as (E1 & E2).
      assert (ES : nth k' F s0 = s) by (apply (site_inj l); try assumption; congruence).
      apply (proj1 (NoDup_nth F s0)); try assumption; [apply NoDup_filter, sites_NoDup|congruence].
Qed.
Print Assumptions C77_one_marker_per_tile.

Lemma all_used : forall l ss, lsurf l = None -> filter (site_used l) ss = ss.
Proof. intros l ss H. induction ss as [|s ss IH]; cbn; [reflexivity|]. unfold site_used. rewrite H. unfold site_used in IH. rewrite H in IH. now rewrite IH. Qed.
Lemma filter_le : forall A (f : A -> bool) l, (length (filter f l) <= length l)%nat.
Proof. intros A f l. induction l as [|a l IH]; cbn; [lia|]. destruct (f a); cbn; lia. Qed.

(** Number of markers and room in the arrays. *)
Theorem C77_number : forall l rnd, layout_ok l ->
  (lsurf l = None -> length (put_in_box l rnd) = (ncols l * nrows l)%nat) /\
  (Z.of_nat (length (put_in_box l rnd)) <= array_size l)%Z /\ (4 * Z.of_nat (ncols l * nrows l) <= array_size l)%Z.
Proof.
  intros l rnd OK. destruct (place_all_spec l rnd (sites l) 0) as (LEN & _). fold (put_in_box l rnd) in LEN.
  assert (LS : length (sites l) = (ncols l * nrows l)%nat).
  { unfold sites, ncols, nrows. rewrite !prod_length, !seq_length. lia. }
  assert (AS : (4 * Z.of_nat (ncols l * nrows l) <= array_size l)%Z).
  { unfold array_size. replace ((lNx l - 1) * (lNz l - 1) * px_cell l * pz_cell l)%nat with (ncols l * nrows l)%nat by (unfold ncols, nrows; lia).
    set (N := (ncols l * nrows l)%nat). destruct (archimed (41 / 10 * INR N)) as (A & _). rewrite INR_IZR_INZ in *.
    assert (P : 0 <= IZR (Z.of_nat N)) by (apply IZR_le; lia).
    assert (L : IZR (4 * Z.of_nat N) < IZR (up (41 / 10 * IZR (Z.of_nat N)))) by (rewrite mult_IZR; lra).
    apply lt_IZR in L. lia. }
  split; [|split; [|exact AS]].
  - intros HN. rewrite LEN, <- LS. rewrite all_used by exact HN. reflexivity.
  - assert (length (put_in_box l rnd) <= ncols l * nrows l)%nat by (rewrite LEN, <- LS; apply filter_le). lia.
Qed.
Print Assumptions C77_number.

(** With noise, markers are placed above the surface: the surface lies just above the
    middle of the tile. *)
Definition ex_layout (noise : bool) : layout := Layout 3 2 2 1 (Dom 0 4 0 1 false) (Some (fun _ => 0, fun _ => 51 / 100)) noise.
Theorem C77_noise_above_surface_refuted : exists l rnd a b k, layout_ok l /\ (forall k, 0 <= rnd k <= 1) /\ lsurf l = Some (a, b) /\
  (k < length (put_in_box l rnd))%nat /\
  forall j, b j + a j * px (nth k (put_in_box l rnd) nomark) < pz (nth k (put_in_box l rnd) nomark).
Proof.
  assert (OK : layout_ok (ex_layout true)) by (repeat split; cbn; lia || lra).
  assert (TH : th (ex_layout true) = 1) by (unfold th, nrows; cbn; field).
  exists (ex_layout true), (fun _ => 1), (fun _ => 0), (fun _ => 51 / 100), 0%nat.
  split; [exact OK|]. split; [intros; lra|]. split; [reflexivity|].
  assert (SU : forall s, In s (sites (ex_layout true)) -> site_used (ex_layout true) s = true).
  { intros s Hs. apply used_spec; [exact OK|exact Hs|]. unfold below_surface. cbn [lsurf ex_layout].
    apply sites_In in Hs. cbn in Hs. unfold row. cbn [pz_cell ex_layout].
    replace (snd (fst s) * 1 + snd (snd s))%nat with 0%nat by lia. unfold mid_z. rewrite TH. cbn. lra. }
  assert (H0 : In ((0, 0), (0, 0))%nat (sites (ex_layout true))) by (cbn; tauto).
  assert (EH : nth 0 (put_in_box (ex_layout true) (fun _ => 1)) nomark = place (ex_layout true) (fun _ => 1) 0 ((0, 0), (0, 0))%nat /\
    (0 < length (put_in_box (ex_layout true) (fun _ => 1%R)))%nat).
  { unfold put_in_box. change (sites (ex_layout true)) with (((0, 0), (0, 0))%nat :: tl (sites (ex_layout true))).
    cbn [place_all]. rewrite (SU _ H0). cbn [nth length]. split; [reflexivity|lia]. }
  destruct EH as (EH & EL). split; [exact EL|]. intros j. rewrite EH.
  assert (TW : tw (ex_layout true) = 1) by (unfold tw, ncols; cbn; field).
  assert (PZ : place (ex_layout true) (fun _ => 1) 0 ((0, 0), (0, 0))%nat = AdvModel.Part (6 / 10) (6 / 10) 0 0 0).
  { unfold place. change (lnoise (ex_layout true)) with true. cbv iota.
    destruct (site_pos (ex_layout true) OK ((0, 0), (0, 0))%nat) as (-> & ->).
    destruct (sizes (ex_layout true) OK) as (_ & _ & EX & EZ & _). rewrite EX, EZ. unfold mid_x, mid_z. rewrite TW, TH.
    change (xmin (ldom (ex_layout true))) with 0. change (zmin (ldom (ex_layout true))) with 0.
    change (INR (col (ex_layout true) ((0, 0), (0, 0))%nat)) with 0. change (INR (row (ex_layout true) ((0, 0), (0, 0))%nat)) with 0.
    replace (0 + (0 + 1 / 2) * 1 + (2 * 1 - 1) * 1 * (1 / 10)) with (6 / 10) by lra.
    apply isout_inside; cbn; lra. }
  rewrite PZ. cbn [px pz]. lra.
Qed.
Print Assumptions C77_noise_above_surface_refuted.

(** A case: two by one cells, two by one markers each, surface above the middles. *)
Example C77_ex : layout_ok (ex_layout false) /\ ncols (ex_layout false) = 4%nat /\ nrows (ex_layout false) = 1%nat /\
  (forall I J, (I < 4)%nat -> (J < 1)%nat -> below_surface (ex_layout false) I J) /\
  px (nth 3 (put_in_box (ex_layout false) (fun _ => 0)) nomark) = 7 / 2.
Proof.
  assert (OK : layout_ok (ex_layout false)) by (repeat split; cbn; lia || lra).
  assert (TH : th (ex_layout false) = 1) by (unfold th, nrows; cbn; field).
  assert (TW : tw (ex_layout false) = 1) by (unfold tw, ncols; cbn; field).
  assert (BS : forall I J, (I < 4)%nat -> (J < 1)%nat -> below_surface (ex_layout false) I J).
  { intros I J _ HJ. replace J with 0%nat by lia. unfold below_surface. cbn [lsurf ex_layout]. unfold mid_z. rewrite TH. cbn. lra. }
  split; [exact OK|]. split; [reflexivity|]. split; [reflexivity|]. split; [exact BS|].
  destruct (place_all_spec (ex_layout false) (fun _ => 0) (sites (ex_layout false)) 0) as (LEN & NTH).
  assert (SU : filter (site_used (ex_layout false)) (sites (ex_layout false)) = sites (ex_layout false)).
  { assert (K : forall ss, (forall s, In s ss -> In s (sites (ex_layout false))) -> filter (site_used (ex_layout false)) ss = ss).
    { induction ss as [|s ss IH]; intros H; cbn [filter]; [reflexivity|]. rewrite (proj2 (used_spec (ex_layout false) OK s (H s (or_introl eq_refl)))).
      - now rewrite IH by (intros; apply H; now right).
      - assert (IN := H s (or_introl eq_refl)). destruct (col_row (ex_layout false) s IN) as (A & B & _). apply BS; assumption. }
    now apply K. }
  rewrite SU in NTH. unfold put_in_box. rewrite (NTH 3%nat nomark ((0, 0), (0, 0))%nat) by (cbn; lia).
  change (nth 3 (sites (ex_layout false)) ((0, 0), (0, 0))%nat) with ((1, 0), (1, 0))%nat. unfold place. change (lnoise (ex_layout false)) with false. cbv iota.
  cbn [px]. destruct (site_pos (ex_layout false) OK ((1, 0), (1, 0))%nat) as (-> & _). unfold mid_x. rewrite TW.
  change (xmin (ldom (ex_layout false))) with 0. change (col (ex_layout false) ((1, 0), (1, 0))%nat) with 3%nat. cbn [INR]. lra.
Qed.
