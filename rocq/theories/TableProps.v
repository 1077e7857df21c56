(** * C63: density tables and phase diagrams *)
From Coq Require Import Reals List Bool ZArith Lra Lia Psatz.
From Verif Require Import RheoModel MatGridModel.
Local Open Scope R_scope.

(** Specification: nodes of a table with [n] entries between [mn] and [mx], and where [x] lies. *)
Definition step (mn mx : R) (n : Z) : R := (mx - mn) / IZR (n - 1).
Definition node (mn mx : R) (n i : Z) : R := mn + IZR i * step mn mx n.
Definition between_nodes (mn mx : R) (n i : Z) (x : R) : Prop :=
  (0 <= i <= n - 2)%Z /\ node mn mx n i <= x <= node mn mx n (i + 1).
Definition frac (mn mx : R) (n i : Z) (x : R) : R := (x - node mn mx n i) / step mn mx n.

Lemma rltb_t : forall a b, a < b -> Rltb a b = true.
Proof. intros. unfold Rltb. destruct (Rlt_dec a b); [reflexivity|contradiction]. Qed.
Lemma rltb_f : forall a b, b <= a -> Rltb a b = false.
Proof. intros. unfold Rltb. destruct (Rlt_dec a b); [lra|reflexivity]. Qed.
Lemma ceilZ_spec : forall x, IZR (ceilZ x) - 1 < x <= IZR (ceilZ x).
Proof. intros x. unfold ceilZ. rewrite minus_IZR. destruct (archimed (- x)). lra. Qed.
Lemma ceilZ_unique : forall x k, IZR k - 1 < x <= IZR k -> ceilZ x = k.
Proof.
  intros x k H. pose proof (ceilZ_spec x) as C. apply Z.le_antisymm; apply Z.lt_succ_r; apply lt_IZR; rewrite succ_IZR; lra.
Qed.

Lemma step_pos : forall mn mx n, mn < mx -> (2 <= n)%Z -> 0 < step mn mx n /\ step mn mx n = (mx - mn) / (IZR n - 1) /\
  mx = mn + (IZR n - 1) * step mn mx n /\ 1 <= IZR n - 1.
Proof.
  intros mn mx n H Hn. unfold step. assert (1 <= IZR n - 1) by (apply IZR_le in Hn; lra). rewrite minus_IZR.
  split; [apply Rdiv_lt_0_compat; lra|]. split; [reflexivity|]. split; [field; lra|lra].
Qed.
Lemma node0 : forall mn mx n, node mn mx n 0 = mn. Proof. intros. unfold node. ring. Qed.

Lemma west_weight : forall mn mx n i x, mn < mx -> (2 <= n)%Z -> between_nodes mn mx n i x -> x <> mn ->
  let d := (mx - mn) / (IZR n - 1) in
  into x mn mx d = x /\
  ((west x mn d = i /\ weight x mn d = 1 - frac mn mx n i x) \/
   (west x mn d = (i - 1)%Z /\ (0 < i)%Z /\ frac mn mx n i x = 0 /\ weight x mn d = 0)).
Proof.
  intros mn mx n i x H Hn [Hi [B1 B2]] Nx d. destruct (step_pos mn mx n H Hn) as [S1 [S2 [S3 S4]]]. fold d in S2.
  unfold frac, node in *. rewrite plus_IZR in B2. rewrite <- S2. clearbody d. subst d. set (s := step mn mx n) in *.
  assert (Hi0 : 0 <= IZR i) by (apply IZR_le; lia). assert (Hi2 : IZR i <= IZR n - 2) by (rewrite <- minus_IZR; apply IZR_le; lia).
  assert (R1 : mn <= x) by nra. assert (R2 : x <= mx) by (rewrite S3; nra).
  split; [unfold into; rewrite (rltb_f x mn) by exact R1; now rewrite rltb_f|].
  assert (Ey : (x - mn) / s = IZR i + (x - (mn + IZR i * s)) / s) by (field; lra).
  assert (Q0 : 0 <= (x - (mn + IZR i * s)) / s).
  { apply Rmult_le_pos; [lra|left; apply Rinv_0_lt_compat; lra]. }
  assert (Q1 : (x - (mn + IZR i * s)) / s <= 1).
  { apply Rmult_le_reg_r with s; [lra|]. unfold Rdiv. rewrite Rmult_assoc, Rinv_l by lra. lra. }
  destruct (Req_dec x (mn + IZR i * s)) as [E|N].
  - right. assert (P : (0 < i)%Z). { destruct (Z.eq_dec i 0) as [->|]; [exfalso; apply Nx; rewrite E; ring|lia]. }
    assert (W : west x mn s = (i - 1)%Z).
    { unfold west. f_equal. apply ceilZ_unique. rewrite Ey. replace (x - (mn + IZR i * s)) with 0 by lra. unfold Rdiv. rewrite Rmult_0_l. lra. }
    split; [exact W|]. split; [exact P|]. split.
    + replace (x - (mn + IZR i * s)) with 0 by lra. unfold Rdiv. ring.
    + unfold weight. rewrite W, minus_IZR. rewrite E. field. lra.
  - left. assert (Q2 : 0 < (x - (mn + IZR i * s)) / s) by (apply Rdiv_lt_0_compat; lra).
    assert (W : west x mn s = i).
    { unfold west. rewrite (ceilZ_unique _ (i + 1)); [lia|]. rewrite plus_IZR, Ey. lra. }
    split; [exact W|]. unfold weight. now rewrite W.
Qed.

(** Every value inside the table lies between two nodes. *)
Lemma located : forall mn mx n x, mn < mx -> (2 <= n)%Z -> mn <= x <= mx -> exists i, between_nodes mn mx n i x.
Proof.
  intros mn mx n x H Hn Hx. destruct (step_pos mn mx n H Hn) as [S1 [S2 [S3 S4]]]. set (s := step mn mx n) in *.
  destruct (Req_dec x mn) as [->|N].
  - exists 0%Z. split; [lia|]. unfold node. fold s. rewrite plus_IZR. lra.
  - set (y := (x - mn) / s). pose proof (ceilZ_spec y) as C. exists (ceilZ y - 1)%Z.
    assert (Y : x = mn + y * s) by (unfold y; field; lra).
    assert (Y0 : 0 < y) by (unfold y; apply Rdiv_lt_0_compat; lra).
    assert (Y1 : y <= IZR n - 1).
    { apply Rmult_le_reg_r with s; [lra|]. lra. }
    split.
    + split.
      * assert (0 < ceilZ y)%Z by (apply lt_IZR; lra). lia.
      * assert (ceilZ y < n)%Z by (apply lt_IZR; lra). lia.
    + unfold node. fold s. replace (ceilZ y - 1 + 1)%Z with (ceilZ y) by lia. rewrite minus_IZR. nra.
Qed.

Lemma read_some : forall size data i, (0 <= i < size)%Z -> read size data i = Some (data i).
Proof. intros. unfold read. replace (0 <=? i)%Z with true by lia. replace (i <? size)%Z with true by lia. reflexivity. Qed.

(** One-dimensional tables: inside the range (west end excepted) the result is the straight line between the
    two neighbouring entries, no entry outside the table is read. *)
Theorem C63_table1_linear : forall P mn mx n data i, mn < mx -> (2 <= n)%Z -> between_nodes mn mx n i P -> P <> mn ->
  table1 P mn mx n data = Some (data i + (data (i + 1)%Z - data i) * frac mn mx n i P).
Proof.
  intros P mn mx n data i H Hn B N. destruct (west_weight mn mx n i P H Hn B N) as [I W]. unfold table1. cbv zeta. rewrite I.
  destruct B as [Hi _]. destruct W as [[W1 W2]|[W1 [W2 [W3 W4]]]].
  - rewrite W1, W2, !read_some by lia. cbn [obind]. f_equal. ring.
  - rewrite W1, W4, W3, !read_some by lia. cbn [obind]. f_equal. replace (i - 1 + 1)%Z with i by lia. ring.
Qed.
Print Assumptions C63_table1_linear.

(** Two-dimensional tables: the bilinear interpolant. *)
Theorem C63_table2_bilinear : forall T P Tn Tx Pn Px nT nP data i j,
  Tn < Tx -> Pn < Px -> (2 <= nT)%Z -> (2 <= nP)%Z ->
  between_nodes Tn Tx nT i T -> between_nodes Pn Px nP j P -> T <> Tn -> P <> Pn ->
  let a := frac Tn Tx nT i T in let b := frac Pn Px nP j P in
  let at_ i j := data (i + j * nT)%Z in
  table2 T P Tn Tx Pn Px nT nP data =
    Some ((1 - a) * (1 - b) * at_ i j + a * (1 - b) * at_ (i + 1)%Z j + (1 - a) * b * at_ i (j + 1)%Z + a * b * at_ (i + 1)%Z (j + 1)%Z).
Proof.
  intros T P Tn Tx Pn Px nT nP data i j HT HP HnT HnP BT BP NT NP a b at_.
  destruct (west_weight Tn Tx nT i T HT HnT BT NT) as [I1 W1]. destruct (west_weight Pn Px nP j P HP HnP BP NP) as [I2 W2].
  unfold table2. cbv zeta. rewrite I1, I2. destruct BT as [Hi _], BP as [Hj _].
  assert (RD : forall x y, (0 <= x < nT)%Z -> (0 <= y < nP)%Z -> (0 <= x + y * nT < nT * nP)%Z) by (intros; nia).
  fold a in W1. fold b in W2. unfold at_.
  destruct W1 as [[Wa Wb]|[Wa [Wb [Wc Wd]]]], W2 as [[Va Vb]|[Va [Vb [Vc Vd]]]]; rewrite Wa, Va.
  - rewrite Wb, Vb. replace (i + (j + 1) * nT + 1)%Z with (i + 1 + (j + 1) * nT)%Z by ring. replace (i + j * nT + 1)%Z with (i + 1 + j * nT)%Z by ring.
    rewrite !read_some by (apply RD; lia). cbn [obind]. f_equal. ring.
  - rewrite Wb, Vd, Vc. replace (i + (j - 1 + 1) * nT + 1)%Z with (i + 1 + j * nT)%Z by ring. replace (i + (j - 1 + 1) * nT)%Z with (i + j * nT)%Z by ring.
    replace (i + (j - 1) * nT + 1)%Z with (i + 1 + (j - 1) * nT)%Z by ring.
    rewrite !read_some by (apply RD; lia). cbn [obind]. f_equal. ring.
  - rewrite Wd, Wc, Vb. replace (i - 1 + (j + 1) * nT + 1)%Z with (i + (j + 1) * nT)%Z by ring. replace (i - 1 + j * nT + 1)%Z with (i + j * nT)%Z by ring.
    rewrite !read_some by (apply RD; lia). cbn [obind]. f_equal. ring.
  - rewrite Wd, Wc, Vd, Vc. replace (i - 1 + (j - 1 + 1) * nT + 1)%Z with (i + j * nT)%Z by ring. replace (i - 1 + (j - 1 + 1) * nT)%Z with (i - 1 + j * nT)%Z by ring.
    replace (i - 1 + (j - 1) * nT + 1)%Z with (i + (j - 1) * nT)%Z by ring.
    rewrite !read_some by (apply RD; lia). cbn [obind]. f_equal. ring.
Qed.
Print Assumptions C63_table2_bilinear.

(** Values outside the range are replaced by ones a hundredth of a step inside. *)
Definition clamped (mn mx : R) (n : Z) (x : R) : R :=
  if Rlt_dec x mn then mn + step mn mx n / 100 else if Rlt_dec mx x then mx - step mn mx n / 100 else x.
Lemma clamped_in : forall mn mx n x, mn < mx -> (2 <= n)%Z -> x <> mn ->
  mn < clamped mn mx n x <= mx /\ into x mn mx ((mx - mn) / (IZR n - 1)) = into (clamped mn mx n x) mn mx ((mx - mn) / (IZR n - 1)).
Proof.
  intros mn mx n x H Hn N. destruct (step_pos mn mx n H Hn) as [S1 [S2 [S3 S4]]]. rewrite <- S2. set (s := step mn mx n) in *.
  assert (s <= mx - mn) by (clearbody s; nra). unfold clamped. fold s. unfold into. replace (/ 100 * s) with (s / 100) by (unfold Rdiv; ring).
  destruct (Rlt_dec x mn) as [L|L].
  - split; [lra|]. rewrite (rltb_t x mn) by exact L. rewrite (rltb_f (mn + s / 100) mn) by lra. reflexivity.
  - destruct (Rlt_dec mx x) as [G|G].
    + split; [lra|]. rewrite (rltb_f x mn) by lra. rewrite (rltb_t mx x) by exact G. rewrite (rltb_f (mx - s / 100) mn) by lra.
      rewrite rltb_f by lra. reflexivity.
    + split; [lra|reflexivity].
Qed.
Theorem C63_outside_clamped : forall T P Tn Tx Pn Px nT nP data, Tn < Tx -> Pn < Px -> (2 <= nT)%Z -> (2 <= nP)%Z -> T <> Tn -> P <> Pn ->
  (Tn < clamped Tn Tx nT T <= Tx /\ Pn < clamped Pn Px nP P <= Px) /\
  table2 T P Tn Tx Pn Px nT nP data = table2 (clamped Tn Tx nT T) (clamped Pn Px nP P) Tn Tx Pn Px nT nP data /\
  table1 P Pn Px nP data = table1 (clamped Pn Px nP P) Pn Px nP data.
Proof.
  intros T P Tn Tx Pn Px nT nP data HT HP HnT HnP NT NP.
  destruct (clamped_in Tn Tx nT T HT HnT NT) as [A1 A2]. destruct (clamped_in Pn Px nP P HP HnP NP) as [B1 B2].
  split; [split; assumption|]. unfold table2, table1. cbv zeta. rewrite A2, B2. split; reflexivity.
Qed.
Print Assumptions C63_outside_clamped.

(** Hence every query (the lower edges excepted) has a value, within the range of the entries. *)
Theorem C63_table2_between : forall T P Tn Tx Pn Px nT nP data lo hi, Tn < Tx -> Pn < Px -> (2 <= nT)%Z -> (2 <= nP)%Z ->
  T <> Tn -> P <> Pn -> (forall k, (0 <= k < nT * nP)%Z -> lo <= data k <= hi) ->
  exists r, table2 T P Tn Tx Pn Px nT nP data = Some r /\ lo <= r <= hi.
Proof.
  intros T P Tn Tx Pn Px nT nP data lo hi HT HP HnT HnP NT NP D.
  destruct (C63_outside_clamped T P Tn Tx Pn Px nT nP data HT HP HnT HnP NT NP) as [[CT CP] [E _]]. rewrite E.
  set (T' := clamped Tn Tx nT T) in *. set (P' := clamped Pn Px nP P) in *. clearbody T' P'.
  destruct (located Tn Tx nT T' HT HnT ltac:(lra)) as [i Hi]. destruct (located Pn Px nP P' HP HnP ltac:(lra)) as [j Hj].
  rewrite (C63_table2_bilinear T' P' Tn Tx Pn Px nT nP data i j HT HP HnT HnP Hi Hj ltac:(lra) ltac:(lra)).
  assert (FR : forall mn mx n i x, mn < mx -> (2 <= n)%Z -> between_nodes mn mx n i x -> 0 <= frac mn mx n i x <= 1).
  { intros mn mx n k x H Hn [_ [B1 B2]]. destruct (step_pos mn mx n H Hn) as [S1 _]. unfold frac, node in *. rewrite plus_IZR in B2.
    set (s := step mn mx n) in *. split.
    - apply Rmult_le_pos; [lra|left; apply Rinv_0_lt_compat; lra].
    - apply Rmult_le_reg_r with s; [lra|]. unfold Rdiv. rewrite Rmult_assoc, Rinv_l by lra. lra. }
  pose proof (FR _ _ _ _ _ HT HnT Hi) as Fa. pose proof (FR _ _ _ _ _ HP HnP Hj) as Fb.
  set (a := frac Tn Tx nT i T') in *. set (b := frac Pn Px nP j P') in *. clearbody a b. destruct Hi as [Hi _], Hj as [Hj _].
  eexists. split; [reflexivity|].
  assert (K : forall x y, (0 <= x < nT)%Z -> (0 <= y < nP)%Z -> lo <= data (x + y * nT)%Z <= hi) by (intros; apply D; nia).
  pose proof (K i j ltac:(lia) ltac:(lia)) as K1. pose proof (K (i + 1)%Z j ltac:(lia) ltac:(lia)) as K2.
  pose proof (K i (j + 1)%Z ltac:(lia) ltac:(lia)) as K3. pose proof (K (i + 1)%Z (j + 1)%Z ltac:(lia) ltac:(lia)) as K4.
  assert (W1 : 0 <= (1 - a) * (1 - b)) by nra. assert (W2 : 0 <= a * (1 - b)) by nra. assert (W3 : 0 <= (1 - a) * b) by nra. assert (W4 : 0 <= a * b) by nra.
  assert (WS : (1 - a) * (1 - b) + a * (1 - b) + (1 - a) * b + a * b = 1) by ring.
  set (w1 := (1 - a) * (1 - b)) in *. set (w2 := a * (1 - b)) in *. set (w3 := (1 - a) * b) in *. set (w4 := a * b) in *. clearbody w1 w2 w3 w4.
  split; nra.
Qed.
Print Assumptions C63_table2_between.

(** Refuted: every query is safe. At exactly the lowest pressure the entry before the start of the table is
    read, for every table (at the lowest temperature in the bottom row too). *)
Lemma west_at_min : forall mn d, 0 < d -> west mn mn d = (-1)%Z.
Proof. intros mn d H. unfold west. rewrite (ceilZ_unique _ 0); [reflexivity|]. replace (mn - mn) with 0 by ring. unfold Rdiv. rewrite Rmult_0_l. lra. Qed.
Theorem C63_lowest_pressure_refuted : forall mn mx n data, mn < mx -> (2 <= n)%Z -> table1 mn mn mx n data = None.
Proof.
  intros mn mx n data H Hn. destruct (step_pos mn mx n H Hn) as [S1 [S2 _]]. unfold table1. cbv zeta. rewrite <- S2. clear S2. set (s := step mn mx n) in *.
  assert (E : into mn mn mx s = mn) by (unfold into; rewrite (rltb_f mn mn) by lra; now rewrite rltb_f by lra).
  rewrite E, west_at_min by exact S1. reflexivity.
Qed.
Print Assumptions C63_lowest_pressure_refuted.
Theorem C63_lowest_temperature_refuted : forall Tn Tx Pn Px nT nP data P, Tn < Tx -> Pn < Px -> (2 <= nT)%Z -> (2 <= nP)%Z ->
  between_nodes Pn Px nP 0 P -> P <> Pn -> table2 Tn P Tn Tx Pn Px nT nP data = None.
Proof.
  intros Tn Tx Pn Px nT nP data P HT HP HnT HnP B N.
  destruct (west_weight Pn Px nP 0 P HP HnP B N) as [I2 W2]. destruct W2 as [[V1 V2]|[_ [V _]]]; [|lia].
  destruct (step_pos Tn Tx nT HT HnT) as [S1 [S2 _]]. unfold table2. cbv zeta. rewrite <- S2. set (s := step Tn Tx nT) in *.
  assert (E : into Tn Tn Tx s = Tn) by (unfold into; rewrite (rltb_f Tn Tn) by lra; now rewrite rltb_f by lra).
  rewrite E, I2, west_at_min, V1 by exact S1. rewrite !read_some by nia. cbn [obind].
  replace (read (nT * nP) data (-1 + 0 * nT)) with (@None R) by reflexivity. reflexivity.
Qed.
Print Assumptions C63_lowest_temperature_refuted.

(** Refuted: beyond its end a table continues with its last value. *)
Theorem C63_edge_value_refuted : forall P mn mx n data, mn < mx -> (2 <= n)%Z -> mx < P ->
  table1 P mn mx n data = Some (data (n - 1)%Z - (data (n - 1)%Z - data (n - 2)%Z) / 100) /\
  table1 mx mn mx n data = Some (data (n - 1)%Z).
Proof.
  intros P mn mx n data H Hn HP. destruct (step_pos mn mx n H Hn) as [S1 [S2 [S3 S4]]].
  assert (Bm : forall e, 0 <= e <= 1 -> between_nodes mn mx n (n - 2) (mx - e * step mn mx n)).
  { intros e He. split; [lia|]. unfold node. replace (n - 2 + 1)%Z with (n - 1)%Z by lia. rewrite !minus_IZR. set (s := step mn mx n) in *. nra. }
  assert (F : forall e, frac mn mx n (n - 2) (mx - e * step mn mx n) = 1 - e).
  { intros e. unfold frac, node. rewrite minus_IZR. set (s := step mn mx n) in *. clearbody s. rewrite S3. field. lra. }
  assert (S5 : step mn mx n <= mx - mn) by (set (s := step mn mx n) in *; clearbody s; nra).
  split.
  - assert (E : table1 P mn mx n data = table1 (mx - / 100 * step mn mx n) mn mx n data).
    { unfold table1. cbv zeta. rewrite <- S2. set (s := step mn mx n) in *.
      assert (A : into P mn mx s = mx - / 100 * s) by (unfold into; rewrite (rltb_f P mn) by lra; now rewrite (rltb_t mx P)).
      assert (A' : into (mx - / 100 * s) mn mx s = mx - / 100 * s) by (unfold into; rewrite (rltb_f _ mn) by lra; now rewrite rltb_f by lra).
      now rewrite A, A'. }
    rewrite E, (C63_table1_linear _ mn mx n data (n - 2) H Hn (Bm (/ 100) ltac:(lra))) by (set (s := step mn mx n) in *; lra).
    rewrite F. replace (n - 2 + 1)%Z with (n - 1)%Z by lia. f_equal. field.
  - replace mx with (mx - 0 * step mn mx n) at 1 by ring.
    rewrite (C63_table1_linear _ mn mx n data (n - 2) H Hn (Bm 0 ltac:(lra))) by lra.
    rewrite F. replace (n - 2 + 1)%Z with (n - 1)%Z by lia. f_equal. ring.
Qed.
Print Assumptions C63_edge_value_refuted.

Example C63_ex : between_nodes 0 4 3 0 1 /\ frac 0 4 3 0 1 = 1 / 2 /\ table1 1 0 4 3 (fun i => IZR (i * i)) = Some (1 / 2).
Proof.
  assert (S : step 0 4 3 = 2) by (unfold step; cbn [Z.sub Z.opp Z.add Z.pos_sub Pos.pred_double]; lra).
  assert (B : between_nodes 0 4 3 0 1). { split; [lia|]. unfold node. rewrite S. cbn [Z.add]. lra. }
  assert (F : frac 0 4 3 0 1 = 1 / 2) by (unfold frac, node; rewrite S; lra).
  split; [exact B|]. split; [exact F|].
  rewrite (C63_table1_linear 1 0 4 3 _ 0) by (lra || lia || exact B). rewrite F. cbn [Z.add Z.mul Pos.mul]. f_equal. lra.
Qed.
