(** * Specification and lemmas for C72-C74 *)
From Coq Require Import ZArith Reals Bool Lia Lra Psatz.
From Verif Require Import P2GModel P2GProofs AdvModel AdvProofs ItpModel.
Local Open Scope R_scope.

(** ** Specification *)
Definition mesh_ok (m : mesh) : Prop := (2 <= NX m)%Z /\ (2 <= NZ m)%Z /\ 0 < DX m /\ 0 < DZ m.
(** The marker lies in the box. *)
Definition inside (m : mesh) (x z : R) : Prop := xg m 0 <= x <= xg m (NX m - 1) /\ zg m 0 <= z <= zg m (NZ m - 1).
Definition rock (t : Z) : Prop := t <> 30%Z /\ t <> 31%Z.
(** A coordinate less than one spacing away from that of a node. *)
Definition close (d p q : R) : Prop := Rabs (p - q) < d.
(** Columns and lines of cell centres less than one spacing away, counting periodic
    images if the model is laterally periodic. *)
Definition width (m : mesh) : R := xg m (NX m - 1) - xg m 0.
Definition near_col (per : bool) (m : mesh) (x : R) (j : Z) : Prop :=
  (0 <= j < NX m - 1)%Z /\
  (close (DX m) x (xc m j) \/ (per = true /\ (close (DX m) x (xc m j - width m) \/ close (DX m) x (xc m j + width m)))).
Definition near_row (m : mesh) (z : R) (i : Z) : Prop := (0 <= i < NZ m - 1)%Z /\ close (DZ m) z (zc m i).
Definition near_vcol (m : mesh) (x : R) (j : Z) : Prop := (0 <= j < NX m)%Z /\ close (DX m) x (xg m j).
Definition near_vrow (m : mesh) (z : R) (i : Z) : Prop := (0 <= i < NZ m)%Z /\ close (DZ m) z (zg m i).

Lemma rockb_spec : forall t, reflect (rock t) (rockb t).
Proof.
  intros t. unfold rockb, rock. destruct (Z.eqb_spec t 30); destruct (Z.eqb_spec t 31); constructor; tauto.
Qed.

(** ** One column, and the two columns together *)
Definition bnd (lo hi v : R) : Prop := lo <= v <= hi.

Lemma column_bounds : forall lo hi (f : Z -> R) tag b s n, 0 <= b <= 1 ->
  (b < 1 -> rock (tag s) -> bnd lo hi (f s)) -> (0 < b -> rock (tag n) -> bnd lo hi (f n)) ->
  (b < 1 /\ rock (tag s)) \/ (0 < b /\ rock (tag n)) ->
  bnd lo hi ((1 - b) * pick f tag s n + b * pick f tag n s).
Proof.
  unfold bnd, pick. intros lo hi f tag b s n Hb Hs Hn Hex.
  destruct (rockb_spec (tag s)) as [Rs|Rs]; destruct (rockb_spec (tag n)) as [Rn|Rn].
  - destruct (Rle_lt_dec 1 b).
    + assert (b = 1) by lra. subst b. specialize (Hn ltac:(lra) Rn). nra.
    + specialize (Hs ltac:(lra) Rs). destruct (Rle_lt_dec b 0); [assert (b = 0) by lra; subst b; nra|].
      specialize (Hn ltac:(lra) Rn). nra.
  - destruct Hex as [(B & _)|(_ & B)]; [|contradiction]. specialize (Hs B Rs). nra.
  - destruct Hex as [(_ & B)|(B & _)]; [contradiction|]. specialize (Hn B Rn). nra.
  - tauto.
Qed.

Lemma two_columns : forall lo hi a cW cE, 0 <= a <= 1 -> (a < 1 -> bnd lo hi cW) -> (0 < a -> bnd lo hi cE) ->
  bnd lo hi ((1 - a) * cW + a * cE).
Proof.
  unfold bnd. intros lo hi a cW cE Ha HW HE.
  destruct (Rle_lt_dec 1 a); [assert (a = 1) by lra; subst; specialize (HE ltac:(lra)); nra|].
  specialize (HW ltac:(lra)).
  destruct (Rle_lt_dec a 0); [assert (a = 0) by lra; subst; nra|]. specialize (HE ltac:(lra)). nra.
Qed.

Lemma replaced_columns : forall f tag c a b,
  replaced f tag c a b =
  (1 - a) * ((1 - b) * pick f tag (iSW c) (iNW c) + b * pick f tag (iNW c) (iSW c)) +
  a * ((1 - b) * pick f tag (iSE c) (iNE c) + b * pick f tag (iNE c) (iSE c)).
Proof. intros. unfold replaced. ring. Qed.

Lemma all_weights_one : forall a b, all_weights a b = 1.
Proof. intros. unfold all_weights. ring. Qed.

Lemma eps13_range : 0 < eps13 < 1 / 4.
Proof.
  unfold eps13. assert (4 < 10 ^ 13) by (change 13%nat with (S 12); rewrite <- tech_pow_Rmult; assert (1 <= 10 ^ 12) by (apply pow_R1_Rle; lra); lra).
  split; [apply Rinv_0_lt_compat; lra|]. apply Rmult_lt_reg_l with (10 ^ 13); [lra|]. rewrite Rinv_r by lra. lra.
Qed.

Lemma normalise_one : forall v, normalise v 1 = v.
Proof.
  intros. unfold normalise. destruct (Rltb_spec eps13 1); [field|reflexivity].
Qed.

(** ** One axis of the cell-centre interpolation *)
(** The two columns used for a marker between the extended centres [j] and [j+1]. *)
Definition colW (per : bool) (n j : Z) : Z := if (j =? 0)%Z then (if per then n - 1 else 0)%Z else (j - 1)%Z.
Definition colE (per : bool) (n j : Z) : Z := if (j =? n)%Z then (if per then 0 else n - 1)%Z else j.

Lemma centre_corners_spec : forall per Nx Nz i j, (1 <= Nx)%Z -> (1 <= Nz)%Z -> (0 <= i <= Nz)%Z -> (0 <= j <= Nx)%Z ->
  centre_corners per Nx Nz i j = Some (Corners
    (colW per Nx j + colW false Nz i * Nx) (colE per Nx j + colW false Nz i * Nx)
    (colW per Nx j + colE false Nz i * Nx) (colE per Nx j + colE false Nz i * Nx))%Z.
Proof.
  intros per Nx Nz i j HX HZ Hi Hj. unfold centre_corners, colW, colE, square.
  destruct (Z.eqb_spec j 0); destruct (Z.eqb_spec j Nx); destruct (Z.eqb_spec i 0); destruct (Z.eqb_spec i Nz); subst; try lia;
  repeat match goal with |- context [(?p <? ?q)%Z] => destruct (Z.ltb_spec p q); try lia end;
  cbn [andb]; destruct per; f_equal; f_equal; try lia; try nia.
Qed.

(** Position of the marker along one axis; [p0] is the first centre, [n] the number
    of centres. *)
Lemma axis : forall per n p0 d x, (1 <= n)%Z -> 0 < d ->
  p0 - d / 2 <= x <= p0 - d / 2 + IZR n * d ->
  let j := below (x - (p0 - d)) d in let a := (x - (p0 - d + IZR j * d)) / d in
  (0 <= j <= n)%Z /\ 0 < a <= 1 /\ x = p0 - d + IZR j * d + a * d /\
  (0 <= colW per n j < n)%Z /\ (0 <= colE per n j < n)%Z /\
  (a < 1 -> close d x (p0 + IZR (colW per n j) * d) \/ (per = true /\ close d x (p0 + IZR (colW per n j) * d - IZR n * d))) /\
  (close d x (p0 + IZR (colE per n j) * d) \/ (per = true /\ close d x (p0 + IZR (colE per n j) * d + IZR n * d))).
Proof.
  intros per n p0 d x Hn Hd Hx j a.
  assert (E : x = p0 - d + IZR j * d + a * d) by (unfold a; field; lra).
  destruct (Zceil_spec ((x - (p0 - d)) / d)) as (C1 & C2).
  assert (Ej : IZR j = IZR (Zceil ((x - (p0 - d)) / d)) - 1) by (unfold j, below; now rewrite minus_IZR).
  set (t := (x - (p0 - d)) / d) in *. assert (Et : x = p0 - d + t * d) by (unfold t; field; lra).
  assert (At : a = t - IZR j) by nra.
  assert (A : 0 < a <= 1) by lra.
  assert (T0 : 1 / 2 <= t) by nra. assert (T1 : t <= IZR n + 1 / 2) by nra.
  assert (J : (0 <= j <= n)%Z).
  { split; [apply Z.lt_succ_r; apply lt_IZR; rewrite succ_IZR; lra|apply Z.lt_succ_r; apply lt_IZR; rewrite succ_IZR; lra]. }
  clearbody a j t. clear C1 C2 Ej.
  split; [exact J|]. split; [exact A|]. split; [exact E|].
  unfold colW, colE.
  split; [destruct (Z.eqb_spec j 0); destruct per; lia|].
  split; [destruct (Z.eqb_spec j n); destruct per; lia|]. unfold close.
  split.
  - intros A1. destruct (Z.eqb_spec j 0) as [->|J0].
    + destruct per.
      * right. split; [reflexivity|]. rewrite minus_IZR. replace (x - _) with (a * d) by (rewrite E; lra).
        apply Rabs_def1; nra.
      * left. replace (x - _) with (a * d - d) by (rewrite E; lra). apply Rabs_def1; nra.
    + left. rewrite minus_IZR. replace (x - _) with (a * d) by (rewrite E; lra). apply Rabs_def1; nra.
  - destruct (Z.eqb_spec j n) as [->|J0].
    + destruct per.
      * right. split; [reflexivity|]. replace (x - _) with (a * d - d) by (rewrite E; lra). apply Rabs_def1; nra.
      * left. rewrite minus_IZR. replace (x - _) with (a * d) by (rewrite E; lra).
        assert (a <= 1 / 2) by nra. apply Rabs_def1; nra.
    + left. replace (x - _) with (a * d - d) by (rewrite E; lra). apply Rabs_def1; nra.
Qed.

(** Between the first and the last centre the position is the weighted mean of the
    two columns. *)
Lemma axis_linear : forall per n p0 d x, (1 <= n)%Z -> 0 < d -> p0 <= x <= p0 + IZR (n - 1) * d ->
  let j := below (x - (p0 - d)) d in let a := (x - (p0 - d + IZR j * d)) / d in
  (1 - a) * (p0 + IZR (colW per n j) * d) + a * (p0 + IZR (colE per n j) * d) = x.
Proof.
  intros per n p0 d x Hn Hd Hx j a.
  assert (Hx' : p0 - d / 2 <= x <= p0 - d / 2 + IZR n * d).
  { rewrite minus_IZR in Hx. nra. }
  pose proof (axis per n p0 d x Hn Hd Hx') as A. cbv zeta in A. fold j in A. fold a in A.
  destruct A as (J & A & E & _). clearbody j a. rewrite minus_IZR in Hx.
  unfold colW, colE.
  destruct (Z.eqb_spec j 0) as [->|J0].
  - assert (a = 1) by nra. subst a. destruct (Z.eqb_spec 0 n); [lia|]. rewrite E. ring.
  - destruct (Z.eqb_spec j n) as [->|J1]; [exfalso; nra|]. rewrite minus_IZR. rewrite E. ring.
Qed.

(** ** One axis of the vertex interpolation *)
Definition vcell (n : Z) (c : Z) : Z := let c := if (c <? 0)%Z then 0%Z else c in if (n - 2 <? c)%Z then (n - 2)%Z else c.

Lemma vaxis : forall n p0 d x, (2 <= n)%Z -> 0 < d -> p0 <= x <= p0 + IZR (n - 1) * d ->
  let j0 := below (x - p0) d in let j := if (j0 <? 0)%Z then 0%Z else j0 in let a := (x - (p0 + IZR j * d)) / d in
  (0 <= j <= n - 2)%Z /\ 0 <= a <= 1 /\ x = p0 + IZR j * d + a * d /\
  (a < 1 -> close d x (p0 + IZR j * d)) /\ (0 < a -> close d x (p0 + IZR (j + 1) * d)).
Proof.
  intros n p0 d x Hn Hd Hx j0 j a.
  assert (E : x = p0 + IZR j * d + a * d) by (unfold a; field; lra).
  destruct (Zceil_spec ((x - p0) / d)) as (C1 & C2).
  assert (Ej : IZR j0 = IZR (Zceil ((x - p0) / d)) - 1) by (unfold j0, below; now rewrite minus_IZR).
  set (t := (x - p0) / d) in *. assert (Et : x = p0 + t * d) by (unfold t; field; lra).
  assert (At : a = t - IZR j) by nra. rewrite minus_IZR in Hx.
  assert (T0 : 0 <= t) by nra. assert (T1 : t <= IZR n - 1) by nra.
  assert (J : (0 <= j <= n - 2)%Z /\ 0 <= a <= 1).
  { assert (j0 <= n - 2)%Z by (apply Z.lt_succ_r; apply lt_IZR; rewrite succ_IZR, minus_IZR; lra).
    rewrite At. unfold j. destruct (Z.ltb_spec j0 0); [|split; [lia|lra]].
    split; [lia|]. assert (IZR j0 <= -1) by (apply IZR_le; lia). lra. }
  destruct J as (J & A). clearbody a j t. unfold close.
  split; [exact J|]. split; [exact A|]. split; [exact E|]. split; intros HA.
  - replace (x - _) with (a * d) by (rewrite E; lra). apply Rabs_def1; nra.
  - rewrite plus_IZR. replace (x - _) with (a * d - d) by (rewrite E; lra). apply Rabs_def1; nra.
Qed.

(** ** The four corners together *)
Lemma four_bounds : forall lo hi (f : Z -> R) tag a b cW cE rS rN N (nc nr : Z -> Prop),
  0 <= a <= 1 -> 0 <= b <= 1 ->
  (a < 1 -> nc cW) -> (0 < a -> nc cE) -> (b < 1 -> nr rS) -> (0 < b -> nr rN) ->
  (forall j i, nc j -> nr i -> rock (tag (j + i * N)%Z) -> bnd lo hi (f (j + i * N)%Z)) ->
  (forall j, nc j -> (b < 1 /\ rock (tag (j + rS * N)%Z)) \/ (0 < b /\ rock (tag (j + rN * N)%Z))) ->
  bnd lo hi (replaced f tag (Corners (cW + rS * N) (cE + rS * N) (cW + rN * N) (cE + rN * N)) a b).
Proof.
  intros lo hi f tag a b cW cE rS rN N nc nr Ha Hb HcW HcE HrS HrN HF HX.
  rewrite replaced_columns. cbn [iSW iSE iNW iNE].
  apply two_columns; [exact Ha|intros A; specialize (HcW A)|intros A; specialize (HcE A)];
    apply column_bounds; try exact Hb; try (intros B C; apply HF; auto; fail); apply HX; assumption.
Qed.

Lemma four_linear : forall (f : Z -> R) tag a b cW cE rS rN N A B C px pz x z,
  (forall k, rock (tag k)) ->
  (forall j i, (j = cW \/ j = cE) -> (i = rS \/ i = rN) -> f (j + i * N)%Z = A + B * px j + C * pz i) ->
  (1 - a) * px cW + a * px cE = x -> (1 - b) * pz rS + b * pz rN = z ->
  replaced f tag (Corners (cW + rS * N) (cE + rS * N) (cW + rN * N) (cE + rN * N)) a b = A + B * x + C * z.
Proof.
  intros f tag a b cW cE rS rN N A B C px pz x z HT HF Hx Hz.
  rewrite replaced_columns. cbn [iSW iSE iNW iNE]. unfold pick.
  repeat match goal with |- context [rockb ?t] => destruct (rockb_spec t) as [_|K]; [|exfalso; apply K; apply HT] end.
  rewrite !HF by tauto. rewrite <- Hx, <- Hz. ring.
Qed.

(** ** Dropped air nodes *)
Lemma dropped_weight : forall lo hi w1 w2 w3 w4 v1 v2 v3 v4 (r1 r2 r3 r4 : bool),
  0 <= w1 -> 0 <= w2 -> 0 <= w3 -> 0 <= w4 ->
  (0 < w1 -> r1 = true -> bnd lo hi v1) -> (0 < w2 -> r2 = true -> bnd lo hi v2) ->
  (0 < w3 -> r3 = true -> bnd lo hi v3) -> (0 < w4 -> r4 = true -> bnd lo hi v4) ->
  let V := when0 r1 (w1 * v1) + when0 r2 (w2 * v2) + when0 r3 (w3 * v3) + when0 r4 (w4 * v4) in
  let W := when0 r1 w1 + when0 r2 w2 + when0 r3 w3 + when0 r4 w4 in
  0 <= W /\ lo * W <= V <= hi * W.
Proof.
  assert (K : forall lo hi w v (r : bool), 0 <= w -> (0 < w -> r = true -> bnd lo hi v) ->
    0 <= when0 r w /\ lo * when0 r w <= when0 r (w * v) <= hi * when0 r w).
  { unfold bnd, when0. intros lo hi w v r Hw H. destruct r; [|lra]. destruct (Rle_lt_dec w 0).
    - assert (w = 0) by lra. subst w. lra.
    - specialize (H ltac:(lra) eq_refl). split; [lra|]. nra. }
  intros lo hi w1 w2 w3 w4 v1 v2 v3 v4 r1 r2 r3 r4 H1 H2 H3 H4 B1 B2 B3 B4 V W.
  pose proof (K lo hi w1 v1 r1 H1 B1). pose proof (K lo hi w2 v2 r2 H2 B2).
  pose proof (K lo hi w3 v3 r3 H3 B3). pose proof (K lo hi w4 v4 r4 H4 B4).
  unfold V, W. split; [lra|]. rewrite !Rmult_plus_distr_l. lra.
Qed.

Lemma normalise_bounds : forall lo hi V W, 0 <= W -> lo * W <= V <= hi * W ->
  (eps13 < W -> bnd lo hi (normalise V W)) /\ (W <= eps13 -> normalise V W = V).
Proof.
  intros lo hi V W HW HV. unfold normalise, bnd. pose proof eps13_range as E.
  destruct (Rltb_spec eps13 W) as [L|L]; split; intros H; try lra.
  split.
  - apply Rmult_le_reg_r with W; [lra|]. unfold Rdiv. rewrite Rmult_assoc, Rinv_l by lra. lra.
  - apply Rmult_le_reg_r with W; [lra|]. unfold Rdiv. rewrite Rmult_assoc, Rinv_l by lra. lra.
Qed.

(** ** The lines close to the marker are the two used *)
Lemma axis_only : forall n p0 d x i, (1 <= n)%Z -> 0 < d -> p0 - d / 2 <= x <= p0 - d / 2 + IZR n * d ->
  (0 <= i < n)%Z -> close d x (p0 + IZR i * d) ->
  let j := below (x - (p0 - d)) d in let a := (x - (p0 - d + IZR j * d)) / d in
  (a < 1 /\ i = colW false n j) \/ (0 < a /\ i = colE false n j).
Proof.
  intros n p0 d x i Hn Hd Hx Hi HC j a.
  pose proof (axis false n p0 d x Hn Hd Hx) as A. cbv zeta in A. fold j in A. fold a in A.
  destruct A as (J & A & E & _). clearbody j a. unfold close in HC. apply Rabs_def2 in HC. destruct HC as (C1 & C2).
  assert (K1 : IZR j - 1 + a - IZR i < 1) by nra. assert (K2 : -1 < IZR j - 1 + a - IZR i) by nra.
  assert (L1 : (j - 2 < i)%Z) by (apply lt_IZR; rewrite minus_IZR; lra).
  assert (L2 : (i < j + 1)%Z) by (apply lt_IZR; rewrite plus_IZR; lra).
  unfold colW, colE. assert (i = j - 1 \/ i = j)%Z as [->| ->] by lia.
  - left. rewrite minus_IZR in K1. split; [lra|]. destruct (Z.eqb_spec j 0); lia.
  - right. split; [lra|]. destruct (Z.eqb_spec j n); lia.
Qed.

Lemma vaxis_only : forall n p0 d x i, (2 <= n)%Z -> 0 < d -> p0 <= x <= p0 + IZR (n - 1) * d ->
  (0 <= i < n)%Z -> close d x (p0 + IZR i * d) ->
  let j0 := below (x - p0) d in let j := if (j0 <? 0)%Z then 0%Z else j0 in let a := (x - (p0 + IZR j * d)) / d in
  (a < 1 /\ i = j) \/ (0 < a /\ i = (j + 1)%Z).
Proof.
  intros n p0 d x i Hn Hd Hx Hi HC j0 j a.
  pose proof (vaxis n p0 d x Hn Hd Hx) as A. cbv zeta in A. fold j0 in A. fold j in A. fold a in A.
  destruct A as (J & A & E & _). clearbody j a. unfold close in HC. apply Rabs_def2 in HC. destruct HC as (C1 & C2).
  assert (K1 : IZR j + a - IZR i < 1) by nra. assert (K2 : -1 < IZR j + a - IZR i) by nra.
  assert (L1 : (j - 1 < i)%Z) by (apply lt_IZR; rewrite minus_IZR; lra).
  assert (L2 : (i < j + 2)%Z) by (apply lt_IZR; rewrite plus_IZR; lra).
  assert (i = j \/ i = j + 1)%Z as [->| ->] by lia.
  - left. split; [lra|reflexivity].
  - right. rewrite plus_IZR in K2. split; [lra|reflexivity].
Qed.

(** ** The two kinds of fields in the coordinates of the mesh *)
Section Mesh.
Variable m : mesh.
Hypothesis OK : mesh_ok m.
Notation nx := (NX m - 1)%Z.
Notation nz := (NZ m - 1)%Z.

Lemma xvz_affine : forall j, xvz m j = xc m 0 - DX m + IZR j * DX m.
Proof. intros. unfold xvz, xc. lra. Qed.
Lemma zvx_affine : forall i, zvx m i = zc m 0 - DZ m + IZR i * DZ m.
Proof. intros. unfold zvx, zc. lra. Qed.
Lemma xc_affine : forall j, xc m j = xc m 0 + IZR j * DX m.
Proof. intros. unfold xc. lra. Qed.
Lemma zc_affine : forall i, zc m i = zc m 0 + IZR i * DZ m.
Proof. intros. unfold zc. lra. Qed.
Lemma xg_affine : forall j, xg m j = xg m 0 + IZR j * DX m.
Proof. intros. unfold xg. lra. Qed.
Lemma zg_affine : forall i, zg m i = zg m 0 + IZR i * DZ m.
Proof. intros. unfold zg. lra. Qed.

Lemma centre_facts : forall per x z, inside m x z ->
  let j := below (x - xvz m 0) (DX m) in let i := below (z - zvx m 0) (DZ m) in
  let a := (x - xvz m j) / DX m in let b := (z - zvx m i) / DZ m in
  exists cW cE rS rN,
    centre_corners per nx nz i j = Some (Corners (cW + rS * nx) (cE + rS * nx) (cW + rN * nx) (cE + rN * nx))%Z /\
    0 < a <= 1 /\ 0 < b <= 1 /\
    (a < 1 -> near_col per m x cW) /\ near_col per m x cE /\
    (b < 1 -> near_row m z rS) /\ near_row m z rN /\
    (forall i', near_row m z i' -> (b < 1 /\ i' = rS) \/ (0 < b /\ i' = rN)) /\
    (xc m 0 <= x <= xc m (nx - 1) -> (1 - a) * xc m cW + a * xc m cE = x) /\
    (zc m 0 <= z <= zc m (nz - 1) -> (1 - b) * zc m rS + b * zc m rN = z) /\
    (0 <= cW < nx)%Z /\ (0 <= cE < nx)%Z /\ (0 <= rS < nz)%Z /\ (0 <= rN < nz)%Z /\
    cW = colW per nx j /\ cE = colE per nx j /\ rS = colW false nz i /\ rN = colE false nz i.
Proof.
  destruct OK as (NXp & NZp & DXp & DZp). intros per x z (Hx & Hz).
  assert (Hx' : xc m 0 - DX m / 2 <= x <= xc m 0 - DX m / 2 + IZR nx * DX m) by (unfold xc, xg in *; lra).
  assert (Hz' : zc m 0 - DZ m / 2 <= z <= zc m 0 - DZ m / 2 + IZR nz * DZ m) by (unfold zc, zg in *; lra).
  assert (X1 : (1 <= nx)%Z) by lia. assert (Z1 : (1 <= nz)%Z) by lia.
  assert (EX : xvz m 0 = xc m 0 - DX m) by (rewrite xvz_affine; lra).
  assert (EZ : zvx m 0 = zc m 0 - DZ m) by (rewrite zvx_affine; lra).
  cbv zeta. rewrite EX, EZ. rewrite xvz_affine, zvx_affine.
  pose proof (axis per nx (xc m 0) (DX m) x X1 DXp Hx') as A.
  pose proof (axis false nz (zc m 0) (DZ m) z Z1 DZp Hz') as B.
  pose proof (fun i' => axis_only nz (zc m 0) (DZ m) z i' Z1 DZp Hz') as BO.
  pose proof (axis_linear per nx (xc m 0) (DX m) x X1 DXp) as AL.
  pose proof (axis_linear false nz (zc m 0) (DZ m) z Z1 DZp) as BL.
  cbv zeta in A, B, BO, AL, BL.
  set (j := below (x - (xc m 0 - DX m)) (DX m)) in *. set (i := below (z - (zc m 0 - DZ m)) (DZ m)) in *.
  set (a := (x - (xc m 0 - DX m + IZR j * DX m)) / DX m) in *. set (b := (z - (zc m 0 - DZ m + IZR i * DZ m)) / DZ m) in *.
  destruct A as (J & A & _ & RW & RE & AW & AE). destruct B as (I & B & _ & RS & RN & BS & BN).
  exists (colW per nx j), (colE per nx j), (colW false nz i), (colE false nz i).
  split; [apply centre_corners_spec; assumption|]. split; [exact A|]. split; [exact B|].
  assert (WID : width m = IZR nx * DX m) by (unfold width, xg; lra).
  split; [intros H; split; [exact RW|rewrite xc_affine, WID; destruct (AW H) as [K|(K & K')]; [left; exact K|right; split; [exact K|left; exact K']]]|].
  split; [split; [exact RE|rewrite xc_affine, WID; destruct AE as [K|(K & K')]; [left; exact K|right; split; [exact K|right; exact K']]]|].
  split; [intros H; split; [exact RS|rewrite zc_affine; destruct (BS H) as [K|(K & _)]; [exact K|discriminate]]|].
  split; [split; [exact RN|rewrite zc_affine; destruct BN as [K|(K & _)]; [exact K|discriminate]]|].
  split; [intros i' (Hi' & Ci'); rewrite zc_affine in Ci'; exact (BO i' Hi' Ci')|].
  split; [intros K; rewrite (xc_affine (nx - 1)) in K; rewrite (xc_affine (colW per nx j)), (xc_affine (colE per nx j)); exact (AL K)|].
  split; [intros K; rewrite (zc_affine (nz - 1)) in K; rewrite (zc_affine (colW false nz i)), (zc_affine (colE false nz i)); exact (BL K)|].
  repeat split; lia.
Qed.

Lemma vertex_facts : forall x z, inside m x z ->
  let j0 := below (x - xg m 0) (DX m) in let j := if (j0 <? 0)%Z then 0%Z else j0 in
  let i0 := below (z - zg m 0) (DZ m) in let i := if (i0 <? 0)%Z then 0%Z else i0 in
  let a := (x - xg m j) / DX m in let b := (z - zg m i) / DZ m in
  (0 <= j <= NX m - 2)%Z /\ (0 <= i <= NZ m - 2)%Z /\ 0 <= a <= 1 /\ 0 <= b <= 1 /\
  xg m j <= x /\ zg m i <= z /\
  (a < 1 -> near_vcol m x j) /\ (0 < a -> near_vcol m x (j + 1)) /\
  (b < 1 -> near_vrow m z i) /\ (0 < b -> near_vrow m z (i + 1)) /\
  (forall i', near_vrow m z i' -> (b < 1 /\ i' = i) \/ (0 < b /\ i' = (i + 1)%Z)) /\
  (1 - a) * xg m j + a * xg m (j + 1) = x /\ (1 - b) * zg m i + b * zg m (i + 1) = z.
Proof.
  destruct OK as (NXp & NZp & DXp & DZp). intros x z (Hx & Hz).
  assert (Hx' : xg m 0 <= x <= xg m 0 + IZR nx * DX m) by (rewrite (xg_affine nx) in Hx; exact Hx).
  assert (Hz' : zg m 0 <= z <= zg m 0 + IZR nz * DZ m) by (rewrite (zg_affine nz) in Hz; exact Hz).
  pose proof (vaxis (NX m) (xg m 0) (DX m) x NXp DXp Hx') as A.
  pose proof (vaxis (NZ m) (zg m 0) (DZ m) z NZp DZp Hz') as B.
  pose proof (fun i' => vaxis_only (NZ m) (zg m 0) (DZ m) z i' NZp DZp Hz') as BO.
  cbv zeta in *.
  set (j := if (below (x - xg m 0) (DX m) <? 0)%Z then 0%Z else below (x - xg m 0) (DX m)) in *.
  set (i := if (below (z - zg m 0) (DZ m) <? 0)%Z then 0%Z else below (z - zg m 0) (DZ m)) in *.
  rewrite (xg_affine j), (zg_affine i), (xg_affine (j + 1)), (zg_affine (i + 1)).
  set (a := (x - (xg m 0 + IZR j * DX m)) / DX m) in *. set (b := (z - (zg m 0 + IZR i * DZ m)) / DZ m) in *.
  destruct A as (J & A & Ex & AW & AE). destruct B as (I & B & Ez & BS & BN). clearbody a b j i.
  split; [exact J|]. split; [exact I|]. split; [exact A|]. split; [exact B|].
  split; [nra|]. split; [nra|].
  split; [intros K; split; [lia|rewrite xg_affine; auto]|]. split; [intros K; split; [lia|rewrite xg_affine; auto]|].
  split; [intros K; split; [lia|rewrite zg_affine; auto]|]. split; [intros K; split; [lia|rewrite zg_affine; auto]|].
  split; [intros i' (Hi & Ci); rewrite zg_affine in Ci; auto|].
  rewrite !plus_IZR. split; [rewrite Ex|rewrite Ez]; ring.
Qed.
End Mesh.

(** ** Nodes at most half a spacing away carry at least a quarter of the weight *)
Lemma Rabs_le_inv : forall r b, Rabs r <= b -> - b <= r <= b.
Proof. intros r b H. unfold Rabs in H. destruct (Rcase_abs r); lra. Qed.
Definition own (d p q : R) : Prop := Rabs (p - q) <= d / 2.

Lemma axis_own : forall per n p0 d x i, (1 <= n)%Z -> 0 < d -> p0 - d / 2 <= x <= p0 - d / 2 + IZR n * d ->
  (0 <= i < n)%Z -> own d x (p0 + IZR i * d) ->
  let j := below (x - (p0 - d)) d in let a := (x - (p0 - d + IZR j * d)) / d in
  (a <= 1 / 2 /\ i = colW per n j) \/ (1 / 2 <= a /\ i = colE per n j).
Proof.
  intros per n p0 d x i Hn Hd Hx Hi HC j a.
  pose proof (axis false n p0 d x Hn Hd Hx) as A. cbv zeta in A. fold j in A. fold a in A.
  destruct A as (J & A & E & _). clearbody j a. unfold own in HC. apply Rabs_le_inv in HC. destruct HC as (C1 & C2).
  assert (K1 : IZR j - 1 + a - IZR i <= 1 / 2) by nra. assert (K2 : - (1 / 2) <= IZR j - 1 + a - IZR i) by nra.
  assert (L1 : (j - 2 < i)%Z) by (apply lt_IZR; rewrite minus_IZR; lra).
  assert (L2 : (i < j + 1)%Z) by (apply lt_IZR; rewrite plus_IZR; lra).
  unfold colW, colE. assert (i = j - 1 \/ i = j)%Z as [->| ->] by lia.
  - left. rewrite minus_IZR in K1. split; [lra|]. destruct (Z.eqb_spec j 0); lia.
  - right. split; [lra|]. destruct (Z.eqb_spec j n); lia.
Qed.

Lemma dropped_bounds : forall lo hi (f : Z -> R) tag a b cW cE rS rN N (nc nr : Z -> Prop) jo io,
  0 <= a <= 1 -> 0 <= b <= 1 ->
  (a < 1 -> nc cW) -> (0 < a -> nc cE) -> (b < 1 -> nr rS) -> (0 < b -> nr rN) ->
  (forall j i, nc j -> nr i -> rock (tag (j + i * N)%Z) -> bnd lo hi (f (j + i * N)%Z)) ->
  (a <= 1 / 2 /\ jo = cW) \/ (1 / 2 <= a /\ jo = cE) -> (b <= 1 / 2 /\ io = rS) \/ (1 / 2 <= b /\ io = rN) ->
  rock (tag (jo + io * N)%Z) ->
  bnd lo hi (dropped f tag (Corners (cW + rS * N) (cE + rS * N) (cW + rN * N) (cE + rN * N)) a b).
Proof.
  intros lo hi f tag a b cW cE rS rN N nc nr jo io Ha Hb HcW HcE HrS HrN HF Hjo Hio Ho.
  unfold dropped. cbn [iSW iSE iNW iNE].
  assert (P1 : 0 <= (1 - a) * (1 - b)) by nra. assert (P2 : 0 <= a * (1 - b)) by nra.
  assert (P3 : 0 <= (1 - a) * b) by nra. assert (P4 : 0 <= a * b) by nra.
  assert (F : forall w j i, (0 < w -> nc j /\ nr i) -> 0 < w -> rockb (tag (j + i * N)%Z) = true -> bnd lo hi (f (j + i * N)%Z)).
  { intros w j i HN Hw Hr. destruct (HN Hw). apply HF; try assumption.
    destruct (rockb_spec (tag (j + i * N)%Z)); [assumption|discriminate]. }
  pose proof (dropped_weight lo hi _ _ _ _ (f (cW + rS * N)%Z) (f (cE + rS * N)%Z) (f (cW + rN * N)%Z) (f (cE + rN * N)%Z)
    (rockb (tag (cW + rS * N)%Z)) (rockb (tag (cE + rS * N)%Z)) (rockb (tag (cW + rN * N)%Z)) (rockb (tag (cE + rN * N)%Z))
    P1 P2 P3 P4) as D. cbv zeta in D.
  destruct D as (DW & DV).
  - apply F. intros. split; [apply HcW|apply HrS]; nra.
  - apply F. intros. split; [apply HcE|apply HrS]; nra.
  - apply F. intros. split; [apply HcW|apply HrN]; nra.
  - apply F. intros. split; [apply HcE|apply HrN]; nra.
  - apply (normalise_bounds lo hi _ _ DW DV).
    assert (Q : forall r w, 0 <= w -> 0 <= when0 r w) by (intros [] w Hw; cbn; lra).
    pose proof (Q (rockb (tag (cW + rS * N)%Z)) _ P1) as Q1. pose proof (Q (rockb (tag (cE + rS * N)%Z)) _ P2) as Q2.
    pose proof (Q (rockb (tag (cW + rN * N)%Z)) _ P3) as Q3. pose proof (Q (rockb (tag (cE + rN * N)%Z)) _ P4) as Q4.
    pose proof eps13_range as EP.
    assert (T : rockb (tag (jo + io * N)%Z) = true) by (destruct (rockb_spec (tag (jo + io * N)%Z)); [reflexivity|contradiction]).
    apply Rlt_le_trans with (1 / 4); [apply EP|].
    destruct Hjo as [(A1 & ->)|(A1 & ->)]; destruct Hio as [(B1 & ->)|(B1 & ->)]; rewrite T; cbn [when0].
    + assert (1 / 4 <= (1 - a) * (1 - b)) by nra. lra.
    + assert (1 / 4 <= (1 - a) * b) by nra. lra.
    + assert (1 / 4 <= a * (1 - b)) by nra. lra.
    + assert (1 / 4 <= a * b) by nra. lra.
Qed.

Lemma dropped_no_air : forall f tag c a b, (forall k, rock (tag k)) -> dropped f tag c a b = replaced f tag c a b.
Proof.
  intros f tag c a b HT. unfold dropped, replaced, pick.
  assert (T : forall k, rockb (tag k) = true) by (intros k; destruct (rockb_spec (tag k)); [reflexivity|exfalso; auto]).
  rewrite !T. cbn [when0].
  replace ((1 - a) * (1 - b) + a * (1 - b) + (1 - a) * b + a * b) with 1 by ring. apply normalise_one.
Qed.

Lemma dropped_all_air : forall (f : Z -> R) tag a b cW cE rS rN N (nc nr : Z -> Prop),
  0 <= a <= 1 -> 0 <= b <= 1 ->
  (a < 1 -> nc cW) -> (0 < a -> nc cE) -> (b < 1 -> nr rS) -> (0 < b -> nr rN) ->
  (forall j i, nc j -> nr i -> ~ rock (tag (j + i * N)%Z)) ->
  dropped f tag (Corners (cW + rS * N) (cE + rS * N) (cW + rN * N) (cE + rN * N)) a b = 0.
Proof.
  intros f tag a b cW cE rS rN N nc nr Ha Hb HcW HcE HrS HrN HA. unfold dropped. cbn [iSW iSE iNW iNE].
  assert (K : forall w j i v, (0 < w -> nc j /\ nr i) -> 0 <= w -> when0 (rockb (tag (j + i * N)%Z)) (w * v) = 0).
  { intros w j i v HN Hw. destruct (rockb_spec (tag (j + i * N)%Z)) as [T|T]; cbn; [|reflexivity].
    destruct (Rle_lt_dec w 0) as [W0|W0]; [assert (w = 0) by lra; subst; ring|]. destruct (HN W0). exfalso. eapply HA; eassumption. }
  assert (K1 : forall w j i, (0 < w -> nc j /\ nr i) -> 0 <= w -> when0 (rockb (tag (j + i * N)%Z)) w = 0).
  { intros w j i HN Hw. rewrite <- (K w j i 1 HN Hw). now rewrite Rmult_1_r. }
  rewrite !K by (try (intros; split; [apply HcW || apply HcE|apply HrS || apply HrN]; nra); nra).
  rewrite !K1 by (try (intros; split; [apply HcW || apply HcE|apply HrS || apply HrN]; nra); nra).
  unfold normalise. pose proof eps13_range. destruct (Rltb_spec eps13 (0 + 0 + 0 + 0)); lra.
Qed.

Section Mesh2.
Variable m : mesh.
Hypothesis OK : mesh_ok m.
Notation nx := (NX m - 1)%Z.
Notation nz := (NZ m - 1)%Z.

(** The cells (vertices) at most half a spacing away. *)
Definition own_cell (x z : R) (j i : Z) : Prop :=
  (0 <= j < nx)%Z /\ (0 <= i < nz)%Z /\ own (DX m) x (xc m j) /\ own (DZ m) z (zc m i).
Definition own_vertex (x z : R) (j i : Z) : Prop :=
  (0 <= j < NX m)%Z /\ (0 <= i < NZ m)%Z /\ own (DX m) x (xg m j) /\ own (DZ m) z (zg m i).

Lemma centre_own : forall per x z jo io, inside m x z -> own_cell x z jo io ->
  let j := below (x - xvz m 0) (DX m) in let i := below (z - zvx m 0) (DZ m) in
  let a := (x - xvz m j) / DX m in let b := (z - zvx m i) / DZ m in
  ((a <= 1 / 2 /\ jo = colW per nx j) \/ (1 / 2 <= a /\ jo = colE per nx j)) /\
  ((b <= 1 / 2 /\ io = colW false nz i) \/ (1 / 2 <= b /\ io = colE false nz i)).
Proof.
  destruct OK as (NXp & NZp & DXp & DZp). intros per x z jo io (Hx & Hz) (Rj & Ri & Oj & Oi).
  assert (Hx' : xc m 0 - DX m / 2 <= x <= xc m 0 - DX m / 2 + IZR nx * DX m) by (unfold xc, xg in *; lra).
  assert (Hz' : zc m 0 - DZ m / 2 <= z <= zc m 0 - DZ m / 2 + IZR nz * DZ m) by (unfold zc, zg in *; lra).
  assert (EX : xvz m 0 = xc m 0 - DX m) by (unfold xvz, xc; lra).
  assert (EZ : zvx m 0 = zc m 0 - DZ m) by (unfold zvx, zc; lra).
  cbv zeta. rewrite EX, EZ, xvz_affine, zvx_affine. rewrite xc_affine in Oj. rewrite zc_affine in Oi. split.
  - apply (axis_own per nx (xc m 0) (DX m) x jo); try assumption; lia.
  - apply (axis_own false nz (zc m 0) (DZ m) z io); try assumption; lia.
Qed.

Lemma vertex_own : forall x z jo io, inside m x z -> own_vertex x z jo io ->
  let j0 := below (x - xg m 0) (DX m) in let j := if (j0 <? 0)%Z then 0%Z else j0 in
  let i0 := below (z - zg m 0) (DZ m) in let i := if (i0 <? 0)%Z then 0%Z else i0 in
  let a := (x - xg m j) / DX m in let b := (z - zg m i) / DZ m in
  ((a <= 1 / 2 /\ jo = j) \/ (1 / 2 <= a /\ jo = (j + 1)%Z)) /\
  ((b <= 1 / 2 /\ io = i) \/ (1 / 2 <= b /\ io = (i + 1)%Z)).
Proof.
  destruct OK as (NXp & NZp & DXp & DZp). intros x z jo io Hin (Rj & Ri & Oj & Oi).
  pose proof (vertex_facts m OK x z Hin) as V. cbv zeta in *.
  set (j := if (below (x - xg m 0) (DX m) <? 0)%Z then 0%Z else below (x - xg m 0) (DX m)) in *.
  set (i := if (below (z - zg m 0) (DZ m) <? 0)%Z then 0%Z else below (z - zg m 0) (DZ m)) in *.
  destruct V as (J & I & A & B & _ & _ & _ & _ & _ & _ & _ & LX & LZ).
  set (a := (x - xg m j) / DX m) in *. set (b := (z - zg m i) / DZ m) in *. clearbody a b.
  assert (K : forall n d t jo j, 0 < d -> (0 <= j <= n - 2)%Z -> 0 <= t <= 1 -> - (d / 2) <= (IZR j + t - IZR jo) * d <= d / 2 ->
     (t <= 1 / 2 /\ jo = j) \/ (1 / 2 <= t /\ jo = (j + 1)%Z)).
  { intros n d t jo' j' Dp Jr T (C1 & C2).
    assert (K1 : IZR j' + t - IZR jo' <= 1 / 2) by nra. assert (K2 : - (1 / 2) <= IZR j' + t - IZR jo') by nra.
    assert (L1 : (j' - 1 < jo')%Z) by (apply lt_IZR; rewrite minus_IZR; lra).
    assert (L2 : (jo' < j' + 2)%Z) by (apply lt_IZR; rewrite plus_IZR; lra).
    assert (jo' = j' \/ jo' = j' + 1)%Z as [->| ->] by lia; [left|right; rewrite plus_IZR in *]; split; try lra; reflexivity. }
  unfold own in Oj, Oi. apply Rabs_le_inv in Oj, Oi.
  assert (X : x = xg m 0 + (IZR j + a) * DX m) by (rewrite <- LX; unfold xg; rewrite plus_IZR; ring).
  assert (Zz : z = zg m 0 + (IZR i + b) * DZ m) by (rewrite <- LZ; unfold zg; rewrite plus_IZR; ring).
  rewrite X, (xg_affine m jo) in Oj. rewrite Zz, (zg_affine m io) in Oi.
  split; [apply (K (NX m) (DX m)); try assumption; lra|apply (K (NZ m) (DZ m)); try assumption; lra].
Qed.
End Mesh2.

(** ** Strain increments *)
(** One axis: [p0] first centre, [n] centres. *)
Lemma saxis : forall n p0 d x, (3 <= n)%Z -> 0 < d -> p0 - d / 2 <= x <= p0 - d / 2 + IZR n * d ->
  let j := vcell n (below (Rabs (x - p0)) d) in let a := (x - (p0 + IZR j * d)) / d in
  (0 <= j <= n - 2)%Z /\ ((0 < j < n - 2)%Z -> 0 <= a <= 1) /\
  Rabs (x - (p0 + IZR j * d)) <= 3 / 2 * d /\ Rabs (x - (p0 + IZR (j + 1) * d)) <= 3 / 2 * d.
Proof.
  intros n p0 d x Hn Hd Hx j a.
  destruct (Zceil_spec (Rabs (x - p0) / d)) as (C1 & C2).
  set (k := below (Rabs (x - p0)) d) in *.
  assert (Ek : IZR k = IZR (Zceil (Rabs (x - p0) / d)) - 1) by (unfold k, below; now rewrite minus_IZR).
  set (t := Rabs (x - p0) / d) in *. assert (Et : Rabs (x - p0) = t * d) by (unfold t; field; lra).
  set (s := (x - p0) / d). assert (Es : x = p0 + s * d) by (unfold s; field; lra).
  assert (S0 : - (1 / 2) <= s) by nra. assert (S1 : s <= IZR n - 1 / 2) by nra.
  assert (TS : (0 <= s /\ t = s) \/ (s < 0 /\ t = - s)).
  { unfold Rabs in Et. destruct (Rcase_abs (x - p0)); [right|left]; split; nra. }
  assert (As : a = s - IZR j) by (unfold a; rewrite Es; field; lra).
  assert (K : (k <= n - 1)%Z) by (apply Z.lt_succ_r; apply lt_IZR; rewrite succ_IZR, minus_IZR; assert (2 < IZR n) by (apply IZR_lt; lia); lra).
  assert (D : (k <= 0 /\ j = 0)%Z \/ (0 < k <= n - 2 /\ j = k)%Z \/ (k = n - 1 /\ j = n - 2)%Z).
  { unfold j, vcell. cbv zeta. destruct (Z.ltb_spec k 0); [left; destruct (Z.ltb_spec (n - 2) 0); lia|].
    destruct (Z.ltb_spec (n - 2) k); lia. }
  assert (AB : - (3 / 2) <= s - IZR j <= 3 / 2 /\ - (3 / 2) <= s - IZR j - 1 <= 3 / 2 /\ ((0 < j < n - 2)%Z -> 0 <= s - IZR j <= 1)).
  { destruct D as [(D & ->)|[(D & ->)|(D & ->)]].
    - assert (IZR k <= 0) by (apply IZR_le; lia). cbn. split; [lra|]. split; [lra|lia].
    - assert (1 <= IZR k) by (apply IZR_le; lia). destruct TS as [(T0 & T1)|(T0 & T1)]; split; try lra; split; intros; lra.
    - rewrite D in *. rewrite minus_IZR in *. assert (2 < IZR n) by (apply IZR_lt; lia).
      destruct TS as [(T0 & T1)|(T0 & T1)]; split; try lra; split; try lra; lia. }
  destruct AB as (B1 & B2 & B3). rewrite As. split; [lia|]. split; [exact B3|].
  rewrite plus_IZR. rewrite Es. clearbody j. split; apply Rabs_le; nra.
Qed.

Lemma put_true : forall w v s, put true w v s = (fst s + w * v, snd s + w).
Proof. reflexivity. Qed.

Lemma normalise_zero : forall v, normalise v 0 = v.
Proof. intros. unfold normalise. pose proof eps13_range. destruct (Rltb_spec eps13 0); lra. Qed.

Lemma mean2 : forall lo hi t u v, 0 <= t <= 1 -> bnd lo hi u -> bnd lo hi v ->
  bnd lo hi (fst (divide (divide (0 + (1 - t) * u + t * v, 0 + (1 - t) + t)))).
Proof.
  intros lo hi t u v Ht Hu Hv. unfold divide. cbn [fst snd]. replace (0 + (1 - t) + t) with 1 by ring.
  rewrite !normalise_one. unfold bnd in *. nra.
Qed.
