(** * Specification and lemmas for C50 *)
From Coq Require Import ZArith Reals List Bool Lia Lra Psatz.
Import ListNotations.
From Verif Require Import P2GModel.
Local Open Scope R_scope.

(** ** Specification: the hat function *)
Definition hat (h d : R) : R := Rmax 0 (1 - Rabs d / h).
(** Weight of a marker at node (i,j): product of hats of the coordinate
    differences; in a laterally periodic grid of period [L] the images count. *)
Definition hat_weight (hx hz X Z x z : R) : R := hat hx (X - x) * hat hz (Z - z).
Definition hat_weight_periodic (L hx hz X Z x z : R) : R :=
  (hat hx (X - L - x) + hat hx (X - x) + hat hx (X + L - x)) * hat hz (Z - z).
Definition active (m : marker) : Prop := mph m <> (-1)%Z.
Definition in_domain (xmin xmax zmin zmax : R) (m : marker) : Prop :=
  xmin <= mx m <= xmax /\ zmin <= mz m <= zmax.

(** ** Rounding *)
Lemma Zceil_spec : forall r, r <= IZR (Zceil r) < r + 1.
Proof.
  intros r. unfold Zceil. rewrite minus_IZR. destruct (archimed (- r)). lra.
Qed.

Lemma nearest_range : forall x x0 d n, (0 < n)%Z -> (0 <= nearest x x0 d n < n)%Z.
Proof.
  intros. unfold nearest. set (c := (Zceil _ - 1)%Z). clearbody c.
  destruct (c <? 0)%Z eqn:A; [|apply Z.ltb_ge in A]; destruct (n - 1 <? _)%Z eqn:B;
    rewrite ?Z.ltb_lt, ?Z.ltb_ge in B; lia.
Qed.

Lemma nearest_close : forall x x0 d n, 0 < d -> (0 < n)%Z ->
  x0 - d / 2 <= x <= x0 + (IZR n - 1) * d + d / 2 ->
  Rabs (x0 + IZR (nearest x x0 d n) * d - x) <= d / 2.
Proof.
  intros x x0 d n D N (L & U).
  destruct (Zceil_spec ((x - x0) / d + / 2)) as (C1 & C2).
  unfold nearest. set (c := (Zceil ((x - x0) / d + / 2) - 1)%Z).
  assert (E : x = x0 + (x - x0) / d * d) by (field; lra).
  set (q := (x - x0) / d) in *.
  assert (Cc : IZR c = IZR (Zceil (q + / 2)) - 1) by (unfold c; now rewrite minus_IZR). 
  assert (B1 : q - / 2 <= IZR c < q + / 2) by lra. clearbody c. clear C1 C2 Cc.
  assert (Lq : - / 2 <= q) by nra.
  assert (Uq : q <= IZR n - 1 + / 2) by nra.
  assert (c <= n - 1)%Z. { apply Z.lt_succ_r. apply lt_IZR. rewrite succ_IZR, minus_IZR. lra. }
  destruct (c <? 0)%Z eqn:A.
  - apply Z.ltb_lt in A. replace (n - 1 <? 0)%Z with false by (symmetry; apply Z.ltb_ge; lia).
    assert (c <= -1)%Z by lia. apply IZR_le in H0.
    apply Rabs_le. nra.
  - apply Z.ltb_ge in A. replace (n - 1 <? c)%Z with false by (symmetry; apply Z.ltb_ge; lia).
    rewrite E. apply Rabs_le. nra.
Qed.

(** ** One direction *)
Definition offE (per : bool) (ip N : Z) : Z := if (ip =? N - 1)%Z && per then (- (N - 1))%Z else 1%Z.
Definition offW (per : bool) (ip N : Z) : Z := if (ip =? 0)%Z && per then (N - 1)%Z else (- (1))%Z.
Definition hasE (per : bool) (ip N : Z) : bool := (ip <? N - 1)%Z || ((ip =? N - 1)%Z && per).
Definition hasW (per : bool) (ip N : Z) : bool := (0 <? ip)%Z || ((ip =? 0)%Z && per).

Definition cands (s : stencil) (per : bool) (ip N : Z) (c e w : R) : list (Z * R) :=
  (ip, c) :: match s with OneCell => [] | NineCell =>
    when (hasE per ip N) ((ip + offE per ip N)%Z, e) ++ when (hasW per ip N) ((ip + offW per ip N)%Z, w) end.

Lemma cands_sum : forall s (H : Z -> R) N ip i per, (0 <= ip < N)%Z -> (0 <= i < N)%Z ->
  (forall k, (k < ip - 1 \/ ip + 1 < k)%Z -> H k = 0) ->
  (s = OneCell -> H (ip - 1)%Z = 0 /\ H (ip + 1)%Z = 0) ->
  at_node i (cands s per ip N (H ip) (H (ip + 1)%Z) (H (ip - 1)%Z)) =
  if per then H (i - N)%Z + H i + H (i + N)%Z else H i.
Proof.
  intros s H N ip i per Hip Hi Z0 One.
  assert (R0 : forall k, k <> ip -> k <> (ip + 1)%Z -> k <> (ip - 1)%Z -> H k = 0) by (intros; apply Z0; lia).
  assert (E1 : forall k, k = ip -> H k = H ip) by (intros; now subst).
  assert (E2 : forall k, k = (ip + 1)%Z -> H k = H (ip + 1)%Z) by (intros; now subst).
  assert (E3 : forall k, k = (ip - 1)%Z -> H k = H (ip - 1)%Z) by (intros; now subst).
  assert (V : forall k, (k = ip /\ H k = H ip) \/ (k = (ip + 1)%Z /\ H k = H (ip + 1)%Z) \/
     (k = (ip - 1)%Z /\ H k = H (ip - 1)%Z) \/ (k <> ip /\ k <> (ip + 1)%Z /\ k <> (ip - 1)%Z /\ H k = 0)).
  { intros k. destruct (Z.eq_dec k ip); [left; auto|]. destruct (Z.eq_dec k (ip + 1)); [right; left; auto|].
    destruct (Z.eq_dec k (ip - 1)); [right; right; left; auto|]. right; right; right. repeat split; auto. }
  destruct s.
  - destruct (One eq_refl) as (O1 & O2). cbn [cands at_node fold_right fst snd].
    destruct (Z.eqb_spec ip i).
    + subst i. destruct per; [|lra].
      destruct (V (ip - N)%Z) as [(?&->)|[(?&->)|[(?&->)|(?&?&?&->)]]]; try lia;
      destruct (V (ip + N)%Z) as [(?&->)|[(?&->)|[(?&->)|(?&?&?&->)]]]; try lia; lra.
    + destruct (V i) as [(?&->)|[(?&->)|[(?&->)|(?&?&?&->)]]]; try lia; destruct per; try lra;
      destruct (V (i - N)%Z) as [(?&->)|[(?&->)|[(?&->)|(?&?&?&->)]]]; try lia;
      destruct (V (i + N)%Z) as [(?&->)|[(?&->)|[(?&->)|(?&?&?&->)]]]; try lia; lra.
  - clear One. unfold cands, hasE, hasW, offE, offW, when.
    destruct per; rewrite ?andb_true_r, ?andb_false_r, ?orb_false_r.
    + destruct (Z.eqb_spec ip (N - 1)), (Z.eqb_spec ip 0), (Z.ltb_spec ip (N - 1)), (Z.ltb_spec 0 ip); try lia;
      cbn [orb app at_node fold_right fst snd];
      repeat match goal with |- context [(?a =? ?b)%Z] => destruct (Z.eqb_spec a b) end; try lia;
      destruct (V i) as [(?&->)|[(?&->)|[(?&->)|(?&?&?&->)]]]; try lia;
      destruct (V (i - N)%Z) as [(?&->)|[(?&->)|[(?&->)|(?&?&?&->)]]]; try lia;
      destruct (V (i + N)%Z) as [(?&->)|[(?&->)|[(?&->)|(?&?&?&->)]]]; try lia; lra.
    + destruct (Z.ltb_spec ip (N - 1)), (Z.ltb_spec 0 ip); try lia;
      cbn [orb app at_node fold_right fst snd];
      repeat match goal with |- context [(?a =? ?b)%Z] => destruct (Z.eqb_spec a b) end; try lia;
      destruct (V i) as [(?&->)|[(?&->)|[(?&->)|(?&?&?&->)]]]; try lia; lra.
Qed.

Lemma idx_eqb : forall N a b i j, (0 <= a < N)%Z -> (0 <= i < N)%Z ->
  (a + b * N =? i + j * N)%Z = ((a =? i)%Z && (b =? j)%Z).
Proof.
  intros N a b i j A I. apply eq_true_iff_eq. rewrite andb_true_iff, !Z.eqb_eq. split; [|intros (-> & ->); lia].
  intros E. assert (b = j) by nia. subst b. lia.
Qed.

Lemma at_node_cons : forall k e l, at_node k (e :: l) = (if (fst e =? k)%Z then snd e else 0) + at_node k l.
Proof.
  intros k e l. change (at_node k (e :: l)) with (if (fst e =? k)%Z then snd e + at_node k l else at_node k l).
  destruct (_ =? _)%Z; lra.
Qed.
Lemma at_node_app : forall k l l', at_node k (l ++ l') = at_node k l + at_node k l'.
Proof. intros k l l'. induction l as [|e l IH]; cbn [app].
  - change (at_node k []) with 0. lra.
  - rewrite !at_node_cons, IH. lra.
Qed.
Lemma at_node_when : forall k (b : bool) e, at_node k (when b e) = if b && (fst e =? k)%Z then snd e else 0.
Proof. intros k [] e; cbn; [|reflexivity]. destruct (_ =? _)%Z; lra. Qed.
Lemma at_node_nil : forall k, at_node k [] = 0.
Proof. reflexivity. Qed.

Lemma contributions_product : forall s per g m i j,
  (0 <= i < gNx g)%Z -> (0 <= j < gNz g)%Z ->
  let ip := nearest (mx m) (gX g 0) (gdx g) (gNx g) in
  let jp := nearest (mz m) (gZ g 0) (gdz g) (gNz g) in
  let hx := half_width s (gdx g) in let hz := half_width s (gdz g) in
  at_node (i + j * gNx g)%Z (contributions s per g m) =
  at_node i (cands s per ip (gNx g) (1 - Rabs (gX g ip - mx m) / hx) (1 - Rabs (gX g ip + gdx g - mx m) / hx)
                                    (1 - Rabs (gX g ip - gdx g - mx m) / hx)) *
  at_node j (cands s false jp (gNz g) (1 - Rabs (gZ g jp - mz m) / hz) (1 - Rabs (gZ g jp + gdz g - mz m) / hz)
                                    (1 - Rabs (gZ g jp - gdz g - mz m) / hz)).
Proof.
  intros s per g m i j Hi Hj ip jp hx hz.
  assert (Ip := nearest_range (mx m) (gX g 0) (gdx g) (gNx g) ltac:(lia)). fold ip in Ip.
  assert (Jp := nearest_range (mz m) (gZ g 0) (gdz g) (gNz g) ltac:(lia)). fold jp in Jp.
  unfold contributions. fold ip jp. unfold w2. fold hx hz.
  generalize (1 - Rabs (gX g ip - mx m) / hx) as xc. generalize (1 - Rabs (gX g ip + gdx g - mx m) / hx) as xe.
  generalize (1 - Rabs (gX g ip - gdx g - mx m) / hx) as xw.
  generalize (1 - Rabs (gZ g jp - mz m) / hz) as zc. generalize (1 - Rabs (gZ g jp + gdz g - mz m) / hz) as zn.
  generalize (1 - Rabs (gZ g jp - gdz g - mz m) / hz) as zs.
  clearbody ip jp. intros zs zn zc xw xe xc. clear hx hz. set (N := gNx g) in *. set (M := gNz g) in *. clearbody N M.
  assert (OE : forall b, hasE per ip N = true -> (0 <= ip + (if (ip =? N - 1)%Z && per then - (N - 1) else 1) < N)%Z
     /\ (ip + b * N + (if (ip =? N - 1)%Z && per then - (N - 1) else 1))%Z =
        (ip + offE per ip N + b * N)%Z).
  { intros b HE. unfold hasE, offE in *. destruct (Z.eqb_spec ip (N - 1)), per, (Z.ltb_spec ip (N - 1)); cbn [andb orb] in *;
    try discriminate; lia. }
  assert (OW : forall b, hasW per ip N = true -> (0 <= ip + (if (ip =? 0)%Z && per then N - 1 else - (1)) < N)%Z
     /\ (ip + b * N + (if (ip =? 0)%Z && per then N - 1 else - (1)))%Z = (ip + offW per ip N + b * N)%Z).
  { intros b HW. unfold hasW, offW in *. destruct (Z.eqb_spec ip 0), per, (Z.ltb_spec 0 ip); cbn [andb orb] in *;
    try discriminate; lia. }
  destruct s.
  - unfold cands. rewrite !at_node_cons, !at_node_nil. cbn [fst snd]. rewrite idx_eqb by assumption.
    destruct (ip =? i)%Z, (jp =? j)%Z; cbn [andb]; lra.
  - unfold cands. rewrite !at_node_cons, !at_node_app, !at_node_when. cbn [fst snd].
    fold (hasE per ip N) (hasW per ip N).
    assert (FE : hasE false jp M = (jp <? M - 1)%Z) by (unfold hasE; now rewrite andb_false_r, orb_false_r).
    assert (FW : hasW false jp M = (0 <? jp)%Z) by (unfold hasW; now rewrite andb_false_r, orb_false_r).
    assert (GE : offE false jp M = 1%Z) by (unfold offE; now rewrite andb_false_r).
    assert (GW : offW false jp M = (- (1))%Z) by (unfold offW; now rewrite andb_false_r).
    rewrite FE, FW, GE, GW. replace (jp + - (1))%Z with (jp - 1)%Z by lia.
    rewrite !(idx_eqb N ip) by assumption.
    destruct (hasE per ip N) eqn:HE; [destruct (OE jp eq_refl) as (RE & _);
      rewrite ?(proj2 (OE jp eq_refl)), ?(proj2 (OE (jp + 1)%Z eq_refl)), ?(proj2 (OE (jp - 1)%Z eq_refl));
      fold (offE per ip N) in RE; rewrite !(idx_eqb N (ip + offE per ip N)) by assumption|];
    (destruct (hasW per ip N) eqn:HW; [destruct (OW jp eq_refl) as (RW & _);
      rewrite ?(proj2 (OW jp eq_refl)), ?(proj2 (OW (jp + 1)%Z eq_refl)), ?(proj2 (OW (jp - 1)%Z eq_refl));
      fold (offW per ip N) in RW; rewrite !(idx_eqb N (ip + offW per ip N)) by assumption|]);
    rewrite ?andb_true_r, ?andb_false_r; cbn [andb];
    destruct (ip =? i)%Z, (ip + offE per ip N =? i)%Z, (ip + offW per ip N =? i)%Z,
       (jp <? M - 1)%Z, (0 <? jp)%Z, (jp =? j)%Z, (jp + 1 =? j)%Z, (jp - 1 =? j)%Z; cbn [andb]; lra.
Qed.

(** ** The hat function reproduces the code's weights *)
Definition uniform (g : nodes) : Prop :=
  0 < gdx g /\ 0 < gdz g /\ (0 < gNx g)%Z /\ (0 < gNz g)%Z /\
  (forall k, gX g k = gX g 0 + IZR k * gdx g) /\ (forall k, gZ g k = gZ g 0 + IZR k * gdz g).
Definition covers (g : nodes) (m : marker) : Prop :=
  gX g 0 - gdx g / 2 <= mx m <= gX g 0 + (IZR (gNx g) - 1) * gdx g + gdx g / 2 /\
  gZ g 0 - gdz g / 2 <= mz m <= gZ g 0 + (IZR (gNz g) - 1) * gdz g + gdz g / 2.

Lemma hat_in : forall h d, 0 < h -> Rabs d <= h -> hat h d = 1 - Rabs d / h.
Proof.
  intros h d H L. unfold hat. rewrite Rmax_right; [reflexivity|].
  assert (Rabs d / h <= 1); [|lra]. apply Rmult_le_reg_r with h; [exact H|].
  replace (Rabs d / h * h) with (Rabs d) by (field; lra). lra.
Qed.
Lemma hat_out : forall h d, 0 < h -> h <= Rabs d -> hat h d = 0.
Proof.
  intros h d H L. unfold hat. rewrite Rmax_left; [reflexivity|].
  assert (1 <= Rabs d / h); [|lra]. apply Rmult_le_reg_r with h; [exact H|].
  replace (Rabs d / h * h) with (Rabs d) by (field; lra). lra.
Qed.
Lemma hat_nonneg : forall h d, 0 <= hat h d.
Proof. intros. apply Rmax_l. Qed.
Lemma half_width_pos : forall s d, 0 < d -> 0 < half_width s d.
Proof. intros [] d D; cbn; lra. Qed.

Lemma cands_hat : forall s per ip N i x0 d x, 0 < d -> (0 <= ip < N)%Z -> (0 <= i < N)%Z ->
  Rabs (x0 + IZR ip * d - x) <= d / 2 ->
  let h := half_width s d in let H := fun k => hat h (x0 + IZR k * d - x) in
  let X := x0 + IZR ip * d in
  at_node i (cands s per ip N (1 - Rabs (X - x) / h) (1 - Rabs (X + d - x) / h) (1 - Rabs (X - d - x) / h)) =
  if per then H (i - N)%Z + H i + H (i + N)%Z else H i.
Proof.
  intros s per ip N i x0 d x D Hip Hi C h H X.
  assert (Hp := half_width_pos s d D). fold h in Hp.
  assert (C' : - (d / 2) <= X - x <= d / 2) by (unfold X; revert C; unfold Rabs; destruct (Rcase_abs _); lra).
  rewrite <- (cands_sum s H N ip i per Hip Hi).
  - assert (E0 : H ip = 1 - Rabs (X - x) / h).
    { unfold H. apply hat_in; [exact Hp|]. fold X. destruct s; cbn in h; unfold h, Rabs; destruct (Rcase_abs _); lra. }
    assert (E1 : H (ip + 1)%Z = hat h (X + d - x)) by (unfold H, X; rewrite plus_IZR; f_equal; ring).
    assert (E2 : H (ip - 1)%Z = hat h (X - d - x)) by (unfold H, X; rewrite minus_IZR; f_equal; ring).
    rewrite E0, E1, E2. destruct s; [reflexivity|]. cbn in h.
    rewrite !hat_in; [reflexivity|exact Hp| |exact Hp|];
      unfold h, Rabs; destruct (Rcase_abs _); lra.
  - intros k K. unfold H. apply hat_out; [exact Hp|].
    assert (Kd : IZR k <= IZR ip - 2 \/ IZR ip + 2 <= IZR k).
    { destruct K as [K|K]; [left|right]; [rewrite <- minus_IZR|rewrite <- plus_IZR]; apply IZR_le; lia. }
    unfold X in C'. destruct s; cbn in h; unfold h, Rabs; destruct (Rcase_abs _); destruct Kd; nra.
  - intros ->. cbn in h. unfold H. rewrite plus_IZR, minus_IZR. unfold X in C'.
    split; apply hat_out; [exact Hp| |exact Hp|]; unfold h, Rabs; destruct (Rcase_abs _); nra.
Qed.

Lemma marker_weight_hat : forall s per g m i j, uniform g -> active m -> covers g m ->
  (0 <= i < gNx g)%Z -> (0 <= j < gNz g)%Z ->
  marker_weight s per g (i + j * gNx g)%Z m =
  if per then hat_weight_periodic (IZR (gNx g) * gdx g) (half_width s (gdx g)) (half_width s (gdz g)) (gX g i) (gZ g j) (mx m) (mz m)
  else hat_weight (half_width s (gdx g)) (half_width s (gdz g)) (gX g i) (gZ g j) (mx m) (mz m).
Proof.
  intros s per g m i j (Dx & Dz & Nx & Nz & Ux & Uz) A (Cx & Cz) Hi Hj.
  unfold marker_weight. destruct (Z.eqb_spec (mph m) (-1)) as [E|_]; [now elim A|].
  rewrite contributions_product by assumption. cbv zeta.
  set (ip := nearest (mx m) (gX g 0) (gdx g) (gNx g)). set (jp := nearest (mz m) (gZ g 0) (gdz g) (gNz g)).
  assert (Ip := nearest_range (mx m) (gX g 0) (gdx g) _ Nx). fold ip in Ip.
  assert (Jp := nearest_range (mz m) (gZ g 0) (gdz g) _ Nz). fold jp in Jp.
  assert (Kx := nearest_close (mx m) (gX g 0) (gdx g) _ Dx Nx Cx). fold ip in Kx.
  assert (Kz := nearest_close (mz m) (gZ g 0) (gdz g) _ Dz Nz Cz). fold jp in Kz.
  rewrite (Ux ip), (Uz jp).
  rewrite (cands_hat s per ip (gNx g) i (gX g 0) (gdx g) (mx m)) by assumption.
  rewrite (cands_hat s false jp (gNz g) j (gZ g 0) (gdz g) (mz m)) by assumption.
  cbv zeta. rewrite minus_IZR, plus_IZR. rewrite (Ux i), (Uz j).
  destruct per; unfold hat_weight, hat_weight_periodic; [|reflexivity].
  f_equal. f_equal; [f_equal|]; f_equal; ring.
Qed.

Lemma marker_weight_nonneg : forall s per g m i j, uniform g -> (active m -> covers g m) ->
  (0 <= i < gNx g)%Z -> (0 <= j < gNz g)%Z -> 0 <= marker_weight s per g (i + j * gNx g)%Z m.
Proof.
  intros s per g m i j U C Hi Hj. destruct (Z.eq_dec (mph m) (-1)) as [E|E].
  - unfold marker_weight. rewrite E. cbn. lra.
  - rewrite marker_weight_hat by (auto). destruct per; unfold hat_weight, hat_weight_periodic;
    repeat apply Rmult_le_pos || apply Rplus_le_le_0_compat || apply hat_nonneg.
Qed.

Lemma family_uniform : forall f Nx Nz xmin zmin dx dz, (2 <= Nx)%Z -> (2 <= Nz)%Z -> 0 < dx -> 0 < dz ->
  uniform (family_nodes f Nx Nz xmin zmin dx dz).
Proof.
  intros f Nx Nz xmin zmin dx dz A B C D. destruct f; unfold uniform; cbn; repeat split; try lra; try lia; intros; ring.
Qed.

Lemma family_covers : forall f Nx Nz xmin zmin dx dz m, (2 <= Nx)%Z -> (2 <= Nz)%Z -> 0 < dx -> 0 < dz ->
  in_domain xmin (xmin + (IZR Nx - 1) * dx) zmin (zmin + (IZR Nz - 1) * dz) m ->
  covers (family_nodes f Nx Nz xmin zmin dx dz) m.
Proof.
  intros f Nx Nz xmin zmin dx dz m A B C D (X & Z). unfold covers.
  destruct f; cbn; rewrite ?minus_IZR, ?plus_IZR; repeat split; lra.
Qed.

(** ** Averages *)
Lemma sumR_nonneg : forall A (f : A -> R) l, (forall x, In x l -> 0 <= f x) -> 0 <= sumR f l.
Proof.
  intros A f l H. induction l as [|x l IH]; [cbn; lra|].
  assert (0 <= f x) by (apply H; now left). assert (0 <= sumR f l) by (apply IH; intros; apply H; now right).
  unfold sumR in *. cbn. lra.
Qed.
Lemma sumR_ext : forall A (f g : A -> R) l, (forall x, In x l -> f x = g x) -> sumR f l = sumR g l.
Proof.
  intros A f g l H. induction l as [|x l IH]; [reflexivity|]. unfold sumR in *. cbn.
  rewrite H by now left. f_equal. apply IH. intros; apply H; now right.
Qed.
Lemma sumR_cons : forall A (f : A -> R) x l, sumR f (x :: l) = f x + sumR f l.
Proof. reflexivity. Qed.
Lemma sumR_plus : forall A (f g : A -> R) l, sumR (fun x => f x + g x) l = sumR f l + sumR g l.
Proof. intros. induction l as [|x l IH]; [cbn; lra|]. rewrite !sumR_cons, IH. lra. Qed.
Lemma sumR_zero : forall A (l : list A), sumR (fun _ => 0) l = 0.
Proof. intros. induction l as [|x l IH]; [reflexivity|]. rewrite sumR_cons, IH. lra. Qed.
Lemma sumR_swap : forall A B (f : A -> B -> R) l l',
  sumR (fun x => sumR (fun y => f x y) l') l = sumR (fun y => sumR (fun x => f x y) l) l'.
Proof.
  intros. induction l as [|x l IH]; [cbn; now rewrite sumR_zero|].
  rewrite sumR_cons, IH, <- sumR_plus. reflexivity.
Qed.

(** Weighted mean between bounds that hold wherever the weight is non-zero. *)
Lemma mean_between : forall A (w v : A -> R) l lo hi,
  (forall x, In x l -> 0 <= w x) -> (forall x, In x l -> 0 < w x -> lo <= v x <= hi) -> 0 < sumR w l ->
  lo <= sumR (fun x => v x * w x) l / sumR w l <= hi.
Proof.
  intros A w v l lo hi P B S.
  assert (K : lo * sumR w l <= sumR (fun x => v x * w x) l <= hi * sumR w l).
  { clear S. induction l as [|x l IH]; [cbn; lra|]. rewrite !sumR_cons.
    assert (P0 := P x (or_introl eq_refl)).
    assert (IH' := IH (fun y Hy => P y (or_intror Hy)) (fun y Hy => B y (or_intror Hy))).
    destruct (Rle_lt_or_eq_dec _ _ P0) as [Q|Q].
    - assert (B0 := B x (or_introl eq_refl) Q). nra.
    - rewrite <- Q. lra. }
  split; apply Rmult_le_reg_r with (sumR w l); try exact S;
  replace (_ / _ * _) with (sumR (fun x => v x * w x) l) by (field; lra); lra.
Qed.
