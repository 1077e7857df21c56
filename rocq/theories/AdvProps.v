(** C43-C45, C51: markers follow the flow. *)
From Coq Require Import ZArith Reals List Bool Lia Lra Psatz Permutation.
Import ListNotations.
From Verif Require Import P2GModel P2GProofs AdvModel AdvProofs.
Local Open Scope R_scope.

(** ** C51: velocity at a marker *)
(** Specification: the value at column [j], line [i]; a regular grid; a marker on it. *)
Definition at_ (g : vgrid) (j i : Z) : R := vval g (j + i * vnx g)%Z.
Definition fluid (g : vgrid) (j i : Z) : Prop := vtag g (j + i * vnx g)%Z <> 30%Z.
Definition regular (g : vgrid) (dx dz : R) : Prop :=
  (2 <= vnx g)%Z /\ (2 <= vnz g)%Z /\ 0 < dx /\ 0 < dz /\
  (forall i, vgx g i = vgx g 0%Z + IZR i * dx) /\ (forall i, vgz g i = vgz g 0%Z + IZR i * dz).
Definition on_grid (g : vgrid) (x z : R) : Prop :=
  vgx g 0%Z <= x <= vgx g (vnx g - 1)%Z /\ vgz g 0%Z <= z <= vgz g (vnz g - 1)%Z.
Definition node (g : vgrid) (j i : Z) : Prop := (0 <= j < vnx g)%Z /\ (0 <= i < vnz g)%Z.

Lemma idx_range : forall nx nz j i, (0 <= j < nx)%Z -> (0 <= i < nz)%Z -> (0 <= j + i * nx < nx * nz)%Z.
Proof. intros. nia. Qed.

(** Whatever the position of the marker, only existing nodes are read: the result is
    determined by the entries 0 .. nx*nz-1 of the arrays. *)
Theorem C51_reads_existing_nodes : forall g g' dx dz taras x z,
  (2 <= vnx g)%Z -> (2 <= vnz g)%Z -> vnx g' = vnx g -> vnz g' = vnz g ->
  (forall i, (0 <= i < vnx g)%Z -> vgx g' i = vgx g i) -> (forall i, (0 <= i < vnz g)%Z -> vgz g' i = vgz g i) ->
  (forall k, (0 <= k < vnx g * vnz g)%Z -> vval g' k = vval g k /\ vtag g' k = vtag g k) ->
  v2p_vx dx dz taras g' x z = v2p_vx dx dz taras g x z /\ v2p_vz dx dz taras g' x z = v2p_vz dx dz taras g x z.
Proof.
  intros g g' dx dz taras x z Nx2 Nz2 Ex Ez EX EZ EV.
  unfold v2p_vx, v2p_vz. rewrite Ex, Ez. rewrite (EX 0%Z), (EZ 0%Z) by lia.
  pose proof (cell_range x (vgx g 0) dx (vnx g) Nx2) as Hj. pose proof (cell_range z (vgz g 0) dz (vnz g) Nz2) as Hi.
  set (j := cell_of x (vgx g 0) dx (vnx g)) in *. set (i := cell_of z (vgz g 0) dz (vnz g)) in *. clearbody j i.
  rewrite (EX j), (EZ i) by lia.
  assert (RV : forall a b, (0 <= a < vnx g)%Z -> (0 <= b < vnz g)%Z -> vval g' (a + b * vnx g)%Z = vval g (a + b * vnx g)%Z /\ vtag g' (a + b * vnx g)%Z = vtag g (a + b * vnx g)%Z)
    by (intros; apply EV; apply idx_range; assumption).
  replace (j + i * vnx g + 1)%Z with (j + 1 + i * vnx g)%Z by lia.
  replace (j + (i + 1) * vnx g + 1)%Z with (j + 1 + (i + 1) * vnx g)%Z by lia.
  replace (j + 1 + i * vnx g + 1)%Z with (j + 2 + i * vnx g)%Z by lia.
  replace (j + 1 + (i + 1) * vnx g + 1)%Z with (j + 2 + (i + 1) * vnx g)%Z by lia.
  replace (j + i * vnx g - 1)%Z with (j - 1 + i * vnx g)%Z by lia.
  replace (j + (i + 1) * vnx g - 1)%Z with (j - 1 + (i + 1) * vnx g)%Z by lia.
  replace (j + (i + 2) * vnx g + 1)%Z with (j + 1 + (i + 2) * vnx g)%Z by lia.
  replace (j + (i - 1) * vnx g + 1)%Z with (j + 1 + (i - 1) * vnx g)%Z by lia.
  destruct (RV j i) as [A1 A2]; [lia..|]. destruct (RV (j + 1) i)%Z as [B1 B2]; [lia..|].
  destruct (RV j (i + 1))%Z as [C1 C2]; [lia..|]. destruct (RV (j + 1) (i + 1))%Z as [D1 D2]; [lia..|].
  unfold corner_values. rewrite A1, A2, B1, B2, C1, C2, D1, D2.
  split.
  - destruct (if _ && _ then _ else _). destruct (if _ && _ then _ else _).
    destruct taras; [|reflexivity]. destruct (Rgeb _ _).
    + destruct (Z.ltb_spec j (vnx g - 2)); [|reflexivity].
      destruct (RV (j + 2) i)%Z as [F1 F2]; [lia..|]. destruct (RV (j + 2) (i + 1))%Z as [G1 G2]; [lia..|].
      now rewrite F1, F2, G1, G2.
    + destruct (Z.ltb_spec 0 j); [|reflexivity].
      destruct (RV (j - 1) i)%Z as [F1 F2]; [lia..|]. destruct (RV (j - 1) (i + 1))%Z as [G1 G2]; [lia..|].
      now rewrite F1, F2, G1, G2.
  - destruct (if _ && _ then _ else _). destruct (if _ && _ then _ else _).
    destruct taras; [|reflexivity]. destruct (Rgeb _ _).
    + destruct (Z.ltb_spec i (vnz g - 2)); [|reflexivity].
      destruct (RV j (i + 2))%Z as [F1 F2]; [lia..|]. destruct (RV (j + 1) (i + 2))%Z as [G1 G2]; [lia..|].
      now rewrite F1, F2, G1, G2.
    + destruct (Z.ltb_spec 0 i); [|reflexivity].
      destruct (RV j (i - 1))%Z as [F1 F2]; [lia..|]. destruct (RV (j + 1) (i - 1))%Z as [G1 G2]; [lia..|].
      now rewrite F1, F2, G1, G2.
Qed.
Print Assumptions C51_reads_existing_nodes.

(** The interpolation in a cell without air, as weights [s], [t] in the cell. *)
Lemma corners_fluid : forall g a b c d e, vtag g a <> 30%Z -> vtag g b <> 30%Z -> vtag g c <> 30%Z -> vtag g d <> 30%Z ->
  corner_values g a b c d e = (vval g a, vval g b, vval g c, vval g d).
Proof.
  intros. unfold corner_values, air. repeat match goal with H : vtag g ?k <> _ |- _ => apply Z.eqb_neq in H; rewrite H; clear H end. reflexivity.
Qed.

Definition all_fluid (g : vgrid) : Prop := forall j i, node g j i -> fluid g j i.

Section Cell.
  Variables (g : vgrid) (dx dz x z : R).
  Hypothesis RG : regular g dx dz.
  Hypothesis ON : on_grid g x z.
  Let j := cell_of x (vgx g 0%Z) dx (vnx g).
  Let i := cell_of z (vgz g 0%Z) dz (vnz g).
  Let s := Rabs (x - vgx g j) / dx.
  Let t := Rabs (z - vgz g i) / dz.

  Lemma cell_facts : (0 <= j <= vnx g - 2)%Z /\ (0 <= i <= vnz g - 2)%Z /\ 0 <= s <= 1 /\ 0 <= t <= 1 /\
    x = vgx g 0%Z + IZR j * dx + s * dx /\ z = vgz g 0%Z + IZR i * dz + t * dz.
  Proof.
    destruct RG as (N1 & N2 & D1 & D2 & GX & GZ). destruct ON as (OX & OZ).
    rewrite (GX (vnx g - 1)%Z) in OX. rewrite (GZ (vnz g - 1)%Z) in OZ.
    pose proof (cell_brackets x (vgx g 0%Z) dx (vnx g) N1 D1 OX) as BX. cbv zeta in BX. fold j in BX.
    pose proof (cell_brackets z (vgz g 0%Z) dz (vnz g) N2 D2 OZ) as BZ. cbv zeta in BZ. fold i in BZ.
    rewrite plus_IZR in BX, BZ.
    assert (BX' : vgx g j <= x <= vgx g j + dx) by (rewrite (GX j); lra).
    assert (BZ' : vgz g i <= z <= vgz g i + dz) by (rewrite (GZ i); lra).
    destruct (weight_range x (vgx g j) dx D1 BX') as [S1 S2]. destruct (weight_range z (vgz g i) dz D2 BZ') as [T1 T2].
    fold s in S1, S2. fold t in T1, T2.
    repeat split; try lra; try apply cell_range; try assumption.
    - rewrite S2. now rewrite (GX j).
    - rewrite T2. now rewrite (GZ i).
  Qed.
End Cell.

(** A linear velocity field is interpolated exactly, with or without correction. *)
Theorem C51_linear_fields_exact : forall g dx dz taras x z a b c,
  regular g dx dz -> on_grid g x z -> all_fluid g ->
  (forall j i, node g j i -> at_ g j i = a + b * vgx g j + c * vgz g i) ->
  v2p_vx dx dz taras g x z = a + b * x + c * z /\ v2p_vz dx dz taras g x z = a + b * x + c * z.
Proof.
  intros g dx dz taras x z a b c RG ON AF LIN.
  destruct (cell_facts g dx dz x z RG ON) as (Hj & Hi & Hs & Ht & Ex & Ez).
  destruct RG as (N1 & N2 & D1 & D2 & GX & GZ).
  unfold v2p_vx, v2p_vz.
  set (j := cell_of x (vgx g 0) dx (vnx g)) in *. set (i := cell_of z (vgz g 0) dz (vnz g)) in *. clearbody j i.
  replace (j + i * vnx g + 1)%Z with (j + 1 + i * vnx g)%Z by lia.
  replace (j + (i + 1) * vnx g + 1)%Z with (j + 1 + (i + 1) * vnx g)%Z by lia.
  replace (j + 1 + i * vnx g + 1)%Z with (j + 2 + i * vnx g)%Z by lia.
  replace (j + 1 + (i + 1) * vnx g + 1)%Z with (j + 2 + (i + 1) * vnx g)%Z by lia.
  replace (j + i * vnx g - 1)%Z with (j - 1 + i * vnx g)%Z by lia.
  replace (j + (i + 1) * vnx g - 1)%Z with (j - 1 + (i + 1) * vnx g)%Z by lia.
  replace (j + (i + 2) * vnx g + 1)%Z with (j + 1 + (i + 2) * vnx g)%Z by lia.
  replace (j + (i - 1) * vnx g + 1)%Z with (j + 1 + (i - 1) * vnx g)%Z by lia.
  assert (F : forall p q, (0 <= p < vnx g)%Z -> (0 <= q < vnz g)%Z -> vtag g (p + q * vnx g)%Z <> 30%Z) by (intros; apply AF; split; assumption).
  rewrite !corners_fluid by (apply F; lia).
  assert (V : forall p q, (0 <= p < vnx g)%Z -> (0 <= q < vnz g)%Z ->
     vval g (p + q * vnx g)%Z = a + b * (vgx g 0%Z + IZR p * dx) + c * (vgz g 0%Z + IZR q * dz)).
  { intros. rewrite <- GX, <- GZ. apply LIN. split; assumption. }
  assert (T : forall p q, (0 <= p < vnx g)%Z -> (0 <= q < vnz g)%Z -> air (vtag g (p + q * vnx g)%Z) = false).
  { intros. unfold air. apply Z.eqb_neq. now apply F. }
  unfold Rdiv in *. set (S := Rabs (x - vgx g j)) in *. set (U := Rabs (z - vgz g i)) in *. clearbody S U.
  assert (ES : S = S * / dx * dx) by (field; lra). assert (EU : U = U * / dz * dz) by (field; lra).
  set (s := S * / dx) in *. set (t := U * / dz) in *.
  split.
  - destruct taras; [destruct (Rgeb _ _); [destruct (Z.ltb_spec j (vnx g - 2))|destruct (Z.ltb_spec 0 j)]|];
    rewrite ?T by lia; rewrite !V by lia; rewrite ?plus_IZR, ?minus_IZR; rewrite Ex, Ez;
    repeat rewrite (Rmult_assoc _ S (/ dx)); fold s; field.
  - destruct taras; [destruct (Rgeb _ _); [destruct (Z.ltb_spec i (vnz g - 2))|destruct (Z.ltb_spec 0 i)]|];
    rewrite ?T by lia; rewrite !V by lia; rewrite ?plus_IZR, ?minus_IZR; rewrite Ex, Ez;
    repeat rewrite (Rmult_assoc _ U (/ dz)); fold t; field.
Qed.
Print Assumptions C51_linear_fields_exact.

(** Without air the interpolated velocity stays in the range of the nodal values,
    with or without correction. *)
Theorem C51_maximum_principle : forall g dx dz taras x z lo hi,
  regular g dx dz -> on_grid g x z -> all_fluid g ->
  (forall j i, node g j i -> lo <= at_ g j i <= hi) ->
  lo <= v2p_vx dx dz taras g x z <= hi /\ lo <= v2p_vz dx dz taras g x z <= hi.
Proof.
  intros g dx dz taras x z lo hi RG ON AF B.
  destruct (cell_facts g dx dz x z RG ON) as (Hj & Hi & Hs & Ht & Ex & Ez).
  destruct RG as (N1 & N2 & D1 & D2 & GX & GZ).
  unfold v2p_vx, v2p_vz.
  set (j := cell_of x (vgx g 0) dx (vnx g)) in *. set (i := cell_of z (vgz g 0) dz (vnz g)) in *. clearbody j i.
  replace (j + i * vnx g + 1)%Z with (j + 1 + i * vnx g)%Z by lia.
  replace (j + (i + 1) * vnx g + 1)%Z with (j + 1 + (i + 1) * vnx g)%Z by lia.
  replace (j + 1 + i * vnx g + 1)%Z with (j + 2 + i * vnx g)%Z by lia.
  replace (j + 1 + (i + 1) * vnx g + 1)%Z with (j + 2 + (i + 1) * vnx g)%Z by lia.
  replace (j + i * vnx g - 1)%Z with (j - 1 + i * vnx g)%Z by lia.
  replace (j + (i + 1) * vnx g - 1)%Z with (j - 1 + (i + 1) * vnx g)%Z by lia.
  replace (j + (i + 2) * vnx g + 1)%Z with (j + 1 + (i + 2) * vnx g)%Z by lia.
  replace (j + (i - 1) * vnx g + 1)%Z with (j + 1 + (i - 1) * vnx g)%Z by lia.
  assert (F : forall p q, (0 <= p < vnx g)%Z -> (0 <= q < vnz g)%Z -> vtag g (p + q * vnx g)%Z <> 30%Z) by (intros; apply AF; split; assumption).
  rewrite !corners_fluid by (apply F; lia).
  assert (V : forall p q, (0 <= p < vnx g)%Z -> (0 <= q < vnz g)%Z -> lo <= vval g (p + q * vnx g)%Z <= hi) by (intros; apply B; split; assumption).
  assert (T : forall p q, (0 <= p < vnx g)%Z -> (0 <= q < vnz g)%Z -> air (vtag g (p + q * vnx g)%Z) = false).
  { intros. unfold air. apply Z.eqb_neq. now apply F. }
  unfold Rdiv in *. set (S := Rabs (x - vgx g j)) in *. set (U := Rabs (z - vgz g i)) in *. clearbody S U.
  repeat rewrite (Rmult_assoc _ S (/ dx)). repeat rewrite (Rmult_assoc _ U (/ dz)).
  set (s := S * / dx) in *. set (t := U * / dz) in *. clearbody s t.
  assert (R3 : forall a b c k, k <= 1 / 2 -> 0 <= k -> lo <= a <= hi -> lo <= b <= hi -> lo <= c <= hi ->
     lo <= a * (1 - k) + b * k + 1 * / 2 * (k - 1 * / 2) ^ 2 * (c - 2 * a + b) <= hi).
  { intros a b c k K1 K2 HA HB HC. pose proof (convex3 lo hi b a c (1 - k) ltac:(lra) HB HA HC) as X.
    replace (a * (1 - k) + b * k + 1 * / 2 * (k - 1 * / 2) ^ 2 * (c - 2 * a + b)) with
     (b * (1 - (1 - k)) + a * (1 - k) + 1 / 2 * (1 - k - 1 / 2) ^ 2 * (b - 2 * a + c)) by field. exact X. }
  assert (R2 : forall a b k, 0 <= k <= 1 -> lo <= a <= hi -> lo <= b <= hi -> lo <= (1 - k) * a + k * b <= hi).
  { intros. rewrite (Rmult_comm _ a), (Rmult_comm k). now apply convex2. }
  split.
  - destruct taras; [destruct (Rgeb_spec s (1 * / 2)); [destruct (Z.ltb_spec j (vnx g - 2))|destruct (Z.ltb_spec 0 j)]|];
    rewrite ?T by lia; apply R2; try exact Ht;
    try (apply convex2; [exact Hs|apply V; lia..]); try (apply convex3; [lra|apply V; lia..]); try (apply R3; [lra|lra|apply V; lia..]).
  - destruct taras; [destruct (Rgeb_spec t (1 * / 2)); [destruct (Z.ltb_spec i (vnz g - 2))|destruct (Z.ltb_spec 0 i)]|];
    rewrite ?T by lia; apply R2; try exact Hs;
    try (apply convex2; [exact Ht|apply V; lia..]); try (apply convex3; [lra|apply V; lia..]); try (apply R3; [lra|lra|apply V; lia..]).
Qed.
Print Assumptions C51_maximum_principle.

(** Next to the surface. A cell contains the marker: *)
Definition contains (g : vgrid) (j i : Z) (x z : R) : Prop :=
  (0 <= j <= vnx g - 2)%Z /\ (0 <= i <= vnz g - 2)%Z /\
  (vgx g j < x <= vgx g (j + 1)%Z \/ (j = 0%Z /\ x = vgx g 0%Z)) /\
  (vgz g i < z <= vgz g (i + 1)%Z \/ (i = 0%Z /\ z = vgz g 0%Z)).

Lemma contains_cell : forall g dx dz j i x z, regular g dx dz -> contains g j i x z ->
  on_grid g x z /\ cell_of x (vgx g 0%Z) dx (vnx g) = j /\ cell_of z (vgz g 0%Z) dz (vnz g) = i.
Proof.
  intros g dx dz j i x z (N1 & N2 & D1 & D2 & GX & GZ) (Hj & Hi & CX & CZ).
  assert (ONE : forall x x0 d n j, (2 <= n)%Z -> 0 < d -> (0 <= j <= n - 2)%Z ->
     (x0 + IZR j * d < x <= x0 + IZR (j + 1) * d \/ (j = 0%Z /\ x = x0)) ->
     x0 <= x <= x0 + IZR (n - 1) * d /\ cell_of x x0 d n = j).
  { clear. intros x x0 d n j Hn Hd Hj C.
    assert (L : IZR (j + 1) <= IZR (n - 1)) by (apply IZR_le; lia). rewrite plus_IZR in *.
    assert (J0 : 0 <= IZR j) by (apply IZR_le; lia).
    split; [destruct C as [C|[-> ->]]; [split; nra|rewrite Rplus_0_l in L; split; nra]|].
    unfold cell_of. destruct (Zceil_spec ((x - x0) / d)) as (C1 & C2). set (k := Zceil ((x - x0) / d)) in *. clearbody k.
    set (q := (x - x0) / d) in *. assert (Q : x = x0 + q * d) by (unfold q; field; lra). clearbody q. subst x.
    destruct C as [C|[-> C]].
    - assert (IZR j < q <= IZR j + 1) by (split; nra).
      assert (k = (j + 1)%Z).
      { assert (j < k)%Z by (apply lt_IZR; lra). assert (k < j + 2)%Z by (apply lt_IZR; rewrite plus_IZR; lra). lia. }
      subst k. replace (j + 1 - 1)%Z with j by lia. destruct (Z.ltb_spec j 0); [lia|]. destruct (Z.ltb_spec (n - 2) j); lia.
    - assert (q = 0) by nra. subst q.
      assert (k = 0%Z). { assert (-1 < k)%Z by (apply lt_IZR; lra). assert (k < 1)%Z by (apply lt_IZR; lra). lia. }
      subst k. cbn. destruct (Z.ltb_spec (n - 2) 0); lia. }
  rewrite (GX j), (GX (j + 1)%Z) in CX. rewrite (GZ i), (GZ (i + 1)%Z) in CZ.
  destruct (ONE x (vgx g 0%Z) dx (vnx g) j N1 D1 Hj CX) as [O1 O2]. destruct (ONE z (vgz g 0%Z) dz (vnz g) i N2 D2 Hi CZ) as [P1 P2].
  split; [|auto]. split; [now rewrite (GX (vnx g - 1)%Z)|now rewrite (GZ (vnz g - 1)%Z)].
Qed.

(** If one corner of the cell is fluid, the velocity is an average of fluid values; for
    Vz provided there is no fluid node above an air node in the cell. *)
Theorem C51_no_air_velocity : forall g dx dz j i x z lo hi,
  regular g dx dz -> contains g j i x z ->
  (fluid g j i \/ fluid g (j + 1) i \/ fluid g j (i + 1) \/ fluid g (j + 1) (i + 1)) ->
  (forall p q, node g p q -> fluid g p q -> lo <= at_ g p q <= hi) ->
  lo <= v2p_vx dx dz false g x z <= hi /\
  ((fluid g j (i + 1) -> fluid g j i) -> (fluid g (j + 1) (i + 1) -> fluid g (j + 1) i) -> lo <= v2p_vz dx dz false g x z <= hi).
Proof.
  intros g dx dz j i x z lo hi RG CT FL B.
  destruct (contains_cell g dx dz j i x z RG CT) as (ON & EJ & EI).
  destruct (cell_facts g dx dz x z RG ON) as (Hj & Hi & Hs & Ht & _).
  unfold v2p_vx, v2p_vz. rewrite EJ, EI in *. unfold fluid in *.
  replace (j + i * vnx g + 1)%Z with (j + 1 + i * vnx g)%Z by lia.
  replace (j + (i + 1) * vnx g + 1)%Z with (j + 1 + (i + 1) * vnx g)%Z by lia.
  unfold Rdiv in *. set (S := Rabs (x - vgx g j)) in *. set (U := Rabs (z - vgz g i)) in *. clearbody S U.
  pose proof (fun H => B j i ltac:(split; lia) H) as B1.
  pose proof (fun H => B (j + 1)%Z i ltac:(split; lia) H) as B2.
  pose proof (fun H => B j (i + 1)%Z ltac:(split; lia) H) as B3.
  pose proof (fun H => B (j + 1)%Z (i + 1)%Z ltac:(split; lia) H) as B4.
  unfold at_ in *. unfold corner_values, air.
  set (a := (j + i * vnx g)%Z) in *. set (b := (j + 1 + i * vnx g)%Z) in *.
  set (c := (j + (i + 1) * vnx g)%Z) in *. set (d := (j + 1 + (i + 1) * vnx g)%Z) in *. clearbody a b c d.
  assert (R2 : forall a b k, 0 <= k <= 1 -> lo <= a <= hi -> lo <= b <= hi -> lo <= (1 - k) * a + k * b <= hi).
  { intros. rewrite (Rmult_comm _ a0), (Rmult_comm k). now apply convex2. }
  split; [|intros U1 U2];
  destruct (Z.eqb_spec (vtag g a) 30), (Z.eqb_spec (vtag g b) 30), (Z.eqb_spec (vtag g c) 30), (Z.eqb_spec (vtag g d) 30);
  cbn [andb]; try (exfalso; tauto);
  repeat rewrite (Rmult_assoc _ S (/ dx)); repeat rewrite (Rmult_assoc _ U (/ dz));
  (apply R2; [assumption|apply convex2; [assumption|tauto|tauto]|apply convex2; [assumption|tauto|tauto]]).
Qed.
Print Assumptions C51_no_air_velocity.

(** Vz: a fluid node above an air node makes it use the velocity of an air node. *)
Theorem C51_vz_air_velocity_refuted : exists g dx dz j i x z,
  regular g dx dz /\ contains g j i x z /\ (exists p q, node g p q /\ fluid g p q) /\
  (fluid g j (i + 1) /\ ~ fluid g j i) /\
  (forall p q, node g p q -> fluid g p q -> at_ g p q = 1) /\ v2p_vz dx dz false g x z <> 1.
Proof.
  set (g := VGrid 2 2 (fun i => IZR i) (fun i => IZR i)
             (fun k => if (k =? 3)%Z then 5 else if (k =? 0)%Z then 7 else 1) (fun k => if (k =? 3)%Z || (k =? 0)%Z then 30%Z else (-1)%Z)).
  assert (RG : regular g 1 1).
  { unfold regular, g. cbn [vnx vnz vgx vgz]. repeat split; try lia; try lra; intros; rewrite Rplus_0_l; lra. }
  assert (CT : contains g 0 0 (1 / 2) (1 / 2)).
  { unfold contains, g. cbn [vnx vnz vgx vgz]. repeat split; try lia; left; cbn; lra. }
  exists g, 1, 1, 0%Z, 0%Z, (1 / 2), (1 / 2). split; [exact RG|]. split; [exact CT|].
  split; [|split; [|split]].
  - exists 1%Z, 0%Z. unfold node, fluid, g. cbn. split; [lia|discriminate].
  - unfold fluid, g. cbn. split; [discriminate|]. intros X. now apply X.
  - intros p q [Hp Hq] F. unfold fluid, at_, g in *. cbn [vnx vnz vval vtag] in *.
    destruct (Z.eqb_spec (p + q * 2) 3), (Z.eqb_spec (p + q * 2) 0); cbn in F; try (exfalso; now apply F). reflexivity.
  - destruct (contains_cell g 1 1 0 0 _ _ RG CT) as (_ & EJ & EI). unfold v2p_vz. rewrite EJ, EI. unfold g, corner_values. cbn [vnx vnz vgx vgz vval vtag Z.eqb Z.add Z.mul air orb andb Pos.eqb Pos.add Pos.mul].
    cbn. rewrite !Rminus_0_r, Rabs_pos_eq by lra. lra.
Qed.
Print Assumptions C51_vz_air_velocity_refuted.

(** Non-vacuity: a 3 x 3 grid with a linear field. *)
Definition ex_grid : vgrid := VGrid 3 3 (fun i => 0 + IZR i * 2) (fun i => 10 + IZR i * 2)
  (fun k => 3 * (0 + IZR (k mod 3) * 2) + 4 * (10 + IZR (k / 3) * 2)) (fun _ => (-1)%Z).
Example C51_ex : v2p_vx 2 2 true ex_grid 3 11 = 53 /\ contains ex_grid 1 0 3 11.
Proof.
  assert (RG : regular ex_grid 2 2).
  { unfold regular, ex_grid. cbn [vnx vnz vgx vgz]. repeat split; try lia; try lra; intros; cbn; lra. }
  split.
  - replace 53 with (0 + 3 * 3 + 4 * 11) by lra. apply C51_linear_fields_exact; [exact RG| | |].
    + unfold on_grid, ex_grid. cbn. lra.
    + intros j i _. discriminate.
    + intros j i [Hj Hi]. unfold at_, ex_grid in *. cbn [vnx vnz vgx vgz vval] in *.
      rewrite Z.mod_add by lia. rewrite Z.mod_small by lia. rewrite Z.div_add by lia. rewrite Z.div_small by lia. cbn [Z.add]. lra.
  - unfold contains, ex_grid. cbn [vnx vnz vgx vgz]. repeat split; try lia; left; cbn; lra.
Qed.
