(** * C72-C74: grid fields at the markers *)
From Coq Require Import ZArith Reals Bool Lia Lra Psatz.
From Verif Require Import P2GModel P2GProofs AdvModel AdvProofs ItpModel ItpProofs.
Local Open Scope R_scope.

(** ** C72: interpolation to the markers *)
(** A marker in the box gets a value between the bounds of the rock nodes less than
    one cell away, provided each such column has a rock node less than one cell away. *)
Theorem C72_centres_bounded : forall m per f tag ph x z lo hi, mesh_ok m -> inside m x z -> ph <> (-1)%Z ->
  (forall j i, near_col per m x j -> near_row m z i -> rock (tag (j + i * (NX m - 1))%Z) -> lo <= f (j + i * (NX m - 1))%Z <= hi) ->
  (forall j, near_col per m x j -> exists i, near_row m z i /\ rock (tag (j + i * (NX m - 1))%Z)) ->
  exists v, from_centres per m f tag ph x z = Val v /\ lo <= v <= hi.
Proof.
  intros m per f tag ph x z lo hi OK Hin Hp HF HX. unfold from_centres.
  destruct (Z.eqb_spec ph (-1)); [contradiction|].
  destruct (centre_facts m OK per x z Hin) as (cW & cE & rS & rN & E & A & B & NW & NE & NS & NN & O & _).
  cbv zeta. rewrite E. set (a := (x - xvz m _) / DX m) in *. set (b := (z - zvx m _) / DZ m) in *.
  rewrite all_weights_one, normalise_one. eexists. split; [reflexivity|].
  apply (four_bounds lo hi f tag a b cW cE rS rN _ (near_col per m x) (near_row m z)); auto; try lra.
  intros j Hj. destruct (HX j Hj) as (i' & Hi' & Ri'). destruct (O i' Hi') as [(K & ->)|(K & ->)]; [left|right]; auto.
Qed.
Print Assumptions C72_centres_bounded.

Theorem C72_vertices_bounded : forall m f tag ph x z lo hi, mesh_ok m -> inside m x z -> ph <> (-1)%Z ->
  (forall j i, near_vcol m x j -> near_vrow m z i -> rock (tag (j + i * NX m)%Z) -> lo <= f (j + i * NX m)%Z <= hi) ->
  (forall j, near_vcol m x j -> exists i, near_vrow m z i /\ rock (tag (j + i * NX m)%Z)) ->
  exists v, from_vertices m f tag ph x z = Val v /\ lo <= v <= hi.
Proof.
  intros m f tag ph x z lo hi OK Hin Hp HF HX. unfold from_vertices.
  destruct (Z.eqb_spec ph (-1)); [contradiction|].
  pose proof (vertex_facts m OK x z Hin) as V. cbv zeta in V. cbv zeta.
  destruct OK as (NXp & NZp & DXp & DZp).
  set (j := if (below (x - xg m 0) (DX m) <? 0)%Z then 0%Z else below (x - xg m 0) (DX m)) in *.
  set (i := if (below (z - zg m 0) (DZ m) <? 0)%Z then 0%Z else below (z - zg m 0) (DZ m)) in *.
  destruct V as (J & I & A & B & PX & PZ & NW & NE & NS & NN & O & _).
  destruct (Z.ltb_spec (NX m - 2) j); [lia|]. destruct (Z.ltb_spec (NZ m - 2) i); [lia|].
  rewrite !Rabs_pos_eq by lra. eexists. split; [reflexivity|].
  replace (square (NX m) i j) with (Corners (j + i * NX m) (j + 1 + i * NX m) (j + (i + 1) * NX m) (j + 1 + (i + 1) * NX m))%Z
    by (unfold square; f_equal; lia).
  apply (four_bounds lo hi f tag _ _ j (j + 1) i (i + 1) _ (near_vcol m x) (near_vrow m z)); auto.
  intros c Hc. destruct (HX c Hc) as (i' & Hi' & Ri'). destruct (O i' Hi') as [(K & ->)|(K & ->)]; [left|right]; auto.
Qed.
Print Assumptions C72_vertices_bounded.

(** Without air, a field linear in the coordinates is reproduced exactly: for cell
    values between the first and the last centre, for vertex values everywhere. *)
Theorem C72_centres_linear : forall m per f tag ph x z A B C, mesh_ok m -> inside m x z -> ph <> (-1)%Z ->
  (forall k, rock (tag k)) ->
  (forall j i, (0 <= j < NX m - 1)%Z -> (0 <= i < NZ m - 1)%Z -> f (j + i * (NX m - 1))%Z = A + B * xc m j + C * zc m i) ->
  xc m 0 <= x <= xc m (NX m - 2) -> zc m 0 <= z <= zc m (NZ m - 2) ->
  from_centres per m f tag ph x z = Val (A + B * x + C * z).
Proof.
  intros m per f tag ph x z A B C OK Hin Hp HT HF Hx Hz. unfold from_centres.
  destruct (Z.eqb_spec ph (-1)); [contradiction|].
  destruct (centre_facts m OK per x z Hin) as (cW & cE & rS & rN & E & _ & _ & _ & _ & _ & _ & _ & LX & LZ & R1 & R2 & R3 & R4 & _).
  cbv zeta. rewrite E. set (a := (x - xvz m _) / DX m) in *. set (b := (z - zvx m _) / DZ m) in *.
  rewrite all_weights_one, normalise_one. f_equal.
  apply (four_linear f tag a b cW cE rS rN _ A B C (xc m) (zc m)); try assumption.
  - intros j i Hj Hi. apply HF; [destruct Hj; subst; assumption|destruct Hi; subst; assumption].
  - apply LX. replace (NX m - 1 - 1)%Z with (NX m - 2)%Z by lia. exact Hx.
  - apply LZ. replace (NZ m - 1 - 1)%Z with (NZ m - 2)%Z by lia. exact Hz.
Qed.
Print Assumptions C72_centres_linear.

Theorem C72_vertices_linear : forall m f tag ph x z A B C, mesh_ok m -> inside m x z -> ph <> (-1)%Z ->
  (forall k, rock (tag k)) ->
  (forall j i, (0 <= j < NX m)%Z -> (0 <= i < NZ m)%Z -> f (j + i * NX m)%Z = A + B * xg m j + C * zg m i) ->
  from_vertices m f tag ph x z = Val (A + B * x + C * z).
Proof.
  intros m f tag ph x z A B C OK Hin Hp HT HF. unfold from_vertices.
  destruct (Z.eqb_spec ph (-1)); [contradiction|].
  pose proof (vertex_facts m OK x z Hin) as V. cbv zeta in V. cbv zeta.
  destruct OK as (NXp & NZp & DXp & DZp).
  set (j := if (below (x - xg m 0) (DX m) <? 0)%Z then 0%Z else below (x - xg m 0) (DX m)) in *.
  set (i := if (below (z - zg m 0) (DZ m) <? 0)%Z then 0%Z else below (z - zg m 0) (DZ m)) in *.
  destruct V as (J & I & _ & _ & PX & PZ & _ & _ & _ & _ & _ & LX & LZ).
  destruct (Z.ltb_spec (NX m - 2) j); [lia|]. destruct (Z.ltb_spec (NZ m - 2) i); [lia|].
  rewrite !Rabs_pos_eq by lra. f_equal.
  replace (square (NX m) i j) with (Corners (j + i * NX m) (j + 1 + i * NX m) (j + (i + 1) * NX m) (j + 1 + (i + 1) * NX m))%Z
    by (unfold square; f_equal; lia).
  apply (four_linear f tag _ _ j (j + 1) i (i + 1) _ A B C (xg m) (zg m)); try assumption.
  intros j' i' Hj Hi. apply HF; lia.
Qed.
Print Assumptions C72_vertices_linear.

(** In a laterally periodic model both ends of the box give the same value. *)
Theorem C72_periodic_ends : forall m f tag ph z, mesh_ok m -> zg m 0 <= z <= zg m (NZ m - 1) ->
  from_centres true m f tag ph (xg m 0) z = from_centres true m f tag ph (xg m (NX m - 1)) z.
Proof.
  intros m f tag ph z OK Hz. destruct OK as (NXp & NZp & DXp & DZp). unfold from_centres.
  destruct (ph =? -1)%Z; [reflexivity|]. cbv zeta.
  assert (W : forall k, (0 <= k)%Z -> below (xg m k - xvz m 0) (DX m) = k).
  { intros k Hk. unfold below. destruct (Zceil_spec ((xg m k - xvz m 0) / DX m)) as (C1 & C2).
    replace ((xg m k - xvz m 0) / DX m) with (IZR k + 1 / 2) in * by (unfold xg, xvz; field; lra).
    apply Z.le_antisymm; apply Z.lt_succ_r; apply lt_IZR; rewrite succ_IZR, ?minus_IZR; lra. }
  rewrite !W by lia.
  destruct (centre_facts m (conj NXp (conj NZp (conj DXp DZp))) true (xg m 0) z) as (cW & cE & rS & rN & E & _).
  { split; [|exact Hz]. split; [lra|]. unfold xg. assert (0 <= IZR (NX m - 1)) by (apply IZR_le; lia). nra. }
  rewrite W in E by lia. set (i := below (z - zvx m 0) (DZ m)) in *.
  assert (I : (0 <= i <= NZ m - 1)%Z).
  { pose proof (axis false (NZ m - 1) (zc m 0) (DZ m) z ltac:(lia) DZp) as K. cbv zeta in K.
    unfold i. replace (zvx m 0) with (zc m 0 - DZ m) by (unfold zvx, zc; lra). apply K. unfold zc, zg in *. lra. }
  rewrite !centre_corners_spec by lia.
  assert (CW : colW true (NX m - 1) (NX m - 1) = colW true (NX m - 1) 0 /\ colE true (NX m - 1) (NX m - 1) = colE true (NX m - 1) 0).
  { unfold colW, colE. rewrite !Z.eqb_refl. destruct (Z.eqb_spec (NX m - 1) 0); [lia|]. destruct (Z.eqb_spec 0 (NX m - 1)); [lia|]. lia. }
  destruct CW as (-> & ->).
  assert (AE : (xg m 0 - xvz m 0) / DX m = (xg m (NX m - 1) - xvz m (NX m - 1)) / DX m) by (unfold xg, xvz; field; lra).
  rewrite <- AE. reflexivity.
Qed.
Print Assumptions C72_periodic_ends.

(** A marker outside the model gets zero. *)
Theorem C72_inactive_zero : forall per m f tag x z,
  from_centres per m f tag (-1) x z = Val 0 /\ from_vertices m f tag (-1) x z = Val 0.
Proof. intros. split; reflexivity. Qed.
Print Assumptions C72_inactive_zero.

(** If the two cells of a column are air, what stands in them reaches markers in the
    neighbouring rock cell: all rock cells hold 1, the marker lies in a rock cell, and
    the value is a quarter of the air value plus three quarters. *)
Definition box22 : mesh := Mesh 3 3 0 0 1 1.
Lemma Zceil_eq : forall r n, IZR n - 1 < r <= IZR n -> Zceil r = n.
Proof.
  intros r n H. destruct (Zceil_spec r). apply Z.le_antisymm; apply Z.lt_succ_r; apply lt_IZR; rewrite succ_IZR; lra.
Qed.
Lemma below_eq : forall r n, IZR n < r <= IZR n + 1 -> below r 1 = n.
Proof.
  intros r n H. unfold below. rewrite (Zceil_eq _ (n + 1)); [lia|]. rewrite plus_IZR. unfold Rdiv. rewrite Rinv_1. lra.
Qed.
Theorem C72_air_column_refuted : forall K, exists m f tag x z,
  mesh_ok m /\ inside m x z /\
  (exists j i, own_cell m x z j i /\ rock (tag (j + i * (NX m - 1))%Z)) /\
  (forall k, rock (tag k) -> f k = 1) /\
  from_centres false m f tag 0 x z = Val (1 / 4 * K + 3 / 4).
Proof.
  intros K. set (tag := fun k => if (k =? 0)%Z || (k =? 2)%Z then 30%Z else (-1)%Z).
  exists box22, (fun k => if (k =? 0)%Z || (k =? 2)%Z then K else 1), tag, (5 / 4), 1.
  split; [split; [|split; [|split]]; cbn; lia || lra|].
  split; [unfold inside, xg, zg; cbn; lra|].
  split.
  { exists 1%Z, 0%Z. split; [unfold own_cell, own, xc, zc; cbn; repeat split; try lia; apply Rabs_le; lra|].
    split; cbv; discriminate. }
  split.
  { intros k. unfold tag, rock. destruct ((k =? 0)%Z || (k =? 2)%Z); intros (A & _); [exfalso; now apply A|reflexivity]. }
  unfold from_centres. cbn [Z.eqb].
  assert (EJ : below (5 / 4 - xvz box22 0) (DX box22) = 1%Z) by (cbn [DX box22]; apply below_eq; unfold xvz; cbn; lra).
  assert (EI : below (1 - zvx box22 0) (DZ box22) = 1%Z) by (cbn [DZ box22]; apply below_eq; unfold zvx; cbn; lra).
  cbv zeta. rewrite EJ, EI. cbn [NX NZ box22]. change (centre_corners false (3 - 1) (3 - 1) 1 1) with (Some (Corners 0 1 2 3)).
  cbv iota. rewrite all_weights_one, normalise_one. f_equal. unfold replaced, pick, tag, rockb. cbn. unfold xvz, zvx. cbn. field.
Qed.
Print Assumptions C72_air_column_refuted.

(** Non-vacuity: surface through the upper line of cells. *)
Example C72_ex : mesh_ok box22 /\ inside box22 (5 / 4) 1 /\
  exists v, from_centres false box22 (fun k => if (k <? 2)%Z then 3 + IZR k else 99) (fun k => if (k <? 2)%Z then (-1)%Z else 30%Z) 0 (5 / 4) 1 = Val v /\ 3 <= v <= 4.
Proof.
  assert (M : mesh_ok box22) by (split; [|split; [|split]]; cbn; lia || lra).
  assert (Q : inside box22 (5 / 4) 1) by (unfold inside, xg, zg; cbn; lra).
  split; [exact M|]. split; [exact Q|]. apply C72_centres_bounded; try assumption; [discriminate| |].
  - intros j i (Hj & _) (Hi & _). cbn in Hj, Hi. cbn [NX box22].
    destruct (Z.ltb_spec (j + i * (3 - 1)) 2); [|intros (A & _); exfalso; now apply A].
    intros _. rewrite plus_IZR. assert (i = 0)%Z by lia. subst i. cbn.
    assert (0 <= IZR j <= 1) by (split; apply IZR_le; lia). lra.
  - intros j (Hj & _). exists 0%Z. cbn in Hj. split; [unfold near_row, close, zc; cbn; split; [lia|apply Rabs_def1; lra]|].
    cbn [NX box22]. destruct (Z.ltb_spec (j + 0 * (3 - 1)) 2); [split; discriminate|lia].
Qed.

(** ** C73: properties of new markers interpolated from the grid *)
(** A new marker in a rock cell gets a value between the bounds of the rock cells
    less than one cell away. *)
Theorem C73_new_centres_bounded : forall m per f tag ph x z lo hi jo io, mesh_ok m -> inside m x z -> ph <> (-1)%Z ->
  (forall j i, near_col per m x j -> near_row m z i -> rock (tag (j + i * (NX m - 1))%Z) -> lo <= f (j + i * (NX m - 1))%Z <= hi) ->
  own_cell m x z jo io -> rock (tag (jo + io * (NX m - 1))%Z) ->
  exists v, new_from_centres per m f tag ph x z = Val v /\ lo <= v <= hi.
Proof.
  intros m per f tag ph x z lo hi jo io OK Hin Hp HF Ho Hr. unfold new_from_centres.
  destruct (Z.eqb_spec ph (-1)); [contradiction|].
  destruct (centre_facts m OK per x z Hin) as (cW & cE & rS & rN & E & A & B & NW & NE & NS & NN & O & _ & _ & _ & _ & _ & _ & EW & EE & ES & EN).
  destruct (centre_own m OK per x z jo io Hin Ho) as (OX & OZ).
  cbv zeta. rewrite E. eexists. split; [reflexivity|].
  set (a := (x - xvz m _) / DX m) in *. set (b := (z - zvx m _) / DZ m) in *.
  rewrite <- EW, <- EE in OX. rewrite <- ES, <- EN in OZ.
  apply (dropped_bounds lo hi f tag a b cW cE rS rN _ (near_col per m x) (near_row m z) jo io); auto; lra.
Qed.
Print Assumptions C73_new_centres_bounded.

Lemma vertices_abs : forall m x z, inside m x z -> Rabs (x - xg m 0) = x - xg m 0 /\ Rabs (z - zg m 0) = z - zg m 0.
Proof. intros m x z (Hx & Hz). split; apply Rabs_pos_eq; lra. Qed.

Theorem C73_new_vertices_bounded : forall m f tag ph x z lo hi jo io, mesh_ok m -> inside m x z -> ph <> (-1)%Z ->
  (forall j i, near_vcol m x j -> near_vrow m z i -> rock (tag (j + i * NX m)%Z) -> lo <= f (j + i * NX m)%Z <= hi) ->
  own_vertex m x z jo io -> rock (tag (jo + io * NX m)%Z) ->
  exists v, new_from_vertices m f tag ph x z = Val v /\ lo <= v <= hi.
Proof.
  intros m f tag ph x z lo hi jo io OK Hin Hp HF Ho Hr. unfold new_from_vertices.
  destruct (Z.eqb_spec ph (-1)); [contradiction|].
  destruct (vertices_abs m x z Hin) as (-> & ->).
  pose proof (vertex_facts m OK x z Hin) as V. pose proof (vertex_own m OK x z jo io Hin Ho) as U. cbv zeta in *.
  destruct OK as (NXp & NZp & DXp & DZp).
  set (j := if (below (x - xg m 0) (DX m) <? 0)%Z then 0%Z else below (x - xg m 0) (DX m)) in *.
  set (i := if (below (z - zg m 0) (DZ m) <? 0)%Z then 0%Z else below (z - zg m 0) (DZ m)) in *.
  destruct V as (J & I & A & B & PX & PZ & NW & NE & NS & NN & _). destruct U as (UX & UZ).
  destruct (Z.ltb_spec (NX m - 2) j); [lia|]. destruct (Z.ltb_spec (NZ m - 2) i); [lia|].
  eexists. split; [reflexivity|].
  replace (square (NX m) i j) with (Corners (j + i * NX m) (j + 1 + i * NX m) (j + (i + 1) * NX m) (j + 1 + (i + 1) * NX m))%Z
    by (unfold square; f_equal; lia).
  apply (dropped_bounds lo hi f tag _ _ j (j + 1) i (i + 1) _ (near_vcol m x) (near_vrow m z) jo io); auto.
Qed.
Print Assumptions C73_new_vertices_bounded.

(** Without air the two interpolations agree, so that C72 applies. *)
Theorem C73_same_without_air : forall m per f tag ph x z, mesh_ok m -> inside m x z -> ph <> (-1)%Z -> (forall k, rock (tag k)) ->
  new_from_centres per m f tag ph x z = from_centres per m f tag ph x z /\
  new_from_vertices m f tag ph x z = from_vertices m f tag ph x z.
Proof.
  intros m per f tag ph x z OK Hin Hp HT. split.
  - unfold new_from_centres, from_centres. destruct (ph =? -1)%Z; [reflexivity|]. cbv zeta.
    destruct (centre_corners _ _ _ _ _); [|reflexivity]. rewrite all_weights_one, normalise_one. f_equal. now apply dropped_no_air.
  - unfold new_from_vertices, from_vertices. destruct (Z.eqb_spec ph (-1)); [contradiction|].
    destruct (vertices_abs m x z Hin) as (-> & ->).
    pose proof (vertex_facts m OK x z Hin) as V. cbv zeta in *. destruct OK as (NXp & NZp & DXp & DZp).
    set (j := if (below (x - xg m 0) (DX m) <? 0)%Z then 0%Z else below (x - xg m 0) (DX m)) in *.
    set (i := if (below (z - zg m 0) (DZ m) <? 0)%Z then 0%Z else below (z - zg m 0) (DZ m)) in *.
    destruct V as (J & I & A & B & PX & PZ & _).
    destruct (Z.ltb_spec (NX m - 2) j); [lia|]. destruct (Z.ltb_spec (NZ m - 2) i); [lia|].
    rewrite !Rabs_pos_eq by lra. f_equal. now apply dropped_no_air.
Qed.
Print Assumptions C73_same_without_air.

(** Where no rock cell is less than one cell away, a new marker gets zero, whatever
    the field: temperature 0 K, pressure 0, grain size 0. *)
Theorem C73_no_rock_gives_zero : forall m per f tag ph x z, mesh_ok m -> inside m x z -> ph <> (-1)%Z ->
  (forall j i, near_col per m x j -> near_row m z i -> ~ rock (tag (j + i * (NX m - 1))%Z)) ->
  new_from_centres per m f tag ph x z = Val 0.
Proof.
  intros m per f tag ph x z OK Hin Hp HA. unfold new_from_centres.
  destruct (Z.eqb_spec ph (-1)); [contradiction|].
  destruct (centre_facts m OK per x z Hin) as (cW & cE & rS & rN & E & A & B & NW & NE & NS & NN & _).
  cbv zeta. rewrite E. f_equal.
  apply (dropped_all_air f tag _ _ cW cE rS rN _ (near_col per m x) (near_row m z)); auto; lra.
Qed.
Print Assumptions C73_no_rock_gives_zero.

Example C73_ex : mesh_ok box22 /\ inside box22 (5 / 4) (3 / 4) /\ own_cell box22 (5 / 4) (3 / 4) 1 0 /\
  exists v, new_from_centres false box22 (fun k => if (k <? 2)%Z then 3 + IZR k else 99) (fun k => if (k <? 2)%Z then (-1)%Z else 30%Z) 0 (5 / 4) (3 / 4) = Val v /\ 3 <= v <= 4.
Proof.
  assert (M : mesh_ok box22) by (split; [|split; [|split]]; cbn; lia || lra).
  assert (Q : inside box22 (5 / 4) (3 / 4)) by (unfold inside, xg, zg; cbn; lra).
  assert (W : own_cell box22 (5 / 4) (3 / 4) 1 0) by (unfold own_cell, own, xc, zc; cbn; repeat split; try lia; apply Rabs_le; lra).
  split; [exact M|]. split; [exact Q|]. split; [exact W|].
  apply (C73_new_centres_bounded box22 false _ _ 0 (5 / 4) (3 / 4) 3 4 1 0); try assumption; [discriminate| |].
  - intros j i (Hj & _) (Hi & _). cbn in Hj, Hi. cbn [NX box22].
    destruct (Z.ltb_spec (j + i * (3 - 1)) 2); [|intros (A & _); exfalso; now apply A].
    intros _. rewrite plus_IZR. assert (i = 0)%Z by lia. subst i. cbn.
    assert (0 <= IZR j <= 1) by (split; apply IZR_le; lia). lra.
  - split; cbv; discriminate.
Qed.

(** ** C74: strain increments *)
Definition wide (m : mesh) : Prop := (4 <= NX m)%Z /\ (4 <= NZ m)%Z /\ 0 < DX m /\ 0 < DZ m.
(** Cells at most one and a half spacings away. *)
Definition around (m : mesh) (x z : R) (j i : Z) : Prop :=
  (0 <= j < NX m - 1)%Z /\ (0 <= i < NZ m - 1)%Z /\ Rabs (x - xc m j) <= 3 / 2 * DX m /\ Rabs (z - zc m i) <= 3 / 2 * DZ m.

(** Without air: between the bounds of the surrounding cells. *)
Theorem C74_strain_bounded : forall m f tag ph x z lo hi, wide m -> inside m x z -> ph <> (-1)%Z ->
  (forall k, rock (tag k)) ->
  (forall j i, around m x z j i -> lo <= f (j + i * (NX m - 1))%Z <= hi) ->
  lo <= strain_marker m f tag ph x z <= hi.
Proof.
  intros m f tag ph x z lo hi (NXp & NZp & DXp & DZp) (Hx & Hz) Hp HT HF.
  unfold strain_marker. destruct (Z.eqb_spec ph (-1)); [contradiction|]. cbv zeta.
  assert (Hx' : xc m 0 - DX m / 2 <= x <= xc m 0 - DX m / 2 + IZR (NX m - 1) * DX m) by (unfold xc, xg in *; lra).
  assert (Hz' : zc m 0 - DZ m / 2 <= z <= zc m 0 - DZ m / 2 + IZR (NZ m - 1) * DZ m) by (unfold zc, zg in *; lra).
  pose proof (saxis (NX m - 1) (xc m 0) (DX m) x ltac:(lia) DXp Hx') as A.
  pose proof (saxis (NZ m - 1) (zc m 0) (DZ m) z ltac:(lia) DZp Hz') as B. cbv zeta in A, B. unfold vcell in A, B. cbv zeta in A, B.
  match type of A with (0 <= ?j <= _)%Z /\ _ => set (jj := j) in * end.
  match type of B with (0 <= ?i <= _)%Z /\ _ => set (ii := i) in * end.
  rewrite (xc_affine m jj), (zc_affine m ii).
  set (a := (x - (xc m 0 + IZR jj * DX m)) / DX m) in *. set (b := (z - (zc m 0 + IZR ii * DZ m)) / DZ m) in *.
  clearbody jj ii. destruct A as (J & A & AW & AE). destruct B as (I & B & BS & BN). clearbody a b.
  rewrite <- !xc_affine in AW, AE. rewrite <- !zc_affine in BS, BN.
  assert (T : forall k, rockb (tag k) = true) by (intros k; destruct (rockb_spec (tag k)); [reflexivity|exfalso; auto]).
  unfold square. cbn [iSW iSE iNW iNE]. rewrite !T.
  assert (FSW : bnd lo hi (f (jj + ii * (NX m - 1))%Z)) by (apply HF; repeat split; try lia; assumption).
  assert (FSE : bnd lo hi (f (jj + ii * (NX m - 1) + 1)%Z)).
  { replace (jj + ii * (NX m - 1) + 1)%Z with (jj + 1 + ii * (NX m - 1))%Z by lia. apply HF. repeat split; try lia; assumption. }
  assert (FNW : bnd lo hi (f (jj + (ii + 1) * (NX m - 1))%Z)) by (apply HF; repeat split; try lia; assumption).
  assert (FNE : bnd lo hi (f (jj + (ii + 1) * (NX m - 1) + 1)%Z)).
  { replace (jj + (ii + 1) * (NX m - 1) + 1)%Z with (jj + 1 + (ii + 1) * (NX m - 1))%Z by lia. apply HF. repeat split; try lia; assumption. }
  change (bnd lo hi (fst (divide
    (guard ((ii =? NZ m - 1 - 2)%Z && ((0 <? jj)%Z && (jj <? NX m - 1 - 2)%Z))
       (fun s : R * R => divide (put true a (f (jj + ii * (NX m - 1) + 1)%Z) (put true (1 - a) (f (jj + ii * (NX m - 1))%Z) s)))
    (guard ((ii =? 0)%Z && ((0 <? jj)%Z && (jj <? NX m - 1 - 2)%Z))
       (fun s : R * R => divide (put true a (f (jj + (ii + 1) * (NX m - 1) + 1)%Z) (put true (1 - a) (f (jj + (ii + 1) * (NX m - 1))%Z) s)))
    (guard ((jj =? NX m - 1 - 2)%Z && ((0 <? ii)%Z && (ii <? NZ m - 1 - 2)%Z))
       (fun s : R * R => divide (put true b (f (jj + (ii + 1) * (NX m - 1))%Z) (put true (1 - b) (f (jj + ii * (NX m - 1))%Z) s)))
    (guard ((jj =? 0)%Z && ((0 <? ii)%Z && (ii <? NZ m - 1 - 2)%Z))
       (fun s : R * R => divide (put true b (f (jj + (ii + 1) * (NX m - 1) + 1)%Z) (put true (1 - b) (f (jj + ii * (NX m - 1) + 1)%Z) s)))
    (guard ((jj =? NX m - 1 - 2)%Z && (ii =? NZ m - 1 - 2)%Z) (set_value (f (jj + ii * (NX m - 1))%Z))
    (guard ((jj =? 0)%Z && (ii =? NZ m - 1 - 2)%Z) (set_value (f (jj + ii * (NX m - 1) + 1)%Z))
    (guard ((jj =? NX m - 1 - 2)%Z && (ii =? 0)%Z) (set_value (f (jj + (ii + 1) * (NX m - 1))%Z))
    (guard ((jj =? 0)%Z && (ii =? 0)%Z) (set_value (f (jj + (ii + 1) * (NX m - 1) + 1)%Z))
    (guard (((0 <? jj)%Z && (jj <? NX m - 1 - 2)%Z) && ((0 <? ii)%Z && (ii <? NZ m - 1 - 2)%Z))
       (fun s : R * R => put true (a * b) (f (jj + (ii + 1) * (NX m - 1) + 1)%Z)
          (put true ((1 - a) * b) (f (jj + (ii + 1) * (NX m - 1))%Z)
          (put true (a * (1 - b)) (f (jj + ii * (NX m - 1) + 1)%Z)
          (put true ((1 - a) * (1 - b)) (f (jj + ii * (NX m - 1))%Z) s)))) (0, 0))))))))))))).
  set (SW := f (jj + ii * (NX m - 1))%Z) in *. set (SE := f (jj + ii * (NX m - 1) + 1)%Z) in *.
  set (NW := f (jj + (ii + 1) * (NX m - 1))%Z) in *. set (NE := f (jj + (ii + 1) * (NX m - 1) + 1)%Z) in *.
  clearbody SW SE NW NE.
  assert (DJ : (jj = 0 \/ jj = NX m - 1 - 2 \/ 0 < jj < NX m - 1 - 2)%Z) by lia.
  assert (DI : (ii = 0 \/ ii = NZ m - 1 - 2 \/ 0 < ii < NZ m - 1 - 2)%Z) by lia.
  destruct DJ as [->|[->|DJ]]; destruct DI as [->|[->|DI]];
    repeat match goal with
    | |- context [(?p =? ?q)%Z] => destruct (Z.eqb_spec p q); try lia
    | |- context [(?p <? ?q)%Z] => destruct (Z.ltb_spec p q); try lia
    end; cbn [andb guard];
    unfold set_value; rewrite ?put_true; cbn [fst snd];
    try (unfold divide; cbn [fst snd]; rewrite normalise_zero; assumption);
    try (apply mean2; auto; fail).
  specialize (A DJ). specialize (B DI). unfold divide. cbn [fst snd].
  replace (0 + (1 - a) * (1 - b) + a * (1 - b) + (1 - a) * b + a * b) with 1 by ring. rewrite normalise_one.
  replace (0 + (1 - a) * (1 - b) * SW + a * (1 - b) * SE + (1 - a) * b * NW + a * b * NE)
    with ((1 - a) * ((1 - b) * SW + b * NW) + a * ((1 - b) * SE + b * NE)) by ring.
  apply two_columns; [exact A| |]; intros _; apply two_columns; auto.
Qed.
Print Assumptions C74_strain_bounded.

Lemma half_own : forall d t jo j, 0 < d -> 0 <= t <= 1 -> - (d / 2) <= (IZR j + t - IZR jo) * d <= d / 2 ->
  (t <= 1 / 2 /\ jo = j) \/ (1 / 2 <= t /\ jo = (j + 1)%Z).
Proof.
  intros d t jo' j' Dp T (C1 & C2).
  assert (K1 : IZR j' + t - IZR jo' <= 1 / 2) by nra. assert (K2 : - (1 / 2) <= IZR j' + t - IZR jo') by nra.
  assert (L1 : (j' - 1 < jo')%Z) by (apply lt_IZR; rewrite minus_IZR; lra).
  assert (L2 : (jo' < j' + 2)%Z) by (apply lt_IZR; rewrite plus_IZR; lra).
  assert (jo' = j' \/ jo' = j' + 1)%Z as [->| ->] by lia; [left|right; rewrite plus_IZR in *]; split; try lra; reflexivity.
Qed.

(** With air, between the second and the last but one centres: a marker in a rock
    cell gets a value between the bounds of the rock cells less than one cell away. *)
Theorem C74_interior_bounded : forall m f tag ph x z lo hi jo io, wide m -> ph <> (-1)%Z ->
  xc m 1 < x <= xc m (NX m - 3) -> zc m 1 < z <= zc m (NZ m - 3) ->
  (forall j i, near_col false m x j -> near_row m z i -> rock (tag (j + i * (NX m - 1))%Z) -> lo <= f (j + i * (NX m - 1))%Z <= hi) ->
  own_cell m x z jo io -> rock (tag (jo + io * (NX m - 1))%Z) ->
  lo <= strain_marker m f tag ph x z <= hi.
Proof.
  intros m f tag ph x z lo hi jo io (NXp & NZp & DXp & DZp) Hp Hx Hz HF (Rj & Ri & Oj & Oi) Hr.
  unfold strain_marker. destruct (Z.eqb_spec ph (-1)) as [|_]; [contradiction|]. cbv zeta.
  assert (AX : forall n p0 d y, (3 <= n)%Z -> 0 < d -> p0 + 1 * d < y <= p0 + IZR (n - 2) * d ->
    let j := vcell n (below (Rabs (y - p0)) d) in let a := (y - (p0 + IZR j * d)) / d in
    (0 < j < n - 2)%Z /\ 0 <= a <= 1 /\ y = p0 + IZR j * d + a * d /\
    (a < 1 -> close d y (p0 + IZR j * d)) /\ (0 < a -> close d y (p0 + IZR (j + 1) * d))).
  { intros n p0 d y Hn Hd Hy. rewrite minus_IZR in Hy.
    assert (Hy' : p0 <= y <= p0 + IZR (n - 1) * d) by (rewrite minus_IZR; nra).
    pose proof (vaxis n p0 d y ltac:(lia) Hd Hy') as V. rewrite (Rabs_pos_eq (y - p0)) by lra. unfold vcell. cbv zeta in *.
    set (j := if (below (y - p0) d <? 0)%Z then 0%Z else below (y - p0) d) in *.
    destruct V as (J & A & E & NW & NE). destruct (Z.ltb_spec (n - 2) j); [lia|].
    split; [|split; [exact A|split; [exact E|split; assumption]]].
    (* the cell is found by ceil - 1: a marker on a centre belongs to the cell below *)
    destruct (Zceil_spec ((y - p0) / d)) as (C1 & C2).
    assert (Q : y = p0 + (y - p0) / d * d) by (field; lra). set (t := (y - p0) / d) in *.
    assert (T : 1 < t <= IZR n - 2) by (split; nra).
    assert (Ej : j = below (y - p0) d).
    { unfold j. destruct (Z.ltb_spec (below (y - p0) d) 0) as [L|L]; [|reflexivity]. exfalso.
      unfold below in L. fold t in L. assert (IZR (Zceil t - 1) < 0) by (now apply IZR_lt). rewrite minus_IZR in *. lra. }
    rewrite Ej. unfold below. fold t. split; apply lt_IZR; rewrite ?minus_IZR; lra. }
  pose proof (AX (NX m - 1)%Z (xc m 0) (DX m) x ltac:(lia) DXp) as A.
  pose proof (AX (NZ m - 1)%Z (zc m 0) (DZ m) z ltac:(lia) DZp) as B. clear AX. cbv zeta in A, B.
  destruct A as (J & A & Ex & AW & AE).
  { replace (NX m - 1 - 2)%Z with (NX m - 3)%Z by lia. rewrite <- xc_affine. unfold xc in *. lra. }
  destruct B as (I & B & Ez & BS & BN).
  { replace (NZ m - 1 - 2)%Z with (NZ m - 3)%Z by lia. rewrite <- zc_affine. unfold zc in *. lra. }
  unfold vcell in *. cbv zeta in *.
  match type of J with (0 < ?j < _)%Z => set (jj := j) in * end.
  match type of I with (0 < ?i < _)%Z => set (ii := i) in * end.
  rewrite (xc_affine m jj), (zc_affine m ii).
  set (a := (x - (xc m 0 + IZR jj * DX m)) / DX m) in *. set (b := (z - (zc m 0 + IZR ii * DZ m)) / DZ m) in *.
  clearbody jj ii a b.
  destruct (Z.eqb_spec jj 0); [lia|]. destruct (Z.eqb_spec jj (NX m - 1 - 2)); [lia|].
  destruct (Z.eqb_spec ii 0); [lia|]. destruct (Z.eqb_spec ii (NZ m - 1 - 2)); [lia|].
  destruct (Z.ltb_spec 0 jj); [|lia]. destruct (Z.ltb_spec jj (NX m - 1 - 2)); [|lia].
  destruct (Z.ltb_spec 0 ii); [|lia]. destruct (Z.ltb_spec ii (NZ m - 1 - 2)); [|lia].
  cbn [andb guard]. unfold square. cbn [iSW iSE iNW iNE].
  replace (jj + ii * (NX m - 1) + 1)%Z with (jj + 1 + ii * (NX m - 1))%Z by lia.
  replace (jj + (ii + 1) * (NX m - 1) + 1)%Z with (jj + 1 + (ii + 1) * (NX m - 1))%Z by lia.
  pose proof (dropped_bounds lo hi f tag a b jj (jj + 1) ii (ii + 1) (NX m - 1) (near_col false m x) (near_row m z) jo io A B) as D.
  assert (G : forall (r1 r2 r3 r4 : bool) w1 w2 w3 w4 v1 v2 v3 v4,
    fst (divide (put r4 w4 v4 (put r3 w3 v3 (put r2 w2 v2 (put r1 w1 v1 (0, 0)))))) =
    normalise (when0 r1 (w1 * v1) + when0 r2 (w2 * v2) + when0 r3 (w3 * v3) + when0 r4 (w4 * v4))
              (when0 r1 w1 + when0 r2 w2 + when0 r3 w3 + when0 r4 w4)).
  { intros [] [] [] [] w1 w2 w3 w4 v1 v2 v3 v4; unfold divide, put, when0; cbn [fst snd]; f_equal; ring. }
  rewrite G. unfold dropped in D. cbn [iSW iSE iNW iNE] in D. apply D; clear D G.
  - intros K. split; [lia|left; rewrite xc_affine; auto].
  - intros K. split; [lia|left; rewrite xc_affine; auto].
  - intros K. split; [lia|rewrite zc_affine; auto].
  - intros K. split; [lia|rewrite zc_affine; auto].
  - exact HF.
  - apply (half_own (DX m)); try assumption. unfold own in Oj. apply Rabs_le_inv in Oj. rewrite (xc_affine m jo), Ex in Oj. lra.
  - apply (half_own (DZ m)); try assumption. unfold own in Oi. apply Rabs_le_inv in Oi. rewrite (zc_affine m io), Ez in Oi. lra.
  - exact Hr.
Qed.
Print Assumptions C74_interior_bounded.

(** In the first one and a half columns, next to the surface, the value is divided
    twice by the weight: with an increment of 1 in all rock cells, a marker in a rock
    cell, a fraction [t] of a cell above its centre, gets 1/(1-t). *)
Definition box34 : mesh := Mesh 4 5 0 0 1 1.
Theorem C74_surface_refuted : forall t, 0 < t <= 1 / 2 -> exists m f tag x z,
  wide m /\ inside m x z /\ own_cell m x z 0 1 /\ rock (tag (0 + 1 * (NX m - 1))%Z) /\
  (forall k, rock (tag k) -> f k = 1) /\ z = zc m 1 + t * DZ m /\
  strain_marker m f tag 0 x z = 1 / (1 - t).
Proof.
  intros t Ht. exists box34, (fun _ => 1), (fun k => if (k <? 6)%Z then (-1)%Z else 30%Z), (1 / 2), (3 / 2 + t).
  split; [split; [|split; [|split]]; cbn; lia || lra|].
  split; [unfold inside, xg, zg; cbn; lra|].
  split; [unfold own_cell, own, xc, zc; cbn; repeat split; try lia; apply Rabs_le; lra|].
  split; [split; cbv; discriminate|]. split; [reflexivity|]. split; [unfold zc; cbn; lra|].
  unfold strain_marker. cbn [Z.eqb]. cbv zeta.
  assert (EJ : below (Rabs (1 / 2 - xc box34 0)) (DX box34) = (-1)%Z).
  { cbn [DX box34]. apply below_eq. rewrite Rabs_pos_eq; unfold xc; cbn; lra. }
  assert (EI : below (Rabs (3 / 2 + t - zc box34 0)) (DZ box34) = 1%Z).
  { cbn [DZ box34]. apply below_eq. rewrite Rabs_pos_eq; unfold zc; cbn; lra. }
  rewrite EJ, EI. cbn -[Rdiv Rplus Rmult Rminus IZR normalise xc zc].
  unfold divide, put. cbn [fst snd rockb Z.eqb negb andb Pos.eqb].
  replace ((3 / 2 + t - zc box34 1) / 1) with t by (unfold zc; cbn; field).
  pose proof eps13_range as EP.
  unfold normalise. destruct (Rltb_spec eps13 (0 + (1 - t))); [|lra]. field. lra.
Qed.
Print Assumptions C74_surface_refuted.

Example C74_ex : wide box34 /\ inside box34 2 2 /\ 3 <= strain_marker box34 (fun k => 3 + IZR (k mod 2)) (fun _ => (-1)%Z) 0 2 2 <= 4.
Proof.
  assert (W : wide box34) by (split; [|split; [|split]]; cbn; lia || lra).
  assert (Q : inside box34 2 2) by (unfold inside, xg, zg; cbn; lra).
  split; [exact W|]. split; [exact Q|]. apply C74_strain_bounded; try assumption; [discriminate|intros; split; discriminate|].
  intros j i _. assert (0 <= (j + i * (NX box34 - 1)) mod 2 <= 1)%Z by (pose proof (Z.mod_pos_bound (j + i * (NX box34 - 1)) 2); lia).
  destruct H as (A & B). apply IZR_le in A, B. lra.
Qed.
