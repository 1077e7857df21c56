(** Linearisation of the x-momentum row. *)
From Coq Require Import ZArith Reals List Bool Lia Lra.
Import ListNotations.
From Verif Require Import StokesModel StokesProofs.
Local Open Scope R_scope.

Lemma shear_term a p x y h : a * x = a * y -> a * (p + x / h) = a * (p + y / h).
Proof. intros E. unfold Rdiv. rewrite !Rmult_plus_distr_l, <- !Rmult_assoc, E. reflexivity. Qed.

Section X.
Variables (m : mesh) (eu ev ep : Z -> Z) (d : Z -> R) (f f' : fields).
Hypothesis T : tags_ok m.
Hypothesis B : bc_ok m f.
Hypothesis B' : bc_ok m f'.
Hypothesis I : incremented m eu ev ep d f f'.
Notation Dl := (delta f f').
Notation con := (contrib m eu ev ep d).
Variables (ix iz : Z).
Hypothesis Hix : (0 <= ix < nx m)%Z.
Hypothesis Hiz : (0 < iz < nz m)%Z.
Notation third := (cp m * OOP m / 3).

(** Canonical form of the fixed part of the stencil. *)
Lemma x_c1 : xc1 m ix iz = Ui m ix iz. Proof. reflexivity. Qed.
Lemma x_S : xVxS m ix iz = Ui m ix (iz - 1). Proof. unfold xVxS, xc1, Ui. ring. Qed.
Lemma x_N : xVxN m ix iz = Ui m ix (iz + 1). Proof. unfold xVxN, xc1, Ui. ring. Qed.
Lemma x_E : xVxE m ix iz = Ui m (ix + 1) iz. Proof. unfold xVxE, xc1, Ui. ring. Qed.
Lemma x_SE : xVzSE m ix iz = Vi m (ix + 1) (iz - 1). Proof. unfold xVzSE, xc3, nxvz, Vi. ring. Qed.
Lemma x_NE : xVzNE m ix iz = Vi m (ix + 1) iz. Proof. unfold xVzNE, xc3, nxvz, Vi. ring. Qed.
Lemma x_PE : xPrE m ix iz = Pi m ix (iz - 1). Proof. unfold xPrE, xc2, ncx, Pi. ring. Qed.
Lemma x_yN : xyN m ix iz = Ui m ix iz. Proof. reflexivity. Qed.
Lemma x_yS : xyS m ix iz = Ui m ix (iz - 1). Proof. unfold xyS, xc1, Ui. ring. Qed.

(** Ghost relations at the rows below and above. *)
Lemma ghost_S :
  Dl (U (Ui m ix iz)) - Dl (U (Ui m ix (iz - 1))) =
  (2 * DirS m ix iz + RegS m ix iz) * Dl (U (Ui m ix iz)) - RegS m ix iz * Dl (U (Ui m ix (iz - 1))).
Proof.
  unfold DirS, RegS, eqt, reg. rewrite x_S. set (c := Ui m ix (iz - 1)).
  destruct (Z.eqb_spec (tu m c) 13) as [E|E13]; [|destruct (Z.eqb_spec (tu m c) 11) as [E|E11]].
  - rewrite E. cbn [Z.eqb Pos.eqb b2R negb orb]. unfold c in *.
    assert (iz - 1 = 0)%Z as Z0.
    { destruct (ok_u_ghost m T ix (iz - 1) Hix ltac:(lia) ltac:(rewrite E; cbn; tauto)); lia. }
    assert (iz = 1)%Z as -> by lia. replace (1 - 1)%Z with 0%Z in * by lia. unfold delta.
    rewrite (proj1 (bc_S m f B ix Hix) E), (proj1 (bc_S m f' B' ix Hix) E). ring.
  - cbn [b2R negb orb]. unfold c in *.
    assert (iz - 1 = 0)%Z as Z0.
    { destruct (ok_u_ghost m T ix (iz - 1) Hix ltac:(lia) ltac:(rewrite E; cbn; tauto)); lia. }
    assert (iz = 1)%Z as -> by lia. replace (1 - 1)%Z with 0%Z in * by lia. unfold delta.
    pose proof (proj2 (bc_S m f B ix Hix) E). pose proof (proj2 (bc_S m f' B' ix Hix) E). lra.
  - cbn [b2R negb orb]. ring.
Qed.
Lemma ghost_N :
  Dl (U (Ui m ix (iz + 1))) - Dl (U (Ui m ix iz)) =
  RegN m ix iz * Dl (U (Ui m ix (iz + 1))) - (2 * DirN m ix iz + RegN m ix iz) * Dl (U (Ui m ix iz)).
Proof.
  unfold DirN, RegN, eqt, reg. rewrite x_N. set (c := Ui m ix (iz + 1)).
  destruct (Z.eqb_spec (tu m c) 13) as [E|E13]; [|destruct (Z.eqb_spec (tu m c) 11) as [E|E11]].
  - rewrite E. cbn [Z.eqb Pos.eqb b2R negb orb]. unfold c in *.
    assert (iz + 1 = nz m)%Z as Z0.
    { destruct (ok_u_ghost m T ix (iz + 1) Hix ltac:(lia) ltac:(rewrite E; cbn; tauto)); lia. }
    rewrite Z0 in *. replace iz with (nz m - 1)%Z by lia. unfold delta.
    rewrite (proj1 (bc_N m f B ix Hix) E), (proj1 (bc_N m f' B' ix Hix) E). ring.
  - cbn [b2R negb orb]. unfold c in *.
    assert (iz + 1 = nz m)%Z as Z0.
    { destruct (ok_u_ghost m T ix (iz + 1) Hix ltac:(lia) ltac:(rewrite E; cbn; tauto)); lia. }
    rewrite Z0 in *. replace iz with (nz m - 1)%Z by lia. unfold delta.
    pose proof (proj2 (bc_N m f B ix Hix) E). pose proof (proj2 (bc_N m f' B' ix Hix) E). lra.
  - cbn [b2R negb orb]. ring.
Qed.

(** Contribution of the rows below and above (zero coefficient on ghosts). *)
Lemma con_S a b : con (negb (tu m (Ui m ix (iz - 1)) =? 30)%Z, U (Ui m ix (iz - 1)), a * RegS m ix iz * b) =
  a * RegS m ix iz * b * Dl (U (Ui m ix (iz - 1))).
Proof.
  destruct (in_dec Z.eq_dec (tu m (Ui m ix (iz - 1))) [11; 13]%Z) as [G|G].
  - assert (R0 : RegS m ix iz = 0).
    { unfold RegS, reg. rewrite x_S. cbn [In] in G. destruct G as [G|[G|[]]]; rewrite <- G; reflexivity. }
    rewrite R0. replace (a * 0 * b) with 0 by ring. rewrite con_zero. ring.
  - apply con_U; auto; lia.
Qed.
Lemma con_N a b : con (negb (tu m (Ui m ix (iz + 1)) =? 30)%Z, U (Ui m ix (iz + 1)), a * RegN m ix iz * b) =
  a * RegN m ix iz * b * Dl (U (Ui m ix (iz + 1))).
Proof.
  destruct (in_dec Z.eq_dec (tu m (Ui m ix (iz + 1))) [11; 13]%Z) as [G|G].
  - assert (R0 : RegN m ix iz = 0).
    { unfold RegN, reg. rewrite x_N. cbn [In] in G. destruct G as [G|[G|[]]]; rewrite <- G; reflexivity. }
    rewrite R0. replace (a * 0 * b) with 0 by ring. rewrite con_zero. ring.
  - apply con_U; auto; lia.
Qed.

Lemma u_inner_code i j : (0 <= i < nx m)%Z -> (0 < j < nz m)%Z -> ~ In (tu m (Ui m i j)) [11; 13]%Z.
Proof. intros Hi Hj G. destruct (ok_u_ghost m T i j Hi ltac:(lia) G); lia. Qed.
Lemma v_inner_code i j : (0 < i < nx m)%Z -> (0 <= j < nz m)%Z -> ~ In (tv m (Vi m i j)) [11; 13; -12]%Z.
Proof. intros Hi Hj G. destruct (ok_v_ghost m T i j ltac:(lia) Hj G); lia. Qed.

(** South and north requests. *)
Lemma req_S : con (negb (tu m (xVxS m ix iz) =? 30)%Z, U (xVxS m ix iz), x_uS m ix iz * celvol m) =
  x_uS m ix iz * celvol m * Dl (U (Ui m ix (iz - 1))).
Proof.
  rewrite x_S. set (k := D33 m (xyS m ix iz) * 1 * xinS m ix iz * (SxxE m ix iz + SxxW m ix iz - 2) / 2 / dz m ^ 2 * celvol m).
  replace (x_uS m ix iz * celvol m) with (k * RegS m ix iz * 1).
  - apply con_S.
  - unfold k, x_uS. field. apply (ok_dz m T).
Qed.
Lemma req_N : con (negb (tu m (xVxN m ix iz) =? 30)%Z, U (xVxN m ix iz), x_uN m ix iz * celvol m) =
  x_uN m ix iz * celvol m * Dl (U (Ui m ix (iz + 1))).
Proof.
  rewrite x_N. set (k := D33 m (xyN m ix iz) * 1 * xinN m ix iz * (SxxE m ix iz + SxxW m ix iz - 2) / 2 / dz m ^ 2 * celvol m).
  replace (x_uN m ix iz * celvol m) with (k * RegN m ix iz * 1).
  - apply con_N.
  - unfold k, x_uN. field. apply (ok_dz m T).
Qed.

(** ** Rows inside the domain and on a periodic side *)
Lemma x_regular iW : 
  (* the western neighbour column [iW], where column [iW+1] carries the same change as column [ix] *)
  (0 <= iW < nx m - 1)%Z -> (ix < nx m - 1)%Z ->
  xVxW m ix iz = Ui m iW iz -> xVzSW m ix iz = Vi m (iW + 1) (iz - 1) -> xVzNW m ix iz = Vi m (iW + 1) iz ->
  xPrW m ix iz = Pi m iW (iz - 1) ->
  ((0 <? ix)%Z || per m ix iz = true) -> SxxW m ix iz = 0 -> SxxE m ix iz = 0 ->
  Dl (U (Ui m (iW + 1) iz)) = Dl (U (Ui m ix iz)) ->
  (forall j, j = (iz - 1)%Z \/ j = iz -> D33 m (Ui m ix j) * Dl (V (Vi m ix j)) = D33 m (Ui m ix j) * Dl (V (Vi m (iW + 1) j))) ->
  x_residual m ix iz f' - x_residual m ix iz f = row_dot eu ev ep (x_row m ix iz) d.
Proof.
  intros HiW HE eW eSW eNW ePW Hset SW SE Hshift Hv.
  pose proof (ok_dx m T) as Hdx. pose proof (ok_dz m T) as Hdz.
  unfold x_row. rewrite row_dot_entries. unfold x_requests. cbn [fold_right].
  rewrite req_S, req_N, x_c1, x_E, x_SE, x_NE, x_PE, eW, eSW, eNW, ePW.
  assert (Hset2 : (ix <? nx m - 1)%Z || per m ix iz = true) by (replace (ix <? nx m - 1)%Z with true by lia; reflexivity).
  rewrite !(con_set m eu ev ep d _ _ _ _ Hset), !(con_set m eu ev ep d _ _ _ _ Hset2).
  rewrite !(con_U m eu ev ep d f f' T B B' I) by (try lia; apply u_inner_code; lia).
  rewrite !(con_V m eu ev ep d f f' T I) by (try lia; apply v_inner_code; lia).
  rewrite !(con_P m eu ev ep d f f' T I) by lia.
  (* the residual difference *)
  assert (RD : x_residual m ix iz f' - x_residual m ix iz f =
    (((sxxd m f' (Pi m ix (iz-1)) - sxxd m f (Pi m ix (iz-1))) - (sxxd m f' (Pi m iW (iz-1)) - sxxd m f (Pi m iW (iz-1)))) / dx m
     - (Dl (P (Pi m ix (iz-1))) - Dl (P (Pi m iW (iz-1)))) / dx m
     + ((sxz m f' (Ui m ix iz) - sxz m f (Ui m ix iz)) - (sxz m f' (Ui m ix (iz-1)) - sxz m f (Ui m ix (iz-1)))) / dz m
     - x_corr m ix iz * Dl (U (Ui m ix iz))) * - celvol m).
  { unfold x_residual. rewrite SW, SE, x_PE, ePW, x_yN, x_yS, x_c1. unfold delta. field. auto. }
  rewrite RD. clear RD.
  rewrite (d_sxx m f f' T ix (iz - 1)), (d_sxx m f f' T iW (iz - 1)) by lia.
  rewrite (d_sxz m f f' T ix iz), (d_sxz m f f' T ix (iz - 1)) by lia.
  unfold dex, dez. replace (iz - 1 + 1)%Z with iz by lia.
  rewrite Hshift.
  (* shear stress changes in terms of the assembled neighbours *)
  assert (SN : D33 m (Ui m ix iz) * ((Dl (U (Ui m ix (iz + 1))) - Dl (U (Ui m ix iz))) / dz m + (Dl (V (Vi m (ix + 1) iz)) - Dl (V (Vi m ix iz))) / dx m)
    = D33 m (Ui m ix iz) * ((RegN m ix iz * Dl (U (Ui m ix (iz + 1))) - (2 * DirN m ix iz + RegN m ix iz) * Dl (U (Ui m ix iz))) / dz m
        + (Dl (V (Vi m (ix + 1) iz)) - Dl (V (Vi m (iW + 1) iz))) / dx m)).
  { rewrite <- ghost_N. pose proof (Hv iz (or_intror eq_refl)) as V1. 
    rewrite !Rmult_plus_distr_l. f_equal. unfold Rdiv. rewrite <- !Rmult_assoc. f_equal. lra. }
  assert (SS : D33 m (Ui m ix (iz - 1)) * ((Dl (U (Ui m ix iz)) - Dl (U (Ui m ix (iz - 1)))) / dz m + (Dl (V (Vi m (ix + 1) (iz - 1))) - Dl (V (Vi m ix (iz - 1)))) / dx m)
    = D33 m (Ui m ix (iz - 1)) * (((2 * DirS m ix iz + RegS m ix iz) * Dl (U (Ui m ix iz)) - RegS m ix iz * Dl (U (Ui m ix (iz - 1)))) / dz m
        + (Dl (V (Vi m (ix + 1) (iz - 1))) - Dl (V (Vi m (iW + 1) (iz - 1)))) / dx m)).
  { rewrite <- ghost_S. pose proof (Hv (iz - 1)%Z (or_introl eq_refl)) as V1.
    rewrite !Rmult_plus_distr_l. f_equal. unfold Rdiv. rewrite <- !Rmult_assoc. f_equal. lra. }
  rewrite SN, SS. clear SN SS Hv Hshift.
  destruct (D11_in m T ix (iz - 1) ltac:(lia) ltac:(lia)) as [FE|FE];
  destruct (D11_in m T iW (iz - 1) ltac:(lia) ltac:(lia)) as [FW|FW].
  all: unfold x_uS, x_uW, x_uC, x_uE, x_uN, x_vSW, x_vSE, x_vNW, x_vNE, x_pW, x_pE, xinW, xinE, xinS, xinN.
  all: rewrite SW, SE, ePW, x_PE, x_yN, x_yS, ?FE, ?FW.
  all: clear FE FW SW SE; destruct (D33_in m (Ui m ix iz)) as [F1|F1]; destruct (D33_in m (Ui m ix (iz - 1))) as [F2|F2];
    rewrite F1, F2 in *; clear F1 F2.
  all: field; auto.
Qed.

(** ** Stress boundaries *)
Lemma vghost_W j : (0 <= j < nz m)%Z -> (tg m (Ui m 0 j) = 30%Z \/ In (tv m (Vi m 0 j)) [11; 13]%Z) ->
  D33 m (Ui m 0 j) * (Dl (V (Vi m 1 j)) - Dl (V (Vi m 0 j))) = D33 m (Ui m 0 j) * (2 * eqt (tv m (Vi m 0 j)) 11 * Dl (V (Vi m 1 j))).
Proof.
  intros Hj [G|G].
  - unfold D33. rewrite G. cbn [Z.eqb Pos.eqb]. ring.
  - f_equal. destruct (bc_W m f B j Hj) as (N1 & D1 & _). destruct (bc_W m f' B' j Hj) as (N2 & D2 & _).
    cbn [In] in G. destruct G as [G|[G|[]]]; symmetry in G; rewrite G; unfold delta, eqt; cbn [Z.eqb Pos.eqb b2R].
    + specialize (D1 G). specialize (D2 G). lra.
    + rewrite (N1 G), (N2 G). ring.
Qed.
Lemma vghost_E j : (0 <= j < nz m)%Z -> (tg m (Ui m (nx m - 1) j) = 30%Z \/ In (tv m (Vi m (nx m) j)) [11; 13]%Z) ->
  D33 m (Ui m (nx m - 1) j) * (Dl (V (Vi m (nx m) j)) - Dl (V (Vi m (nx m - 1) j))) =
  D33 m (Ui m (nx m - 1) j) * (- 2 * eqt (tv m (Vi m (nx m) j)) 11 * Dl (V (Vi m (nx m - 1) j))).
Proof.
  intros Hj [G|G].
  - unfold D33. rewrite G. cbn [Z.eqb Pos.eqb]. ring.
  - f_equal. destruct (bc_E m f B j Hj) as (N1 & D1 & _). destruct (bc_E m f' B' j Hj) as (N2 & D2 & _).
    cbn [In] in G. destruct G as [G|[G|[]]]; symmetry in G; rewrite G; unfold delta, eqt; cbn [Z.eqb Pos.eqb b2R].
    + specialize (D1 G). specialize (D2 G). lra.
    + rewrite (N1 G), (N2 G). ring.
Qed.

Lemma x_west : ix = 0%Z -> tu m (Ui m ix iz) = 2%Z ->
  x_residual m ix iz f' - x_residual m ix iz f = row_dot eu ev ep (x_row m ix iz) d.
Proof.
  intros H0 Ty.
  pose proof (ok_dx m T) as Hdx. pose proof (ok_dz m T) as Hdz. pose proof (ok_nx m T) as Hnx.
  assert (SW : SxxW m ix iz = 1) by (unfold SxxW; rewrite x_c1, Ty, H0; reflexivity).
  assert (SE : SxxE m ix iz = 0) by (unfold SxxE; replace (ix =? nx m - 1)%Z with false by lia; reflexivity).
  assert (Pf : per m ix iz = false) by (unfold per; rewrite x_c1, Ty; reflexivity).
  unfold x_row. rewrite row_dot_entries. unfold x_requests. cbn [fold_right].
  rewrite req_S, req_N, x_c1, x_E, x_SE, x_NE, x_PE.
  assert (Hset : (0 <? ix)%Z || per m ix iz = false) by (rewrite Pf; replace (0 <? ix)%Z with false by lia; reflexivity).
  assert (Hset2 : (ix <? nx m - 1)%Z || per m ix iz = true) by (replace (ix <? nx m - 1)%Z with true by lia; reflexivity).
  rewrite !(con_unset m eu ev ep d _ _ _ _ Hset), !(con_set m eu ev ep d _ _ _ _ Hset2).
  rewrite !(con_U m eu ev ep d f f' T B B' I) by (try lia; apply u_inner_code; lia).
  rewrite !(con_V m eu ev ep d f f' T I) by (try lia; apply v_inner_code; lia).
  rewrite !(con_P m eu ev ep d f f' T I) by lia.
  assert (RD : x_residual m ix iz f' - x_residual m ix iz f =
    ((sxxd m f' (Pi m ix (iz-1)) - sxxd m f (Pi m ix (iz-1))) / dx m
     - Dl (P (Pi m ix (iz-1))) / dx m
     + ((sxz m f' (Ui m ix iz) - sxz m f (Ui m ix iz)) - (sxz m f' (Ui m ix (iz-1)) - sxz m f (Ui m ix (iz-1)))) / dz m / 2
     - x_corr m ix iz * Dl (U (Ui m ix iz))) * - celvol m).
  { unfold x_residual. rewrite SW, SE, x_PE, x_yN, x_yS, x_c1. unfold delta. field. auto. }
  rewrite RD. clear RD.
  rewrite (d_sxx m f f' T ix (iz - 1)) by lia.
  rewrite (d_sxz m f f' T ix iz), (d_sxz m f f' T ix (iz - 1)) by lia.
  unfold dex, dez. replace (iz - 1 + 1)%Z with iz by lia.
  assert (G := ok_stress_W m T iz ltac:(lia)). rewrite H0 in Ty. specialize (G Ty). rewrite <- H0 in Ty.
  pose proof (vghost_W iz ltac:(lia) (G iz (or_intror eq_refl))) as VN.
  pose proof (vghost_W (iz - 1) ltac:(lia) (G (iz - 1)%Z (or_introl eq_refl))) as VS. clear G.
  assert (E1 : Vi m 1 = Vi m (ix + 1)) by (rewrite H0; reflexivity). rewrite E1 in VN, VS. clear E1.
  assert (E1 : Vi m 0 = Vi m ix /\ Ui m 0 = Ui m ix) by (rewrite H0; auto). destruct E1 as [E1 E2]. rewrite E1, E2 in VN, VS. clear E1 E2.
  assert (SN : D33 m (Ui m ix iz) * ((Dl (U (Ui m ix (iz + 1))) - Dl (U (Ui m ix iz))) / dz m + (Dl (V (Vi m (ix + 1) iz)) - Dl (V (Vi m ix iz))) / dx m)
    = D33 m (Ui m ix iz) * ((RegN m ix iz * Dl (U (Ui m ix (iz + 1))) - (2 * DirN m ix iz + RegN m ix iz) * Dl (U (Ui m ix iz))) / dz m
        + (2 * xDirNW m ix iz * Dl (V (Vi m (ix + 1) iz))) / dx m)).
  { rewrite <- ghost_N. unfold xDirNW. change (xc3 m ix iz) with (Vi m ix iz).
    apply shear_term. exact VN. }
  assert (SS : D33 m (Ui m ix (iz - 1)) * ((Dl (U (Ui m ix iz)) - Dl (U (Ui m ix (iz - 1)))) / dz m + (Dl (V (Vi m (ix + 1) (iz - 1))) - Dl (V (Vi m ix (iz - 1)))) / dx m)
    = D33 m (Ui m ix (iz - 1)) * (((2 * DirS m ix iz + RegS m ix iz) * Dl (U (Ui m ix iz)) - RegS m ix iz * Dl (U (Ui m ix (iz - 1)))) / dz m
        + (2 * xDirSW m ix iz * Dl (V (Vi m (ix + 1) (iz - 1)))) / dx m)).
  { rewrite <- ghost_S. unfold xDirSW. replace (xc3 m ix iz - nxvz m)%Z with (Vi m ix (iz - 1)) by (unfold Vi, xc3, nxvz; ring).
    apply shear_term. exact VS. }
  rewrite SN, SS. clear SN SS VN VS Hset Hset2 Pf.
  destruct (D11_in m T ix (iz - 1) ltac:(lia) ltac:(lia)) as [FE|FE].
  all: unfold x_uS, x_uW, x_uC, x_uE, x_uN, x_vSW, x_vSE, x_vNW, x_vNE, x_pW, x_pE, xinE, xinS, xinN.
  all: rewrite SW, SE, x_PE, x_yN, x_yS, ?FE.
  all: clear FE SW SE; destruct (D33_in m (Ui m ix iz)) as [F1|F1]; destruct (D33_in m (Ui m ix (iz - 1))) as [F2|F2];
    rewrite F1, F2 in *; clear F1 F2.
  all: field; auto.
Qed.

Lemma x_east : ix = (nx m - 1)%Z -> (0 < ix)%Z -> tu m (Ui m ix iz) = 2%Z ->
  x_residual m ix iz f' - x_residual m ix iz f = row_dot eu ev ep (x_row m ix iz) d.
Proof.
  intros H0 Hpos Ty.
  pose proof (ok_dx m T) as Hdx. pose proof (ok_dz m T) as Hdz. pose proof (ok_nx m T) as Hnx.
  assert (SE : SxxE m ix iz = 1) by (unfold SxxE; rewrite x_c1, Ty, (proj2 (Z.eqb_eq _ _) H0); reflexivity).
  assert (SW : SxxW m ix iz = 0) by (unfold SxxW; replace (ix =? 0)%Z with false by lia; reflexivity).
  assert (Pf : per m ix iz = false) by (unfold per; rewrite x_c1, Ty; reflexivity).
  assert (eW : xVxW m ix iz = Ui m (ix - 1) iz) by (unfold xVxW; rewrite Pf; unfold xc1, Ui; ring).
  assert (eSW : xVzSW m ix iz = Vi m ix (iz - 1)) by (unfold xVzSW; rewrite Pf; unfold xc3, nxvz, Vi; ring).
  assert (eNW : xVzNW m ix iz = Vi m ix iz) by (unfold xVzNW; rewrite Pf; unfold xc3, nxvz, Vi; ring).
  assert (ePW : xPrW m ix iz = Pi m (ix - 1) (iz - 1)) by (unfold xPrW; rewrite Pf; unfold xc2, ncx, Pi; ring).
  unfold x_row. rewrite row_dot_entries. unfold x_requests. cbn [fold_right].
  rewrite req_S, req_N, x_c1, eW, eSW, eNW, ePW.
  assert (Hset : (0 <? ix)%Z || per m ix iz = true) by (replace (0 <? ix)%Z with true by lia; reflexivity).
  assert (Hset2 : (ix <? nx m - 1)%Z || per m ix iz = false) by (rewrite Pf; replace (ix <? nx m - 1)%Z with false by lia; reflexivity).
  rewrite !(con_unset m eu ev ep d _ _ _ _ Hset2), !(con_set m eu ev ep d _ _ _ _ Hset).
  rewrite !(con_U m eu ev ep d f f' T B B' I) by (try lia; apply u_inner_code; lia).
  rewrite !(con_V m eu ev ep d f f' T I) by (try lia; apply v_inner_code; lia).
  rewrite !(con_P m eu ev ep d f f' T I) by lia.
  assert (RD : x_residual m ix iz f' - x_residual m ix iz f =
    (- (sxxd m f' (Pi m (ix-1) (iz-1)) - sxxd m f (Pi m (ix-1) (iz-1))) / dx m
     + Dl (P (Pi m (ix-1) (iz-1))) / dx m
     + ((sxz m f' (Ui m ix iz) - sxz m f (Ui m ix iz)) - (sxz m f' (Ui m ix (iz-1)) - sxz m f (Ui m ix (iz-1)))) / dz m / 2
     - x_corr m ix iz * Dl (U (Ui m ix iz))) * - celvol m).
  { unfold x_residual. rewrite SW, SE, ePW, x_yN, x_yS, x_c1. unfold delta. field. auto. }
  rewrite RD. clear RD.
  rewrite (d_sxx m f f' T (ix - 1) (iz - 1)) by lia.
  rewrite (d_sxz m f f' T ix iz), (d_sxz m f f' T ix (iz - 1)) by lia.
  unfold dex, dez. replace (iz - 1 + 1)%Z with iz by lia. replace (ix - 1 + 1)%Z with ix by lia.
  assert (G := ok_stress_E m T iz ltac:(lia)). rewrite <- H0 in G. specialize (G Ty).
  assert (VN : D33 m (Ui m ix iz) * (Dl (V (Vi m (ix + 1) iz)) - Dl (V (Vi m ix iz))) = D33 m (Ui m ix iz) * (- 2 * xDirNE m ix iz * Dl (V (Vi m ix iz)))).
  { pose proof (vghost_E iz ltac:(lia)) as V1. rewrite <- H0 in V1. unfold xDirNE.
    replace (xc3 m ix iz + 1)%Z with (Vi m (nx m) iz) by (rewrite H0; unfold xc3, nxvz, Vi; ring).
    replace (ix + 1)%Z with (nx m) by lia. apply V1. apply G. now right. }
  assert (VS : D33 m (Ui m ix (iz-1)) * (Dl (V (Vi m (ix + 1) (iz-1))) - Dl (V (Vi m ix (iz-1)))) = D33 m (Ui m ix (iz-1)) * (- 2 * xDirSE m ix iz * Dl (V (Vi m ix (iz-1))))).
  { pose proof (vghost_E (iz - 1) ltac:(lia)) as V1. rewrite <- H0 in V1. unfold xDirSE.
    replace (xc3 m ix iz - nxvz m + 1)%Z with (Vi m (nx m) (iz - 1)) by (rewrite H0; unfold xc3, nxvz, Vi; ring).
    replace (ix + 1)%Z with (nx m) by lia. apply V1. apply G. now left. }
  assert (SN : D33 m (Ui m ix iz) * ((Dl (U (Ui m ix (iz + 1))) - Dl (U (Ui m ix iz))) / dz m + (Dl (V (Vi m (ix + 1) iz)) - Dl (V (Vi m ix iz))) / dx m)
    = D33 m (Ui m ix iz) * ((RegN m ix iz * Dl (U (Ui m ix (iz + 1))) - (2 * DirN m ix iz + RegN m ix iz) * Dl (U (Ui m ix iz))) / dz m
        + (- 2 * xDirNE m ix iz * Dl (V (Vi m ix iz))) / dx m)).
  { rewrite <- ghost_N.
    apply shear_term. exact VN. }
  assert (SS : D33 m (Ui m ix (iz - 1)) * ((Dl (U (Ui m ix iz)) - Dl (U (Ui m ix (iz - 1)))) / dz m + (Dl (V (Vi m (ix + 1) (iz - 1))) - Dl (V (Vi m ix (iz - 1)))) / dx m)
    = D33 m (Ui m ix (iz - 1)) * (((2 * DirS m ix iz + RegS m ix iz) * Dl (U (Ui m ix iz)) - RegS m ix iz * Dl (U (Ui m ix (iz - 1)))) / dz m
        + (- 2 * xDirSE m ix iz * Dl (V (Vi m ix (iz - 1)))) / dx m)).
  { rewrite <- ghost_S.
    apply shear_term. exact VS. }
  rewrite SN, SS. clear SN SS VN VS Hset Hset2 Pf.
  destruct (D11_in m T (ix - 1) (iz - 1) ltac:(lia) ltac:(lia)) as [FE|FE].
  all: unfold x_uS, x_uW, x_uC, x_uE, x_uN, x_vSW, x_vSE, x_vNW, x_vNE, x_pW, x_pE, xinW, xinS, xinN.
  all: rewrite SW, SE, ePW, x_yN, x_yS, ?FE.
  all: clear FE SW SE; destruct (D33_in m (Ui m ix iz)) as [F1|F1]; destruct (D33_in m (Ui m ix (iz - 1))) as [F2|F2];
    rewrite F1, F2 in *; clear F1 F2.
  all: field; auto.
Qed.

(** ** All rows *)
Lemma x_linearisation : In (tu m (Ui m ix iz)) [-1; 2; -2]%Z ->
  x_residual m ix iz f' - x_residual m ix iz f = row_dot eu ev ep (x_row m ix iz) d.
Proof.
  intros Ty. pose proof (ok_nx m T) as Hnx.
  destruct (Z.eq_dec (tu m (Ui m ix iz)) (-2)) as [Pe|Pe].
  - (* periodic side *)
    destruct (ok_u_west m T ix iz Hix ltac:(lia) Pe) as [H0 _].
    assert (Pt : per m ix iz = true) by (unfold per; rewrite x_c1, Pe; reflexivity).
    apply (x_regular (nx m - 2)); try lia.
    + unfold xVxW. rewrite Pt. unfold xc1, Ui. rewrite H0. ring.
    + unfold xVzSW. rewrite Pt. unfold xc3, nxvz, Vi. rewrite H0. ring.
    + unfold xVzNW. rewrite Pt. unfold xc3, nxvz, Vi. rewrite H0. ring.
    + unfold xPrW. rewrite Pt. unfold xc2, ncx, Pi. rewrite H0. ring.
    + rewrite Pt. apply orb_true_r.
    + unfold SxxW. rewrite x_c1, Pe, andb_false_r. reflexivity.
    + unfold SxxE. rewrite x_c1, Pe, andb_false_r. reflexivity.
    + replace (nx m - 2 + 1)%Z with (nx m - 1)%Z by lia. unfold delta. rewrite H0 in Pe.
      pose proof (ok_u_west_partner m T iz ltac:(lia) Pe) as Q.
      rewrite (bc_per_u m f' B' iz ltac:(lia) Q), (bc_per_u m f B iz ltac:(lia) Q), H0. reflexivity.
    + intros j Hj. rewrite H0 in *.
      destruct (ok_periodic m T iz ltac:(lia) Pe j Hj) as [G|G].
      * unfold D33. rewrite G. cbn [Z.eqb Pos.eqb]. ring.
      * f_equal. replace (nx m - 2 + 1)%Z with (nx m - 1)%Z by lia.
        destruct (bc_W m f B j ltac:(lia)) as (_ & _ & W1). destruct (bc_W m f' B' j ltac:(lia)) as (_ & _ & W2).
        unfold delta. now rewrite (W1 G), (W2 G).
  - assert (Inner : (0 < ix < nx m - 1)%Z -> x_residual m ix iz f' - x_residual m ix iz f = row_dot eu ev ep (x_row m ix iz) d).
    { intros Hin. assert (Pf : per m ix iz = false) by (unfold per; rewrite x_c1; now apply Z.eqb_neq).
      apply (x_regular (ix - 1)); try lia.
      + unfold xVxW. rewrite Pf. unfold xc1, Ui. ring.
      + unfold xVzSW. rewrite Pf. unfold xc3, nxvz, Vi. ring.
      + unfold xVzNW. rewrite Pf. unfold xc3, nxvz, Vi. ring.
      + unfold xPrW. rewrite Pf. unfold xc2, ncx, Pi. ring.
      + unfold SxxW. replace (ix =? 0)%Z with false by lia. reflexivity.
      + unfold SxxE. replace (ix =? nx m - 1)%Z with false by lia. reflexivity.
      + now replace (ix - 1 + 1)%Z with ix by lia.
      + intros j _. now replace (ix - 1 + 1)%Z with ix by lia. }
    cbn [In] in Ty. destruct Ty as [Ty|[Ty|[Ty|[]]]]; symmetry in Ty; [| |contradiction].
    + apply Inner. apply (ok_u_inner m T ix iz Hix ltac:(lia) Ty).
    + destruct (Z.eq_dec ix 0) as [H0|N0]; [now apply x_west|].
      destruct (Z.eq_dec ix (nx m - 1)) as [H1|N1]; [apply x_east; [exact H1|lia|exact Ty]|]. apply Inner. lia.
Qed.
End X.
