(** Linearisation of the z-momentum and continuity rows. *)
From Coq Require Import ZArith Reals List Bool Lia Lra.
Import ListNotations.
From Verif Require Import StokesModel StokesProofs StokesX.
Local Open Scope R_scope.

Section Z.
Variables (m : mesh) (eu ev ep : Z -> Z) (d : Z -> R) (f f' : fields).
Hypothesis T : tags_ok m.
Hypothesis B : bc_ok m f.
Hypothesis B' : bc_ok m f'.
Hypothesis I : incremented m eu ev ep d f f'.
Notation Dl := (delta f f').
Notation con := (contrib m eu ev ep d).
Variables (ix iz : Z).
Hypothesis Hix : (0 < ix < nx m)%Z.
Hypothesis Hiz : (0 <= iz < nz m)%Z.

Lemma z_c3 : zc3 m ix iz = Vi m ix iz. Proof. reflexivity. Qed.
Lemma z_S : zVzS m ix iz = Vi m ix (iz - 1). Proof. unfold zVzS, zc3, nxvz, Vi. ring. Qed.
Lemma z_N : zVzN m ix iz = Vi m ix (iz + 1). Proof. unfold zVzN, zc3, nxvz, Vi. ring. Qed.
Lemma z_SW : zVxSW m ix iz = Ui m (ix - 1) iz. Proof. unfold zVxSW, zc1, Ui. ring. Qed.
Lemma z_SE : zVxSE m ix iz = Ui m ix iz. Proof. reflexivity. Qed.
Lemma z_NW : zVxNW m ix iz = Ui m (ix - 1) (iz + 1). Proof. unfold zVxNW, zc1, Ui. ring. Qed.
Lemma z_NE : zVxNE m ix iz = Ui m ix (iz + 1). Proof. unfold zVxNE, zc1, Ui. ring. Qed.
Lemma z_PS : zPrS m ix iz = Pi m (ix - 1) (iz - 1). Proof. unfold zPrS, zc2, ncx, Pi. ring. Qed.
Lemma z_PN : zPrN m ix iz = Pi m (ix - 1) iz. Proof. unfold zPrN, zc2, ncx, Pi. ring. Qed.
Lemma z_yE : xyE m ix iz = Ui m ix iz. Proof. reflexivity. Qed.
Lemma z_yW : xyW m ix iz = Ui m (ix - 1) iz. Proof. unfold xyW, zc1, Ui. ring. Qed.

(** West and east neighbours, possibly across the periodic boundary. *)
Lemma W_cases :
  (zVzW m ix iz = Vi m (nx m - 1) iz /\ ix = 1%Z /\ tv m (Vi m 0 iz) = (-12)%Z) \/
  (zVzW m ix iz = Vi m (ix - 1) iz /\ tv m (Vi m (ix - 1) iz) <> (-12)%Z).
Proof.
  unfold zVzW. replace (zc3 m ix iz - 1)%Z with (Vi m (ix - 1) iz) by (unfold zc3, nxvz, Vi; ring).
  destruct (Z.eqb_spec (tv m (Vi m (ix - 1) iz)) (-12)) as [E|E]; cbn [andb]; [|now right].
  assert (ix - 1 = 0)%Z as H0.
  { destruct (ok_v_ghost m T (ix - 1) iz ltac:(lia) Hiz ltac:(rewrite E; cbn; tauto)); lia. }
  left. replace (ix =? 1)%Z with true by lia. rewrite H0 in E. repeat split; [|lia|exact E].
  unfold zc3, nxvz, Vi. replace ix with 1%Z by lia. ring.
Qed.
Lemma E_cases :
  (zVzE m ix iz = Vi m 1 iz /\ ix = (nx m - 1)%Z /\ tv m (Vi m (nx m) iz) = (-12)%Z) \/
  (zVzE m ix iz = Vi m (ix + 1) iz /\ tv m (Vi m (ix + 1) iz) <> (-12)%Z).
Proof.
  unfold zVzE. replace (zc3 m ix iz + 1)%Z with (Vi m (ix + 1) iz) by (unfold zc3, nxvz, Vi; ring).
  destruct (Z.eqb_spec (tv m (Vi m (ix + 1) iz)) (-12)) as [E|E]; cbn [andb]; [|now right].
  assert (ix + 1 = nx m)%Z as H0.
  { destruct (ok_v_ghost m T (ix + 1) iz ltac:(lia) Hiz ltac:(rewrite E; cbn; tauto)); lia. }
  left. unfold nxvz at 1. replace (ix =? nx m + 1 - 2)%Z with true by lia. rewrite H0 in E. repeat split; [|lia|exact E].
  unfold zc3, nxvz, Vi. replace ix with (nx m - 1)%Z by lia. ring.
Qed.

Lemma gW : Dl (V (Vi m ix iz)) - Dl (V (Vi m (ix - 1) iz)) =
  (2 * DirW m ix iz + RegW m ix iz) * Dl (V (Vi m ix iz)) - RegW m ix iz * Dl (V (zVzW m ix iz)).
Proof.
  unfold DirW, RegW, eqt, reg. destruct W_cases as [(-> & H1 & Ty)|(-> & Ty)].
  - pose proof (v_inner_code m T (nx m - 1) iz ltac:(lia) Hiz) as N. cbn [In] in N.
    destruct (Z.eqb_spec (tv m (Vi m (nx m - 1) iz)) 13); [exfalso; intuition|].
    destruct (Z.eqb_spec (tv m (Vi m (nx m - 1) iz)) 11); [exfalso; intuition|].
    cbn [b2R negb orb]. rewrite H1. replace (1 - 1)%Z with 0%Z by lia.
    destruct (bc_W m f B iz Hiz) as (_ & _ & P1). destruct (bc_W m f' B' iz Hiz) as (_ & _ & P2).
    unfold delta. rewrite (P1 Ty), (P2 Ty). ring.
  - destruct (Z.eqb_spec (tv m (Vi m (ix - 1) iz)) 13) as [E|E13]; [|destruct (Z.eqb_spec (tv m (Vi m (ix - 1) iz)) 11) as [E|E11]].
    + rewrite E. cbn [Z.eqb Pos.eqb b2R negb orb].
      assert (ix = 1)%Z as H1. { destruct (ok_v_ghost m T (ix - 1) iz ltac:(lia) Hiz ltac:(rewrite E; cbn; tauto)); lia. }
      rewrite H1 in *. replace (1 - 1)%Z with 0%Z in * by lia.
      destruct (bc_W m f B iz Hiz) as (P1 & _ & _). destruct (bc_W m f' B' iz Hiz) as (P2 & _ & _).
      unfold delta. rewrite (P1 E), (P2 E). ring.
    + cbn [b2R negb orb].
      assert (ix = 1)%Z as H1. { destruct (ok_v_ghost m T (ix - 1) iz ltac:(lia) Hiz ltac:(rewrite E; cbn; tauto)); lia. }
      rewrite H1 in *. replace (1 - 1)%Z with 0%Z in * by lia.
      destruct (bc_W m f B iz Hiz) as (_ & P1 & _). destruct (bc_W m f' B' iz Hiz) as (_ & P2 & _).
      specialize (P1 E). specialize (P2 E). unfold delta. lra.
    + cbn [b2R negb orb]. ring.
Qed.
Lemma gE : Dl (V (Vi m (ix + 1) iz)) - Dl (V (Vi m ix iz)) =
  RegE m ix iz * Dl (V (zVzE m ix iz)) - (2 * DirE m ix iz + RegE m ix iz) * Dl (V (Vi m ix iz)).
Proof.
  unfold DirE, RegE, eqt, reg. destruct E_cases as [(-> & H1 & Ty)|(-> & Ty)].
  - pose proof (v_inner_code m T 1 iz ltac:(lia) Hiz) as N. cbn [In] in N.
    destruct (Z.eqb_spec (tv m (Vi m 1 iz)) 13); [exfalso; intuition|].
    destruct (Z.eqb_spec (tv m (Vi m 1 iz)) 11); [exfalso; intuition|].
    cbn [b2R negb orb]. rewrite H1. replace (nx m - 1 + 1)%Z with (nx m) by lia.
    destruct (bc_E m f B iz Hiz) as (_ & _ & P1). destruct (bc_E m f' B' iz Hiz) as (_ & _ & P2).
    unfold delta. rewrite (P1 Ty), (P2 Ty). ring.
  - destruct (Z.eqb_spec (tv m (Vi m (ix + 1) iz)) 13) as [E|E13]; [|destruct (Z.eqb_spec (tv m (Vi m (ix + 1) iz)) 11) as [E|E11]].
    + rewrite E. cbn [Z.eqb Pos.eqb b2R negb orb].
      assert (ix + 1 = nx m)%Z as H1. { destruct (ok_v_ghost m T (ix + 1) iz ltac:(lia) Hiz ltac:(rewrite E; cbn; tauto)); lia. }
      rewrite H1 in *. replace ix with (nx m - 1)%Z by lia.
      destruct (bc_E m f B iz Hiz) as (P1 & _ & _). destruct (bc_E m f' B' iz Hiz) as (P2 & _ & _).
      unfold delta. rewrite (P1 E), (P2 E). ring.
    + cbn [b2R negb orb].
      assert (ix + 1 = nx m)%Z as H1. { destruct (ok_v_ghost m T (ix + 1) iz ltac:(lia) Hiz ltac:(rewrite E; cbn; tauto)); lia. }
      rewrite H1 in *. replace ix with (nx m - 1)%Z by lia.
      destruct (bc_E m f B iz Hiz) as (_ & P1 & _). destruct (bc_E m f' B' iz Hiz) as (_ & P2 & _).
      specialize (P1 E). specialize (P2 E). unfold delta. lra.
    + cbn [b2R negb orb]. ring.
Qed.

Lemma con_W a : con (negb (tv m (zVzW m ix iz) =? 30)%Z, V (zVzW m ix iz), a * RegW m ix iz) = a * RegW m ix iz * Dl (V (zVzW m ix iz)).
Proof.
  destruct (in_dec Z.eq_dec (tv m (zVzW m ix iz)) [11; 13]%Z) as [G|G].
  - assert (R0 : RegW m ix iz = 0). { unfold RegW, reg. cbn [In] in G. destruct G as [G|[G|[]]]; rewrite <- G; reflexivity. }
    rewrite R0. replace (a * 0) with 0 by ring. rewrite con_zero. ring.
  - destruct W_cases as [(E & H1 & Ty)|(E & Ty)]; rewrite E in *.
    + apply (con_V m eu ev ep d f f' T I); try lia. apply (v_inner_code m T); lia.
    + apply (con_V m eu ev ep d f f' T I); try lia. cbn [In] in *. intuition.
Qed.
Lemma con_E a : con (negb (tv m (zVzE m ix iz) =? 30)%Z, V (zVzE m ix iz), a * RegE m ix iz) = a * RegE m ix iz * Dl (V (zVzE m ix iz)).
Proof.
  destruct (in_dec Z.eq_dec (tv m (zVzE m ix iz)) [11; 13]%Z) as [G|G].
  - assert (R0 : RegE m ix iz = 0). { unfold RegE, reg. cbn [In] in G. destruct G as [G|[G|[]]]; rewrite <- G; reflexivity. }
    rewrite R0. replace (a * 0) with 0 by ring. rewrite con_zero. ring.
  - destruct E_cases as [(E & H1 & Ty)|(E & Ty)]; rewrite E in *.
    + apply (con_V m eu ev ep d f f' T I); try lia. apply (v_inner_code m T); lia.
    + apply (con_V m eu ev ep d f f' T I); try lia. cbn [In] in *. intuition.
Qed.

Lemma req_W : con (negb (tv m (zVzW m ix iz) =? 30)%Z, V (zVzW m ix iz), z_vW m ix iz * celvol m) =
  z_vW m ix iz * celvol m * Dl (V (zVzW m ix iz)).
Proof.
  set (k := D33 m (xyW m ix iz) * zinW m ix iz * (SzzN m ix iz + SzzS m ix iz - 2) / 2 / dx m ^ 2 * celvol m).
  replace (z_vW m ix iz * celvol m) with (k * RegW m ix iz); [apply con_W|].
  unfold k, z_vW. field. apply (ok_dx m T).
Qed.
Lemma req_E : con (negb (tv m (zVzE m ix iz) =? 30)%Z, V (zVzE m ix iz), z_vE m ix iz * celvol m) =
  z_vE m ix iz * celvol m * Dl (V (zVzE m ix iz)).
Proof.
  set (k := D33 m (xyE m ix iz) * zinE m ix iz * (SzzN m ix iz + SzzS m ix iz - 2) / 2 / dx m ^ 2 * celvol m).
  replace (z_vE m ix iz * celvol m) with (k * RegE m ix iz); [apply con_E|].
  unfold k, z_vE. field. apply (ok_dx m T).
Qed.

Ltac flags := destruct (D33_in m (Ui m ix iz)) as [F1|F1]; destruct (D33_in m (Ui m (ix - 1) iz)) as [F2|F2];
    rewrite F1, F2 in *; clear F1 F2.

(** ** Interior *)
Lemma z_regular : (0 < iz < nz m - 1)%Z ->
  z_residual m ix iz f' - z_residual m ix iz f = row_dot eu ev ep (z_row m ix iz) d.
Proof.
  intros Hin.
  pose proof (ok_dx m T) as Hdx. pose proof (ok_dz m T) as Hdz.
  assert (SS : SzzS m ix iz = 0) by (unfold SzzS; replace (iz =? 0)%Z with false by lia; reflexivity).
  assert (SN : SzzN m ix iz = 0) by (unfold SzzN; replace (iz =? nz m - 1)%Z with false by lia; reflexivity).
  unfold z_row. rewrite row_dot_entries. unfold z_requests. cbn [fold_right].
  rewrite req_W, req_E, z_c3, z_S, z_N, z_SW, z_SE, z_NW, z_NE, z_PS, z_PN.
  assert (Hset : (0 <? iz)%Z = true) by lia. assert (Hset2 : (iz <? nz m - 1)%Z = true) by lia.
  rewrite !(con_set m eu ev ep d _ _ _ _ Hset), !(con_set m eu ev ep d _ _ _ _ Hset2).
  rewrite !(con_U m eu ev ep d f f' T B B' I) by (try lia; apply (u_inner_code m T); lia).
  rewrite !(con_V m eu ev ep d f f' T I) by (try lia; apply (v_inner_code m T); lia).
  rewrite !(con_P m eu ev ep d f f' T I) by lia.
  assert (RD : z_residual m ix iz f' - z_residual m ix iz f =
    (((szzd m f' (Pi m (ix-1) iz) - szzd m f (Pi m (ix-1) iz)) - (szzd m f' (Pi m (ix-1) (iz-1)) - szzd m f (Pi m (ix-1) (iz-1)))) / dz m
     - (Dl (P (Pi m (ix-1) iz)) - Dl (P (Pi m (ix-1) (iz-1)))) / dz m
     + ((sxz m f' (Ui m ix iz) - sxz m f (Ui m ix iz)) - (sxz m f' (Ui m (ix-1) iz) - sxz m f (Ui m (ix-1) iz))) / dx m
     - z_corr m ix iz * Dl (V (Vi m ix iz))) * - celvol m).
  { unfold z_residual. rewrite SS, SN, z_PS, z_PN, z_yE, z_yW, z_c3. unfold delta. field. auto. }
  rewrite RD. clear RD.
  rewrite (d_szz m f f' T (ix-1) iz), (d_szz m f f' T (ix-1) (iz - 1)) by lia.
  rewrite (d_sxz m f f' T ix iz), (d_sxz m f f' T (ix - 1) iz) by lia.
  unfold dex, dez. replace (iz - 1 + 1)%Z with iz by lia. replace (ix - 1 + 1)%Z with ix by lia.
  rewrite gW, gE.
  unfold z_uSW, z_uSE, z_uNW, z_uNE, z_vS, z_vW, z_vC, z_vE, z_vN, z_pS, z_pN, zinW, zinE.
  rewrite SS, SN, z_PS, z_PN, z_yE, z_yW. clear SS SN.
  flags; field; auto.
Qed.

(** ** Stress boundaries *)
Lemma ughost_S i : (0 <= i < nx m)%Z -> (tg m (Ui m i 0) = 30%Z \/ In (tu m (Ui m i 0)) [11; 13]%Z) ->
  D33 m (Ui m i 0) * (Dl (U (Ui m i 1)) - Dl (U (Ui m i 0))) = D33 m (Ui m i 0) * (2 * eqt (tu m (Ui m i 0)) 11 * Dl (U (Ui m i 1))).
Proof.
  intros Hi [G|G].
  - unfold D33. rewrite G. cbn [Z.eqb Pos.eqb]. ring.
  - f_equal. destruct (bc_S m f B i Hi) as (N1 & D1). destruct (bc_S m f' B' i Hi) as (N2 & D2).
    cbn [In] in G. destruct G as [G|[G|[]]]; symmetry in G; rewrite G; unfold delta, eqt; cbn [Z.eqb Pos.eqb b2R].
    + specialize (D1 G). specialize (D2 G). lra.
    + rewrite (N1 G), (N2 G). ring.
Qed.
Lemma ughost_N i : (0 <= i < nx m)%Z -> (tg m (Ui m i (nz m - 1)) = 30%Z \/ In (tu m (Ui m i (nz m))) [11; 13]%Z) ->
  D33 m (Ui m i (nz m - 1)) * (Dl (U (Ui m i (nz m))) - Dl (U (Ui m i (nz m - 1)))) =
  D33 m (Ui m i (nz m - 1)) * (- 2 * eqt (tu m (Ui m i (nz m))) 11 * Dl (U (Ui m i (nz m - 1)))).
Proof.
  intros Hi [G|G].
  - unfold D33. rewrite G. cbn [Z.eqb Pos.eqb]. ring.
  - f_equal. destruct (bc_N m f B i Hi) as (N1 & D1). destruct (bc_N m f' B' i Hi) as (N2 & D2).
    cbn [In] in G. destruct G as [G|[G|[]]]; symmetry in G; rewrite G; unfold delta, eqt; cbn [Z.eqb Pos.eqb b2R].
    + specialize (D1 G). specialize (D2 G). lra.
    + rewrite (N1 G), (N2 G). ring.
Qed.

Lemma shear_term_l a p x y h : a * x = a * y -> a * (x / h + p) = a * (y / h + p).
Proof. intros E. rewrite (Rplus_comm (x / h)), (Rplus_comm (y / h)). now apply shear_term. Qed.

Lemma z_south : iz = 0%Z -> tv m (Vi m ix iz) = 2%Z ->
  z_residual m ix iz f' - z_residual m ix iz f = row_dot eu ev ep (z_row m ix iz) d.
Proof.
  intros H0 Ty.
  pose proof (ok_dx m T) as Hdx. pose proof (ok_dz m T) as Hdz. pose proof (ok_nz m T) as Hnz.
  assert (SS : SzzS m ix iz = 1) by (unfold SzzS; rewrite z_c3, Ty, H0; reflexivity).
  assert (SN : SzzN m ix iz = 0) by (unfold SzzN; replace (iz =? nz m - 1)%Z with false by lia; reflexivity).
  unfold z_row. rewrite row_dot_entries. unfold z_requests. cbn [fold_right].
  rewrite req_W, req_E, z_c3, z_N, z_NW, z_NE, z_PN.
  assert (Hset : (0 <? iz)%Z = false) by lia. assert (Hset2 : (iz <? nz m - 1)%Z = true) by lia.
  rewrite !(con_unset m eu ev ep d _ _ _ _ Hset), !(con_set m eu ev ep d _ _ _ _ Hset2).
  rewrite !(con_U m eu ev ep d f f' T B B' I) by (try lia; apply (u_inner_code m T); lia).
  rewrite !(con_V m eu ev ep d f f' T I) by (try lia; apply (v_inner_code m T); lia).
  rewrite !(con_P m eu ev ep d f f' T I) by lia.
  assert (RD : z_residual m ix iz f' - z_residual m ix iz f =
    ((szzd m f' (Pi m (ix-1) iz) - szzd m f (Pi m (ix-1) iz)) / dz m - Dl (P (Pi m (ix-1) iz)) / dz m
     + ((sxz m f' (Ui m ix iz) - sxz m f (Ui m ix iz)) - (sxz m f' (Ui m (ix-1) iz) - sxz m f (Ui m (ix-1) iz))) / dx m / 2
     - z_corr m ix iz * Dl (V (Vi m ix iz))) * - celvol m).
  { unfold z_residual. rewrite SS, SN, z_PN, z_yE, z_yW, z_c3. unfold delta. field. auto. }
  rewrite RD. clear RD.
  rewrite (d_szz m f f' T (ix-1) iz) by lia.
  rewrite (d_sxz m f f' T ix iz), (d_sxz m f f' T (ix - 1) iz) by lia.
  unfold dex, dez. replace (ix - 1 + 1)%Z with ix by lia.
  rewrite gW, gE.
  assert (G := ok_stress_S m T ix Hix). rewrite <- H0 in G at 1. specialize (G Ty).
  assert (GE : D33 m (Ui m ix iz) * (Dl (U (Ui m ix (iz + 1))) - Dl (U (Ui m ix iz))) = D33 m (Ui m ix iz) * (2 * zDirSE m ix iz * Dl (U (Ui m ix (iz + 1))))).
  { unfold zDirSE. change (zc1 m ix iz) with (Ui m ix iz). rewrite H0. apply ughost_S; [lia|]. apply G. now right. }
  assert (GW : D33 m (Ui m (ix-1) iz) * (Dl (U (Ui m (ix-1) (iz + 1))) - Dl (U (Ui m (ix-1) iz))) = D33 m (Ui m (ix-1) iz) * (2 * zDirSW m ix iz * Dl (U (Ui m (ix-1) (iz + 1))))).
  { unfold zDirSW. replace (zc1 m ix iz - 1)%Z with (Ui m (ix - 1) iz) by (unfold zc1, Ui; ring).
    rewrite H0. apply ughost_S; [lia|]. apply G. now left. }
  rewrite (shear_term_l _ _ _ _ _ GE), (shear_term_l _ _ _ _ _ GW). clear GE GW G.
  unfold z_uSW, z_uSE, z_uNW, z_uNE, z_vS, z_vW, z_vC, z_vE, z_vN, z_pS, z_pN, zinW, zinE.
  rewrite SS, SN, z_PN, z_yE, z_yW. clear SS SN.
  flags; field; auto.
Qed.

Lemma z_north : iz = (nz m - 1)%Z -> tv m (Vi m ix iz) = 2%Z ->
  z_residual m ix iz f' - z_residual m ix iz f = row_dot eu ev ep (z_row m ix iz) d.
Proof.
  intros H0 Ty.
  pose proof (ok_dx m T) as Hdx. pose proof (ok_dz m T) as Hdz. pose proof (ok_nz m T) as Hnz.
  assert (SS : SzzS m ix iz = 0) by (unfold SzzS; replace (iz =? 0)%Z with false by lia; reflexivity).
  assert (SN : SzzN m ix iz = 1) by (unfold SzzN; rewrite z_c3, Ty, (proj2 (Z.eqb_eq _ _) H0); reflexivity).
  unfold z_row. rewrite row_dot_entries. unfold z_requests. cbn [fold_right].
  rewrite req_W, req_E, z_c3, z_S, z_SW, z_SE, z_PS.
  assert (Hset : (0 <? iz)%Z = true) by lia. assert (Hset2 : (iz <? nz m - 1)%Z = false) by lia.
  rewrite !(con_unset m eu ev ep d _ _ _ _ Hset2), !(con_set m eu ev ep d _ _ _ _ Hset).
  rewrite !(con_U m eu ev ep d f f' T B B' I) by (try lia; apply (u_inner_code m T); lia).
  rewrite !(con_V m eu ev ep d f f' T I) by (try lia; apply (v_inner_code m T); lia).
  rewrite !(con_P m eu ev ep d f f' T I) by lia.
  assert (RD : z_residual m ix iz f' - z_residual m ix iz f =
    (- (szzd m f' (Pi m (ix-1) (iz-1)) - szzd m f (Pi m (ix-1) (iz-1))) / dz m + Dl (P (Pi m (ix-1) (iz-1))) / dz m
     + ((sxz m f' (Ui m ix iz) - sxz m f (Ui m ix iz)) - (sxz m f' (Ui m (ix-1) iz) - sxz m f (Ui m (ix-1) iz))) / dx m / 2
     - z_corr m ix iz * Dl (V (Vi m ix iz))) * - celvol m).
  { unfold z_residual. rewrite SS, SN, z_PS, z_yE, z_yW, z_c3. unfold delta. field. auto. }
  rewrite RD. clear RD.
  rewrite (d_szz m f f' T (ix-1) (iz-1)) by lia.
  rewrite (d_sxz m f f' T ix iz), (d_sxz m f f' T (ix - 1) iz) by lia.
  unfold dex, dez. replace (ix - 1 + 1)%Z with ix by lia. replace (iz - 1 + 1)%Z with iz by lia.
  rewrite gW, gE.
  assert (G := ok_stress_N m T ix Hix). rewrite <- H0 in G. specialize (G Ty).
  assert (GE : D33 m (Ui m ix iz) * (Dl (U (Ui m ix (iz + 1))) - Dl (U (Ui m ix iz))) = D33 m (Ui m ix iz) * (- 2 * zDirNE m ix iz * Dl (U (Ui m ix iz)))).
  { unfold zDirNE. replace (zc1 m ix iz + nx m)%Z with (Ui m ix (nz m)) by (rewrite H0; unfold zc1, Ui; ring).
    replace (iz + 1)%Z with (nz m) by lia. pose proof (ughost_N ix ltac:(lia)) as V1. rewrite <- H0 in V1. apply V1. apply G. now right. }
  assert (GW : D33 m (Ui m (ix-1) iz) * (Dl (U (Ui m (ix-1) (iz + 1))) - Dl (U (Ui m (ix-1) iz))) = D33 m (Ui m (ix-1) iz) * (- 2 * zDirNW m ix iz * Dl (U (Ui m (ix-1) iz)))).
  { unfold zDirNW. replace (zc1 m ix iz + nx m - 1)%Z with (Ui m (ix - 1) (nz m)) by (rewrite H0; unfold zc1, Ui; ring).
    replace (iz + 1)%Z with (nz m) by lia. pose proof (ughost_N (ix - 1) ltac:(lia)) as V1. rewrite <- H0 in V1. apply V1. apply G. now left. }
  rewrite (shear_term_l _ _ _ _ _ GE), (shear_term_l _ _ _ _ _ GW). clear GE GW G.
  unfold z_uSW, z_uSE, z_uNW, z_uNE, z_vS, z_vW, z_vC, z_vE, z_vN, z_pS, z_pN, zinW, zinE.
  rewrite SS, SN, z_PS, z_yE, z_yW. clear SS SN.
  flags; field; auto.
Qed.

Lemma z_linearisation : In (tv m (Vi m ix iz)) [-1; 2]%Z ->
  z_residual m ix iz f' - z_residual m ix iz f = row_dot eu ev ep (z_row m ix iz) d.
Proof.
  intros Ty. cbn [In] in Ty. destruct Ty as [Ty|[Ty|[]]]; symmetry in Ty.
  - apply z_regular. apply (ok_v_inner m T ix iz ltac:(lia) Hiz Ty).
  - destruct (Z.eq_dec iz 0) as [H0|N0]; [now apply z_south|].
    destruct (Z.eq_dec iz (nz m - 1)) as [H1|N1]; [now apply z_north|]. apply z_regular. lia.
Qed.
End Z.

(** ** Continuity *)
Section C.
Variables (m : mesh) (eu ev ep : Z -> Z) (d : Z -> R) (f f' : fields).
Hypothesis T : tags_ok m.
Hypothesis B : bc_ok m f.
Hypothesis B' : bc_ok m f'.
Hypothesis I : incremented m eu ev ep d f f'.
Notation Dl := (delta f f').
Notation con := (contrib m eu ev ep d).

Lemma con_cont t b a : (b = true -> type_of m t <> 13%Z) -> type_of m t <> 30%Z -> type_of m t <> 13%Z ->
  con (negb (type_of m t =? 13)%Z, t, a) = con (negb (type_of m t =? 30)%Z, t, a).
Proof. intros _ H1 H2. now rewrite (proj2 (Z.eqb_neq _ _) H1), (proj2 (Z.eqb_neq _ _) H2). Qed.

Lemma c_linearisation k l : (0 <= k < nx m - 1)%Z -> (0 <= l < nz m - 1)%Z -> tp m (Pi m k l) = (-1)%Z -> dt m <> 0 ->
  (* no face of an active cell is in the air *)
  tu m (Ui m k (l + 1)) <> 30%Z -> tu m (Ui m (k + 1) (l + 1)) <> 30%Z ->
  tv m (Vi m (k + 1) l) <> 30%Z -> tv m (Vi m (k + 1) (l + 1)) <> 30%Z ->
  c_residual m k l f' - c_residual m k l f =
  row_dot eu ev ep (c_row m k l) d + b2R (ccomp m (Pi m k l)) * bet m (Pi m k l) / dt m * celvol m * d (ep (Pi m k l)).
Proof.
  intros Hk Hl Ty Hdt A1 A2 A3 A4.
  pose proof (ok_dx m T) as Hdx. pose proof (ok_dz m T) as Hdz.
  unfold c_row. rewrite row_dot_entries. unfold c_requests. cbn [fold_right].
  change (cc1 m k l) with (Ui m k (l + 1)).
  replace (Ui m k (l + 1) + 1)%Z with (Ui m (k + 1) (l + 1)) by (unfold Ui; ring).
  replace (cc3 m k l) with (Vi m (k + 1) l) by (unfold cc3, nxvz, Vi; ring).
  replace (Vi m (k + 1) l + nxvz m)%Z with (Vi m (k + 1) (l + 1)) by (unfold nxvz, Vi; ring).
  assert (N13 : forall i j, (0 <= i < nx m)%Z -> (0 < j < nz m)%Z -> tu m (Ui m i j) <> 13%Z).
  { intros i j Hi Hj E. apply (u_inner_code m T i j Hi Hj). rewrite E. cbn. tauto. }
  assert (M13 : forall i j, (0 < i < nx m)%Z -> (0 <= j < nz m)%Z -> tv m (Vi m i j) <> 13%Z).
  { intros i j Hi Hj E. apply (v_inner_code m T i j Hi Hj). rewrite E. cbn. tauto. }
  assert (swap : forall x : Z, x <> 13%Z -> x <> 30%Z -> negb (x =? 13)%Z = negb (x =? 30)%Z).
  { intros x H1 H2. now rewrite (proj2 (Z.eqb_neq _ _) H1), (proj2 (Z.eqb_neq _ _) H2). }
  rewrite (swap (tu m (Ui m k (l + 1)))) by (try assumption; apply N13; lia).
  rewrite (swap (tu m (Ui m (k + 1) (l + 1)))) by (try assumption; apply N13; lia).
  rewrite (swap (tv m (Vi m (k + 1) l))) by (try assumption; apply M13; lia).
  rewrite (swap (tv m (Vi m (k + 1) (l + 1)))) by (try assumption; apply M13; lia).
  rewrite !(con_U m eu ev ep d f f' T B B' I) by (try lia; apply (u_inner_code m T); lia).
  rewrite !(con_V m eu ev ep d f f' T I) by (try lia; apply (v_inner_code m T); lia).
  rewrite <- (proj2 (inc_p _ _ _ _ _ _ _ I (Pi m k l) Ty)).
  assert (DD := d_div m f f' T k l Hk ltac:(unfold air; rewrite Ty; reflexivity)).
  unfold c_residual. change (cc2 m k l) with (Pi m k l).
  replace (div_u m f' (Pi m k l)) with (div_u m f (Pi m k l) + OOP m * (dex m f f' k l + dez m f f' k l)) by lra.
  unfold dex, dez. unfold celvol. field. auto.
Qed.
End C.
