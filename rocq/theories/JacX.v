(** The Newton x row is the derivative of the x residual. *)
From Coq Require Import ZArith Reals List Bool Lia Lra.
Import ListNotations.
From Verif Require Import StokesModel StokesProofs StokesX JacModel JacProofs.
Local Open Scope R_scope.

Section X.
Variables (m : mesh) (w : newton) (eu ev ep : Z -> Z) (d : Z -> R) (ft : R -> fields) (L : law).
Hypothesis T : tags_ok m.
Hypothesis PA : path m eu ev ep d ft.
Hypothesis TG : tangent_ok m w L (ft 0).
Notation f := (ft 0).
Notation Dl := (delta (ft 0) (ft 1)).
Notation con := (contrib m eu ev ep d).
Notation third := (cp m * OOP m / 3).
Variables (ix iz iW : Z).
Hypothesis Hix : (0 <= ix < nx m - 1)%Z.
Hypothesis Hiz : (0 < iz < nz m)%Z.
Hypothesis HiW : (0 <= iW < nx m - 1)%Z.
Notation Du i j := (Dl (U (Ui m i j))).
Notation Dv i j := (Dl (V (Vi m i j))).
Notation Dp i j := (Dl (P (Pi m i j))).

(** The western column. *)
Hypothesis eW : JxW m ix iz = Ui m iW iz.
Hypothesis eSW : JxSW m ix iz = Ui m iW (iz - 1).
Hypothesis eNW : JxNW m ix iz = Ui m iW (iz + 1).
Hypothesis evSW : JzSW m ix iz = Vi m (iW + 1) (iz - 1).
Hypothesis evNW : JzNW m ix iz = Vi m (iW + 1) iz.
Hypothesis ePW : JpW m ix iz = Pi m iW (iz - 1).
Hypothesis Hwest : west_ok m ix iz = true.
Hypothesis shu : forall j, (iz - 1 <= j <= iz + 1)%Z -> Du (iW + 1) j = Du ix j.
Hypothesis shv : forall j, (iz - 1 <= j <= iz)%Z -> Dv ix j = Dv (iW + 1) j /\ Dv (iW + 2) j = Dv (ix + 1) j.
Hypothesis Hkw : iW = (if (ix =? 0)%Z then (if perx w then ncx m - 1 else 0) else ix - 1)%Z.
Hypothesis HSxx : SxxW m ix iz = 0 /\ SxxE m ix iz = 0.

(** Rock around the node. *)
Hypothesis rock_p : forall i j, i = iW \/ i = ix -> (0 <= j < nz m - 1)%Z -> (iz - 2 <= j <= iz)%Z -> tp m (Pi m i j) = (-1)%Z.
Hypothesis rock_g : forall i j, i = iW \/ i = (iW + 1)%Z \/ i = ix \/ i = (ix + 1)%Z -> (iz - 1 <= j <= iz)%Z -> tg m (Ui m i j) <> 30%Z.
Hypothesis rock_S : tu m (Ui m ix (iz - 1)) <> 30%Z.
Hypothesis rock_N : tu m (Ui m ix (iz + 1)) <> 30%Z.
(** The ghost rows have one type. *)
Hypothesis one_S : forall i, i = iW \/ i = (ix + 1)%Z -> tu m (Ui m i (iz - 1)) = 13%Z -> tu m (Ui m ix (iz - 1)) = 13%Z.
Hypothesis one_N : forall i, i = iW \/ i = (ix + 1)%Z -> tu m (Ui m i (iz + 1)) = 13%Z -> tu m (Ui m ix (iz + 1)) = 13%Z.
(** Free slip below or above: nothing moves the shear strain there. *)
Hypothesis slip_S : JinS m ix iz = 0 -> iz = 1%Z /\ (forall i, i = iW \/ i = ix \/ i = (ix + 1)%Z -> Du i (iz - 1) = Du i iz) /\
  (forall i, i = iW \/ i = (iW + 1)%Z \/ i = (ix + 1)%Z \/ i = (ix + 2)%Z -> Dv i (iz - 1) = 0) /\ j34 w (JgS m ix iz) = 0.
Hypothesis slip_N : JinN m ix iz = 0 -> (iz = nz m - 1)%Z /\ (forall i, i = iW \/ i = ix \/ i = (ix + 1)%Z -> Du i (iz + 1) = Du i iz) /\
  (forall i, i = iW \/ i = (iW + 1)%Z \/ i = (ix + 1)%Z \/ i = (ix + 2)%Z -> Dv i iz = 0) /\ j34 w (JgN m ix iz) = 0.
(** The far columns of Vz: entered when unknown, otherwise carrying no shear. *)
Hypothesis far_W : forall j, j = (iz - 1)%Z \/ j = iz ->
  let fl := if (j =? iz)%Z then JinNWW m ix iz else JinSWW m ix iz in (1 - fl) * (Dv (iW + 1) j - Dv iW j) = 0.
Hypothesis far_E : forall j, j = (iz - 1)%Z \/ j = iz ->
  let fl := if (j =? iz)%Z then JinNEE m ix iz else JinSEE m ix iz in (1 - fl) * (Dv (ix + 2) j - Dv (ix + 1) j) = 0.
Notation far_guard_W t := (((1 <? ix)%Z || (((ix =? 0) || (ix =? 1)) && (tv m t =? -1))%Z) && negb (tv m t =? 30)%Z).
Notation far_guard_E t := (((ix <? nx m - 2)%Z || (((ix =? nx m - 2) || (ix =? nx m - 1)) && (tv m t =? -1))%Z) && negb (tv m t =? 30)%Z).
Hypothesis con_SWW : forall a, con (far_guard_W (JzSWW m ix iz), V (JzSWW m ix iz), a * JinSWW m ix iz) = a * JinSWW m ix iz * Dv iW (iz - 1).
Hypothesis con_NWW : forall a, con (far_guard_W (JzNWW m ix iz), V (JzNWW m ix iz), a * JinNWW m ix iz) = a * JinNWW m ix iz * Dv iW iz.
Hypothesis con_SEE : forall a, con (far_guard_E (JzSEE m ix iz), V (JzSEE m ix iz), a * JinSEE m ix iz) = a * JinSEE m ix iz * Dv (ix + 2) (iz - 1).
Hypothesis con_NEE : forall a, con (far_guard_E (JzNEE m ix iz), V (JzNEE m ix iz), a * JinNEE m ix iz) = a * JinNEE m ix iz * Dv (ix + 2) iz.
(** No prescribed velocity on those columns folds back. *)
Hypothesis no_dir : tv m (JzSWW m ix iz) <> 11%Z /\ tv m (JzNWW m ix iz) <> 11%Z /\ tv m (JzSEE m ix iz) <> 11%Z /\ tv m (JzNEE m ix iz) <> 11%Z.
(** The stabilisation of the matrix and of the residual agree. *)
Hypothesis same_corr : jx_corr m w ix iz = x_corr m ix iz.

(** Indices. *)
Lemma i_c1 : xc1 m ix iz = Ui m ix iz. Proof. reflexivity. Qed.
Lemma i_S : JxS m ix iz = Ui m ix (iz - 1). Proof. unfold JxS, xc1, Ui. ring. Qed.
Lemma i_N : JxN m ix iz = Ui m ix (iz + 1). Proof. unfold JxN, xc1, Ui. ring. Qed.
Lemma i_E : JxE m ix iz = Ui m (ix + 1) iz. Proof. unfold JxE, xc1, Ui. ring. Qed.
Lemma i_SE : JxSE m ix iz = Ui m (ix + 1) (iz - 1). Proof. unfold JxSE, JxS, xc1, Ui. ring. Qed.
Lemma i_NE : JxNE m ix iz = Ui m (ix + 1) (iz + 1). Proof. unfold JxNE, JxN, xc1, Ui. ring. Qed.
Lemma i_vSE : JzSE m ix iz = Vi m (ix + 1) (iz - 1). Proof. unfold JzSE, xc3, nxvz, Vi. ring. Qed.
Lemma i_vNE : JzNE m ix iz = Vi m (ix + 1) iz. Proof. unfold JzNE, xc3, nxvz, Vi. ring. Qed.
Lemma i_vSSE : JzSSE m ix iz = Vi m (ix + 1) (iz - 2). Proof. unfold JzSSE. rewrite i_vSE. unfold Vi, nxvz. ring. Qed.
Lemma i_vNNE : JzNNE m ix iz = Vi m (ix + 1) (iz + 1). Proof. unfold JzNNE. rewrite i_vNE. unfold Vi, nxvz. ring. Qed.
Lemma i_vSSW : JzSSW m ix iz = Vi m (iW + 1) (iz - 2). Proof. unfold JzSSW. rewrite evSW. unfold Vi, nxvz. ring. Qed.
Lemma i_vNNW : JzNNW m ix iz = Vi m (iW + 1) (iz + 1). Proof. unfold JzNNW. rewrite evNW. unfold Vi, nxvz. ring. Qed.
Lemma i_PE : JpE m ix iz = Pi m ix (iz - 1). Proof. unfold JpE, xc2, ncx, Pi. ring. Qed.
Lemma i_PSW : JpSW m ix iz = Pi m iW (iz - 2). Proof. unfold JpSW. rewrite ePW. unfold Pi, ncx. ring. Qed.
Lemma i_PSE : JpSE m ix iz = Pi m ix (iz - 2). Proof. unfold JpSE. rewrite i_PE. unfold Pi, ncx. ring. Qed.
Lemma i_PNW : JpNW m ix iz = Pi m iW iz. Proof. unfold JpNW. rewrite ePW. unfold Pi, ncx. ring. Qed.
Lemma i_PNE : JpNE m ix iz = Pi m ix iz. Proof. unfold JpNE. rewrite i_PE. unfold Pi, ncx. ring. Qed.
Lemma i_gN : JgN m ix iz = Ui m ix iz. Proof. reflexivity. Qed.
Lemma i_gS : JgS m ix iz = Ui m ix (iz - 1). Proof. unfold JgS, xc1, Ui. ring. Qed.

(** Flags. *)
Lemma f_W : JinW m ix iz = 1.
Proof. unfold JinW. rewrite ePW, rock_p by (auto; lia). reflexivity. Qed.
Lemma f_E : JinE m ix iz = 1.
Proof. unfold JinE. rewrite i_PE, rock_p by (auto; lia). reflexivity. Qed.
Lemma f_Sv : JinSv m ix iz = 1.
Proof. unfold JinSv, flag. rewrite i_gS, (proj2 (Z.eqb_neq _ _)) by (apply rock_g; lia). reflexivity. Qed.
Lemma f_Nv : JinNv m ix iz = 1.
Proof. unfold JinNv, flag. rewrite i_gN, (proj2 (Z.eqb_neq _ _)) by (apply rock_g; lia). reflexivity. Qed.
Lemma f_SEv : JinSEv m ix iz = 1.
Proof.
  unfold JinSEv, Jeast, JgSE, flag. replace (ix <? nx m - 1)%Z with true by lia. replace (ix =? nx m - 1)%Z with false by lia.
  rewrite i_gS. replace (Ui m ix (iz - 1) + 1)%Z with (Ui m (ix + 1) (iz - 1)) by (unfold Ui; ring).
  cbn [orb andb]. rewrite (proj2 (Z.eqb_neq _ _)) by (apply rock_g; lia). reflexivity.
Qed.
Lemma f_NEv : JinNEv m ix iz = 1.
Proof.
  unfold JinNEv, Jeast, JgNE, flag. replace (ix <? nx m - 1)%Z with true by lia. replace (ix =? nx m - 1)%Z with false by lia.
  rewrite i_gN. replace (Ui m ix iz + 1)%Z with (Ui m (ix + 1) iz) by (unfold Ui; ring).
  cbn [orb andb]. rewrite (proj2 (Z.eqb_neq _ _)) by (apply rock_g; lia). reflexivity.
Qed.
Hypothesis f_SWv : JinSWv m ix iz = 1.
Hypothesis f_NWv : JinNWv m ix iz = 1.
Lemma f_S : JinS m ix iz = 1 \/ JinS m ix iz = 0.
Proof. unfold JinS, flag, b2R. destruct (negb _ && negb _); auto. Qed.
Lemma f_N : JinN m ix iz = 1 \/ JinN m ix iz = 0.
Proof. unfold JinN, flag, b2R. destruct (negb _ && negb _); auto. Qed.
Lemma f_SWc : JinSWc m ix iz = b2R (1 <? iz)%Z.
Proof. unfold JinSWc, flag. destruct (Z.ltb_spec 1 iz); [|reflexivity]. rewrite i_PSW, rock_p by (auto; lia). reflexivity. Qed.
Lemma f_SEc : JinSEc m ix iz = b2R (1 <? iz)%Z.
Proof. unfold JinSEc, flag. destruct (Z.ltb_spec 1 iz); [|reflexivity]. rewrite i_PSE, rock_p by (auto; lia). reflexivity. Qed.
Lemma f_NWc : JinNWc m ix iz = b2R (iz <? nz m - 1)%Z.
Proof.
  unfold JinNWc, flag. replace (nz m + 1 - 2)%Z with (nz m - 1)%Z by lia.
  destruct (Z.ltb_spec iz (nz m - 1)); [|reflexivity]. rewrite i_PNW, rock_p by (auto; lia). reflexivity.
Qed.
Lemma f_NEc : JinNEc m ix iz = b2R (iz <? nz m - 1)%Z.
Proof.
  unfold JinNEc, flag. replace (nz m + 1 - 2)%Z with (nz m - 1)%Z by lia.
  destruct (Z.ltb_spec iz (nz m - 1)); [|reflexivity]. rewrite i_PNE, rock_p by (auto; lia). reflexivity.
Qed.
Lemma f_wS : JwS m ix iz = if (1 <? iz)%Z then / 4 else / 2.
Proof. unfold JwS. rewrite f_W, f_E, f_SWc, f_SEc. unfold b2R. destruct (1 <? iz)%Z; [apply inv4|apply inv2]. Qed.
Lemma f_wN : JwN m ix iz = if (iz <? nz m - 1)%Z then / 4 else / 2.
Proof. unfold JwN. rewrite f_W, f_E, f_NWc, f_NEc. unfold b2R. destruct (iz <? nz m - 1)%Z; [apply inv4|apply inv2]. Qed.

Lemma east : east_ok m ix iz = true.
Proof. unfold east_ok. replace (ix <? nx m - 1)%Z with true by lia. reflexivity. Qed.

(** Coefficients vanish on a free-slip row. *)
Lemma zero_S : tu m (Ui m ix (iz - 1)) = 13%Z -> jx_uS m w ix iz = 0 /\ jx_uSW m w ix iz = 0 /\ jx_uSE m w ix iz = 0.
Proof.
  intros G. assert (S0 : JinS m ix iz = 0) by (unfold JinS; rewrite i_S, G; reflexivity).
  destruct (slip_S S0) as [I1 _].
  unfold jx_uS, jx_uSW, jx_uSE. rewrite S0, f_SWc, f_SEc. replace (1 <? iz)%Z with false by lia. cbn [b2R].
  repeat split; unfold Rdiv; ring.
Qed.
Lemma zero_N : tu m (Ui m ix (iz + 1)) = 13%Z -> jx_uN m w ix iz = 0 /\ jx_uNW m w ix iz = 0 /\ jx_uNE m w ix iz = 0.
Proof.
  intros G. assert (S0 : JinN m ix iz = 0) by (unfold JinN; rewrite i_N, G; reflexivity).
  destruct (slip_N S0) as [I1 _].
  unfold jx_uN, jx_uNW, jx_uNE. rewrite S0, f_NWc, f_NEc. replace (iz <? nz m - 1)%Z with false by lia. cbn [b2R].
  repeat split; unfold Rdiv; ring.
Qed.

Lemma row_S : (iz - 1 = 0 /\ iz = 1 \/ iz - 1 = nz m /\ iz = nz m - 1 \/ 0 < iz - 1 < nz m)%Z. Proof. lia. Qed.
Lemma row_N : (iz + 1 = 0 /\ iz = 1 \/ iz + 1 = nz m /\ iz = nz m - 1 \/ 0 < iz + 1 < nz m)%Z. Proof. lia. Qed.

(** ** The assembled row applied to [d]. *)
Notation cv := (celvol m).
Lemma x_row_value : (0 < iz < nz m)%Z ->
  row_dot eu ev ep (entries m (jx_requests m w ix iz)) d =
  cv * (jx_uSW m w ix iz * Du iW (iz - 1) + jx_uS m w ix iz * Du ix (iz - 1) + jx_uSE m w ix iz * Du (ix + 1) (iz - 1)
   + jx_uW m w ix iz * Du iW iz + (jx_uC0 m w ix iz + jx_corr m w ix iz) * Du ix iz + jx_uE m w ix iz * Du (ix + 1) iz
   + jx_uNW m w ix iz * Du iW (iz + 1) + jx_uN m w ix iz * Du ix (iz + 1) + jx_uNE m w ix iz * Du (ix + 1) (iz + 1)
   + (if (1 <? iz)%Z then jx_vSSW m w ix iz * Dv (iW + 1) (iz - 2) + jx_vSSE m w ix iz * Dv (ix + 1) (iz - 2) else 0)
   + jx_vSWW m w ix iz * Dv iW (iz - 1) + jx_vSW m w ix iz * Dv (iW + 1) (iz - 1) + jx_vSE m w ix iz * Dv (ix + 1) (iz - 1) + jx_vSEE m w ix iz * Dv (ix + 2) (iz - 1)
   + jx_vNWW m w ix iz * Dv iW iz + jx_vNW m w ix iz * Dv (iW + 1) iz + jx_vNE m w ix iz * Dv (ix + 1) iz + jx_vNEE m w ix iz * Dv (ix + 2) iz
   + (if (iz <? nz m - 1)%Z then jx_vNNW m w ix iz * Dv (iW + 1) (iz + 1) + jx_vNNE m w ix iz * Dv (ix + 1) (iz + 1) else 0)
   + (if (1 <? iz)%Z then jx_pSW m w ix iz * Dp iW (iz - 2) + jx_pSE m w ix iz * Dp ix (iz - 2) else 0)
   + jx_pW m w ix iz * Dp iW (iz - 1) + jx_pE m w ix iz * Dp ix (iz - 1)
   + (if (iz <? nz m - 1)%Z then jx_pNW m w ix iz * Dp iW iz + jx_pNE m w ix iz * Dp ix iz else 0)).
Proof.
  intros _. rewrite row_dot_entries. unfold jx_requests. cbn [fold_right].
  rewrite !(con_set m eu ev ep d _ _ _ _ Hwest), !(con_set m eu ev ep d _ _ _ _ east).
  assert (CSWW : forall x, con (x, V (JzSWW m ix iz), jx_vSWW m w ix iz * cv) = con (x, V (JzSWW m ix iz), (- (1/4) * j13 w (JpW m ix iz) * JinSWv m ix iz / dx m ^ 2 * cv) * JinSWW m ix iz)).
  { intros. f_equal. f_equal. unfold jx_vSWW. unfold Rdiv. ring. }
  assert (CNWW : forall x, con (x, V (JzNWW m ix iz), jx_vNWW m w ix iz * cv) = con (x, V (JzNWW m ix iz), (- (1/4) * j13 w (JpW m ix iz) * JinNWv m ix iz / dx m ^ 2 * cv) * JinNWW m ix iz)).
  { intros. f_equal. f_equal. unfold jx_vNWW. unfold Rdiv. ring. }
  assert (CSEE : forall x, con (x, V (JzSEE m ix iz), jx_vSEE m w ix iz * cv) = con (x, V (JzSEE m ix iz), (- (1/4) * j13 w (JpE m ix iz) * JinSEv m ix iz / dx m ^ 2 * cv) * JinSEE m ix iz)).
  { intros. f_equal. f_equal. unfold jx_vSEE. unfold Rdiv. ring. }
  assert (CNEE : forall x, con (x, V (JzNEE m ix iz), jx_vNEE m w ix iz * cv) = con (x, V (JzNEE m ix iz), (- (1/4) * j13 w (JpE m ix iz) * JinNEv m ix iz / dx m ^ 2 * cv) * JinNEE m ix iz)).
  { intros. f_equal. f_equal. unfold jx_vNEE. unfold Rdiv. ring. }
  rewrite CSWW, CNWW, CSEE, CNEE, con_SWW, con_NWW, con_SEE, con_NEE. clear CSWW CNWW CSEE CNEE.
  rewrite eW, eSW, eNW, evSW, evNW, ePW, i_c1, i_S, i_N, i_E, i_SE, i_NE, i_vSE, i_vNE, i_vSSE, i_vNNE, i_vSSW, i_vNNW, i_PE, i_PSW, i_PSE, i_PNW, i_PNE.
  rewrite (fold_U m eu ev ep d ft T PA iW (iz - 1) iz (jx_uSW m w ix iz) cv ltac:(lia) row_S)
    by (intros G; apply (one_S iW (or_introl eq_refl)) in G; apply (zero_S G)).
  rewrite (fold_U m eu ev ep d ft T PA ix (iz - 1) iz (jx_uS m w ix iz) cv ltac:(lia) row_S) by (intros G; apply (zero_S G)).
  rewrite (fold_U m eu ev ep d ft T PA (ix + 1) (iz - 1) iz (jx_uSE m w ix iz) cv ltac:(lia) row_S)
    by (intros G; apply (one_S (ix + 1)%Z (or_intror eq_refl)) in G; apply (zero_S G)).
  rewrite (fold_U m eu ev ep d ft T PA iW (iz + 1) iz (jx_uNW m w ix iz) cv ltac:(lia) row_N)
    by (intros G; apply (one_N iW (or_introl eq_refl)) in G; apply (zero_N G)).
  rewrite (fold_U m eu ev ep d ft T PA ix (iz + 1) iz (jx_uN m w ix iz) cv ltac:(lia) row_N) by (intros G; apply (zero_N G)).
  rewrite (fold_U m eu ev ep d ft T PA (ix + 1) (iz + 1) iz (jx_uNE m w ix iz) cv ltac:(lia) row_N)
    by (intros G; apply (one_N (ix + 1)%Z (or_intror eq_refl)) in G; apply (zero_N G)).
  rewrite !(con_U m eu ev ep d _ _ T (B0 m eu ev ep d ft PA) (B1 m eu ev ep d ft PA) (path_unit m eu ev ep d ft PA)) by (try lia; apply (u_not_ghost m T); lia).
  rewrite !(con_V m eu ev ep d _ _ T (path_unit m eu ev ep d ft PA) (iW + 1) (iz - 1)), !(con_V m eu ev ep d _ _ T (path_unit m eu ev ep d ft PA) (iW + 1) iz),
    !(con_V m eu ev ep d _ _ T (path_unit m eu ev ep d ft PA) (ix + 1) (iz - 1)), !(con_V m eu ev ep d _ _ T (path_unit m eu ev ep d ft PA) (ix + 1) iz)
    by (try lia; apply (v_not_ghost m T); lia).
  rewrite !(con_P m eu ev ep d _ _ T (path_unit m eu ev ep d ft PA) iW (iz - 1)), !(con_P m eu ev ep d _ _ T (path_unit m eu ev ep d ft PA) ix (iz - 1)) by lia.
  unfold jx_uC, jx_uW', jx_uE', jx_vNW', jx_vNE', jx_vSW', jx_vSE'.
  rewrite eSW, eNW, i_S, i_N, i_SE, i_NE.
  destruct no_dir as (n1 & n2 & n3 & n4).
  assert (V1 : (1 <? iz)%Z = true -> forall i a, i = (iW + 1)%Z \/ i = (ix + 1)%Z ->
    con (negb (tv m (Vi m i (iz - 2)) =? 30)%Z, V (Vi m i (iz - 2)), a) = a * Dv i (iz - 2)).
  { intros Q i a Hi. apply (con_V m eu ev ep d _ _ T (path_unit m eu ev ep d ft PA)); [lia|lia|apply (v_not_ghost m T); lia]. }
  assert (V2 : (iz <? nz m - 1)%Z = true -> forall i a, i = (iW + 1)%Z \/ i = (ix + 1)%Z ->
    con (negb (tv m (Vi m i (iz + 1)) =? 30)%Z, V (Vi m i (iz + 1)), a) = a * Dv i (iz + 1)).
  { intros Q i a Hi. apply (con_V m eu ev ep d _ _ T (path_unit m eu ev ep d ft PA)); [lia|lia|apply (v_not_ghost m T); lia]. }
  assert (P1 : (1 <? iz)%Z = true -> forall i a, i = iW \/ i = ix ->
    con (negb (tp m (Pi m i (iz - 2)) =? 30)%Z, P (Pi m i (iz - 2)), a) = a * Dp i (iz - 2)).
  { intros Q i a Hi. apply (con_P m eu ev ep d _ _ T (path_unit m eu ev ep d ft PA)); lia. }
  assert (P2 : (iz <? nz m - 1)%Z = true -> forall i a, i = iW \/ i = ix ->
    con (negb (tp m (Pi m i iz) =? 30)%Z, P (Pi m i iz), a) = a * Dp i iz).
  { intros Q i a Hi. apply (con_P m eu ev ep d _ _ T (path_unit m eu ev ep d ft PA)); lia. }
  unfold dirichlet in *.
  rewrite !(proj2 (Z.eqb_neq (tv m (JzSWW m ix iz)) 11) n1), !(proj2 (Z.eqb_neq (tv m (JzNWW m ix iz)) 11) n2),
    !(proj2 (Z.eqb_neq (tv m (JzSEE m ix iz)) 11) n3), !(proj2 (Z.eqb_neq (tv m (JzNEE m ix iz)) 11) n4).
  replace (jx_vSWW m w ix iz) with (- (1/4) * j13 w (JpW m ix iz) * JinSWv m ix iz / dx m ^ 2 * JinSWW m ix iz) by (unfold jx_vSWW, Rdiv; ring).
  replace (jx_vNWW m w ix iz) with (- (1/4) * j13 w (JpW m ix iz) * JinNWv m ix iz / dx m ^ 2 * JinNWW m ix iz) by (unfold jx_vNWW, Rdiv; ring).
  replace (jx_vSEE m w ix iz) with (- (1/4) * j13 w (JpE m ix iz) * JinSEv m ix iz / dx m ^ 2 * JinSEE m ix iz) by (unfold jx_vSEE, Rdiv; ring).
  replace (jx_vNEE m w ix iz) with (- (1/4) * j13 w (JpE m ix iz) * JinNEv m ix iz / dx m ^ 2 * JinNEE m ix iz) by (unfold jx_vNEE, Rdiv; ring).
  rewrite ePW, i_PE.
  destruct (1 <? iz)%Z; cbn [andb]; destruct (iz <? nz m - 1)%Z; cbn [andb]; rewrite ?con_off;
    rewrite ?(V1 eq_refl), ?(V2 eq_refl), ?(P1 eq_refl), ?(P2 eq_refl) by auto;
    clear; unfold Rdiv; ring.
Qed.

(** ** Derivative of the residual along the path. *)
Notation eX := (eX m ft). Notation eZ := (eZ m ft). Notation gam := (gam m ft). Notation gamn := (gamn m ft).
Definition jsS := (if (1 <? iz)%Z then iz - 2 else iz - 1)%Z.
Definition jnN := (if (iz <? nz m - 1)%Z then iz else iz - 1)%Z.
Definition mean (C : Z -> Z -> R) js jn := / 4 * (C iW js + C ix js + C iW jn + C ix jn).

Lemma vavg_S C : vavg m w C (Ui m ix (iz - 1)) = mean (fun i j => C (Pi m i j)) jsS (iz - 1).
Proof.
  unfold mean, jsS. apply vavg_eq; [lia|apply rock_g; lia|exact Hkw| | | |].
  - replace (ix =? nx m - 1)%Z with false by lia. reflexivity.
  - destruct (Z.ltb_spec 1 iz); destruct (Z.eqb_spec (iz - 1) 0); lia.
  - destruct (Z.eqb_spec (iz - 1) (nz m - 1)); lia.
  - intros i j Hi Hj. destruct (Z.ltb_spec 1 iz); apply rock_p; lia.
Qed.
Lemma vavg_N C : vavg m w C (Ui m ix iz) = mean (fun i j => C (Pi m i j)) (iz - 1) jnN.
Proof.
  unfold mean, jnN. apply vavg_eq; [lia|apply rock_g; lia|exact Hkw| | | |].
  - replace (ix =? nx m - 1)%Z with false by lia. reflexivity.
  - destruct (Z.eqb_spec iz 0); lia.
  - destruct (Z.ltb_spec iz (nz m - 1)); destruct (Z.eqb_spec iz (nz m - 1)); lia.
  - intros i j Hi Hj. destruct (Z.ltb_spec iz (nz m - 1)); apply rock_p; lia.
Qed.

Lemma der_cell i : i = iW \/ i = ix ->
  derivable_pt_lim (fun t => nsxx m w L (ft t) (Pi m i (iz - 1)) - npc m w L (ft t) (Pi m i (iz - 1))) 0
    (j11 w (Pi m i (iz - 1)) * eX i (iz - 1) + j12 w (Pi m i (iz - 1)) * eZ i (iz - 1) + j13 w (Pi m i (iz - 1)) * gamn i (iz - 1)
     + (j14 w (Pi m i (iz - 1)) - 1) * Dp i (iz - 1)).
Proof.
  intros Hi. assert (A : tp m (Pi m i (iz - 1)) = (-1)%Z) by (apply rock_p; lia).
  assert (A' : air (tp m (Pi m i (iz - 1))) = false) by now rewrite A.
  eapply dlim_ext; [|exact (tan_x _ _ _ _ TG _ A' _ _ _ _)].
  intros t. unfold nsxx, npc. rewrite A'. unfold nExx, nEzz.
  rewrite (path_exx m eu ev ep d ft T PA i (iz - 1) t), (path_ezz m eu ev ep d ft T PA i (iz - 1) t), (path_p m eu ev ep d ft PA i (iz - 1) t) by (try lia; exact A).
  rewrite (path_gxz m w eu ev ep d ft T PA i (iz - 1) t) by (try lia; try exact A; intros; apply rock_g; lia).
  replace (exxd m f (Pi m i (iz - 1)) + t * eX i (iz - 1) + exx0 m (Pi m i (iz - 1))) with (exxd m f (Pi m i (iz - 1)) + exx0 m (Pi m i (iz - 1)) + t * eX i (iz - 1)) by ring.
  replace (ezzd m f (Pi m i (iz - 1)) + t * eZ i (iz - 1) + ezz0 m (Pi m i (iz - 1))) with (ezzd m f (Pi m i (iz - 1)) + ezz0 m (Pi m i (iz - 1)) + t * eZ i (iz - 1)) by ring.
  reflexivity.
Qed.

Lemma der_vertex j js jn : (j = iz - 1 /\ js = jsS /\ jn = iz - 1 \/ j = iz /\ js = iz - 1 /\ jn = jnN)%Z ->
  derivable_pt_lim (fun t => nsxz m w L (ft t) (Ui m ix j)) 0
    (j31 w (Ui m ix j) * mean eX js jn + j32 w (Ui m ix j) * mean eZ js jn + j33 w (Ui m ix j) * gam ix j
     + j34 w (Ui m ix j) * mean (fun i j => Dp i j) js jn).
Proof.
  intros Hj.
  assert (G : tg m (Ui m ix j) <> 30%Z) by (apply rock_g; lia).
  assert (VA : forall C, vavg m w C (Ui m ix j) = mean (fun i j => C (Pi m i j)) js jn).
  { intros C. destruct Hj as [(-> & -> & ->)|(-> & -> & ->)]; [apply vavg_S|apply vavg_N]. }
  assert (RK : forall i j', i = iW \/ i = ix -> j' = js \/ j' = jn -> (0 <= i < nx m - 1)%Z /\ (0 <= j' < nz m - 1)%Z /\ tp m (Pi m i j') = (-1)%Z).
  { intros i j' Hi Hj'. assert ((0 <= j' < nz m - 1)%Z /\ (iz - 2 <= j' <= iz)%Z) as [B1 B2].
    { unfold jsS, jnN in Hj. destruct (Z.ltb_spec 1 iz), (Z.ltb_spec iz (nz m - 1)); lia. }
    split; [lia|]. split; [exact B1|]. apply rock_p; assumption. }
  eapply dlim_ext; [|exact (tan_s _ _ _ _ TG _ G _ _ _ _)].
  intros t. unfold nsxz. rewrite (proj2 (Z.eqb_neq _ _) G). unfold vExx, vEzz, vGxz, vP. rewrite !VA. unfold mean.
  destruct (RK iW js) as (a1 & a2 & a3); auto. destruct (RK ix js) as (b1 & b2 & b3); auto.
  destruct (RK iW jn) as (c1 & c2 & c3); auto. destruct (RK ix jn) as (e1 & e2 & e3); auto.
  rewrite !(path_exx m eu ev ep d ft T PA _ _ t), !(path_ezz m eu ev ep d ft T PA _ _ t), !(path_p m eu ev ep d ft PA _ _ t) by assumption.
  rewrite (path_exz m eu ev ep d ft T PA ix j t) by (try lia; exact G).
  f_equal; field.
Qed.

Notation pE := (Pi m ix (iz - 1)). Notation pW := (Pi m iW (iz - 1)). Notation gN := (Ui m ix iz). Notation gS := (Ui m ix (iz - 1)).
Definition x_derivative : R :=
  ((((j11 w pE * eX ix (iz - 1) + j12 w pE * eZ ix (iz - 1) + j13 w pE * gamn ix (iz - 1) + (j14 w pE - 1) * Dp ix (iz - 1))
    - (j11 w pW * eX iW (iz - 1) + j12 w pW * eZ iW (iz - 1) + j13 w pW * gamn iW (iz - 1) + (j14 w pW - 1) * Dp iW (iz - 1))) / dx m
  + ((j31 w gN * mean eX (iz - 1) jnN + j32 w gN * mean eZ (iz - 1) jnN + j33 w gN * gam ix iz + j34 w gN * mean (fun i j => Dp i j) (iz - 1) jnN)
    - (j31 w gS * mean eX jsS (iz - 1) + j32 w gS * mean eZ jsS (iz - 1) + j33 w gS * gam ix (iz - 1) + j34 w gS * mean (fun i j => Dp i j) jsS (iz - 1))) / dz m)
  - x_corr m ix iz * Du ix iz) * - celvol m.

Lemma x_der : derivable_pt_lim (fun t => jx_residual m w ix iz L (ft t)) 0 x_derivative.
Proof.
  pose proof (ok_dx m T). pose proof (ok_dz m T).
  eapply dlim_ext with (g := fun t => (((nsxx m w L (ft t) pE - npc m w L (ft t) pE) - (nsxx m w L (ft t) pW - npc m w L (ft t) pW)) / dx m
      + (nsxz m w L (ft t) gN - nsxz m w L (ft t) gS) / dz m
      - (x_corr m ix iz * fu f (Ui m ix iz) - bx m (Ui m ix iz) + t * (x_corr m ix iz * Du ix iz))) * - celvol m).
  - intros t. unfold jx_residual. destruct HSxx as [-> ->]. fold (JpW m ix iz). cbv zeta.
    change (xPrW m ix iz) with (JpW m ix iz). rewrite ePW.
    change (xPrE m ix iz) with (JpE m ix iz). rewrite i_PE.
    change (xyN m ix iz) with (JgN m ix iz). change (xyS m ix iz) with (JgS m ix iz). rewrite i_gN, i_gS, i_c1.
    rewrite (aff_u m eu ev ep d ft T PA ix iz t) by lia. field. auto.
  - unfold x_derivative. apply dlim_scal. apply dlim_minus; [apply dlim_plus; apply dlim_div; apply dlim_minus|apply dlim_affine].
    + apply der_cell; auto.
    + apply der_cell; auto.
    + apply der_vertex; auto.
    + apply der_vertex; auto.
Qed.

Lemma x_core : derivable_pt_lim (fun t => jx_residual m w ix iz L (ft t)) 0
  (row_dot eu ev ep (entries m (jx_requests m w ix iz)) d).
Proof.
  pose proof (ok_dx m T) as Hdx. pose proof (ok_dz m T) as Hdz.
  refine (dlim_eq _ _ _ _ _ x_der). rewrite x_row_value by exact Hiz.
  rewrite same_corr.
  assert (FW1 := far_W (iz - 1)%Z (or_introl eq_refl)). assert (FW2 := far_W iz (or_intror eq_refl)).
  assert (FE1 := far_E (iz - 1)%Z (or_introl eq_refl)). assert (FE2 := far_E iz (or_intror eq_refl)).
  cbv zeta in FW1, FW2, FE1, FE2. rewrite Z.eqb_refl in FW2, FE2.
  replace (iz - 1 =? iz)%Z with false in FW1, FE1 by lia.
  unfold x_derivative, mean.
  unfold jx_uSW, jx_uS, jx_uSE, jx_uW, jx_uC0, jx_uE, jx_uNW, jx_uN, jx_uNE, jx_vSSW, jx_vSSE, jx_vSWW, jx_vSW, jx_vSE, jx_vSEE,
    jx_vNWW, jx_vNW, jx_vNE, jx_vNEE, jx_vNNW, jx_vNNE, jx_pSW, jx_pSE, jx_pW, jx_pE, jx_pNW, jx_pNE.
  rewrite f_W, f_E, f_Sv, f_Nv, f_SEv, f_NEv, f_SWv, f_NWv, f_SWc, f_SEc, f_NWc, f_NEc, f_wS, f_wN, i_PE, ePW, i_gN, i_gS.
  unfold jsS, jnN, JacProofs.eX, JacProofs.eZ, JacProofs.gamn, JacProofs.gam, dex, dez, celvol.
  replace (iz - 1 + 1)%Z with iz by lia. replace (iz - 2 + 1)%Z with (iz - 1)%Z by lia.
  replace (iW + 1 + 1)%Z with (iW + 2)%Z by lia. replace (ix + 1 + 1)%Z with (ix + 2)%Z by lia.
  (* shared column *)
  pose proof (shu (iz - 1)%Z ltac:(lia)) as U1. pose proof (shu iz ltac:(lia)) as U2. pose proof (shu (iz + 1)%Z ltac:(lia)) as U3.
  destruct (shv (iz - 1)%Z ltac:(lia)) as [V1 V1']. destruct (shv iz ltac:(lia)) as [V2 V2'].
  assert (K : forall a b c e, (1 - JinSWW m ix iz) * (Dv (iW + 1) (iz - 1) - Dv iW (iz - 1)) * a + (1 - JinNWW m ix iz) * (Dv (iW + 1) iz - Dv iW iz) * b
     + (1 - JinSEE m ix iz) * (Dv (ix + 2) (iz - 1) - Dv (ix + 1) (iz - 1)) * c + (1 - JinNEE m ix iz) * (Dv (ix + 2) iz - Dv (ix + 1) iz) * e = 0).
  { intros. rewrite FW1, FW2, FE1, FE2. ring. }
  pose proof (K (- j13 w pW / (4 * dx m ^ 2) * (dx m * dz m)) (- j13 w pW / (4 * dx m ^ 2) * (dx m * dz m)) (j13 w pE / (4 * dx m ^ 2) * (dx m * dz m)) (j13 w pE / (4 * dx m ^ 2) * (dx m * dz m))) as K0.
  match type of K0 with ?e = _ => match goal with |- ?l = ?r => cut (l + e = r); [intros Hc; rewrite K0, Rplus_0_r in Hc; exact Hc|] end end.
  clear K0.
  assert (CS : (1 <? iz)%Z = true /\ JinS m ix iz = 1 \/ (1 <? iz)%Z = false /\ JinS m ix iz = 1 \/ (1 <? iz)%Z = false /\ JinS m ix iz = 0).
  { destruct f_S as [E|E]; destruct (Z.ltb_spec 1 iz); auto. destruct (slip_S E). lia. }
  assert (CN : (iz <? nz m - 1)%Z = true /\ JinN m ix iz = 1 \/ (iz <? nz m - 1)%Z = false /\ JinN m ix iz = 1 \/ (iz <? nz m - 1)%Z = false /\ JinN m ix iz = 0).
  { destruct f_N as [E|E]; destruct (Z.ltb_spec iz (nz m - 1)); auto. destruct (slip_N E). lia. }
  clear FW1 FW2 FE1 FE2 K.
  assert (SL : JinS m ix iz = 0 -> Du iW (iz - 1) = Du iW iz /\ Du ix (iz - 1) = Du ix iz /\ Du (ix + 1) (iz - 1) = Du (ix + 1) iz /\
     Dv iW (iz - 1) = 0 /\ Dv (iW + 1) (iz - 1) = 0 /\ Dv (ix + 1) (iz - 1) = 0 /\ Dv (ix + 2) (iz - 1) = 0 /\ j34 w gS = 0).
  { intros E. destruct (slip_S E) as (_ & h1 & h2 & h3). rewrite i_gS in h3. rewrite !h1, !h2, h3 by tauto. repeat split; reflexivity. }
  assert (NL : JinN m ix iz = 0 -> Du iW (iz + 1) = Du iW iz /\ Du ix (iz + 1) = Du ix iz /\ Du (ix + 1) (iz + 1) = Du (ix + 1) iz /\
     Dv iW iz = 0 /\ Dv (iW + 1) iz = 0 /\ Dv (ix + 1) iz = 0 /\ Dv (ix + 2) iz = 0 /\ j34 w gN = 0).
  { intros E. destruct (slip_N E) as (_ & h1 & h2 & h3). rewrite i_gN in h3. rewrite !h1, !h2, h3 by tauto. repeat split; reflexivity. }
  destruct CS as [[-> ES]|[[-> ES]|[-> ES]]]; destruct CN as [[-> EN]|[[-> EN]|[-> EN]]];
    cbv iota; replace (iz - 2 + 1)%Z with (iz - 1)%Z by lia; replace (iz - 1 + 1)%Z with iz by lia;
    rewrite ?U1, ?U2, ?U3, ?V1, ?V2, ?V1', ?V2';
    try (destruct (SL ES) as (s1 & s2 & s3 & s4 & s5 & s6 & s7 & s8); rewrite ?s1, ?s2, ?s3, ?s4, ?s5, ?s6, ?s7, ?s8);
    try (destruct (NL EN) as (n1 & n2 & n3 & n4 & n5 & n6 & n7 & n8); rewrite ?n1, ?n2, ?n3, ?n4, ?n5, ?n6, ?n7, ?n8);
    rewrite ES, EN; cbn [b2R];
    clear - Hdx Hdz; field; auto.
Qed.
End X.
