(** The Newton z row is the derivative of the z residual. *)
From Coq Require Import ZArith Reals List Bool Lia Lra.
Import ListNotations.
From Verif Require Import StokesModel StokesProofs StokesX JacModel JacProofs.
Local Open Scope R_scope.

Section Z.
Variables (m : mesh) (w : newton) (eu ev ep : Z -> Z) (d : Z -> R) (ft : R -> fields) (L : law).
Hypothesis T : tags_ok m.
Hypothesis PA : path m eu ev ep d ft.
Hypothesis TG : tangent_ok m w L (ft 0).
Notation f := (ft 0).
Notation Dl := (delta (ft 0) (ft 1)).
Notation con := (contrib m eu ev ep d).
(** [cw], [ce]: columns of the cells west and east (the same column beside a wall,
    the opposite one across a periodic side). *)
Variables (ix iz cw ce : Z).
Hypothesis Hix : (0 < ix < nx m)%Z.
Hypothesis Hiz : (0 < iz < nz m - 1)%Z.
Hypothesis Hcw : (0 <= cw < nx m - 1)%Z.
Hypothesis Hce : (0 <= ce < nx m - 1)%Z.
Notation Du i j := (Dl (U (Ui m i j))).
Notation Dv i j := (Dl (V (Vi m i j))).
Notation Dp i j := (Dl (P (Pi m i j))).
Notation kW := (KinSWc m ix iz).
Notation kE := (KinSEc m ix iz).

Hypothesis Hkw : cw = (if (ix - 1 =? 0)%Z then (if perx w then ncx m - 1 else 0) else ix - 1 - 1)%Z.
Hypothesis Hke : ce = (if (ix =? nx m - 1)%Z then (if perx w then 0 else ncx m - 1) else ix)%Z.
Hypothesis HSzz : SzzS m ix iz = 0 /\ SzzN m ix iz = 0.
Hypothesis rock_p : forall i j, i = cw \/ i = (ix - 1)%Z \/ i = ce -> (iz - 1 <= j <= iz)%Z -> tp m (Pi m i j) = (-1)%Z.
Hypothesis rock_g : forall i j, i = (ix - 1)%Z \/ i = ix -> (iz - 1 <= j <= iz + 1)%Z -> tg m (Ui m i j) <> 30%Z.
(** West side: cells beyond exist, or a free-slip wall. *)
Hypothesis flW : KinNWc m ix iz = kW.
Hypothesis flE : KinNEc m ix iz = kE.
Hypothesis side_W :
  (kW = 1 /\ KinW m ix iz = 1 /\ (forall j, (iz - 1 <= j <= iz + 2)%Z -> Du (cw + 1) j = Du (ix - 1) j) /\ (forall j, (iz - 1 <= j <= iz + 1)%Z -> Dv (cw + 1) j = Dv (ix - 1) j)) \/
  (kW = 0 /\ KinW m ix iz = 0 /\ cw = (ix - 1)%Z /\ (forall j, (iz - 1 <= j <= iz + 2)%Z -> Du (ix - 1) j = 0) /\
   (forall j, (iz - 1 <= j <= iz + 1)%Z -> Dv (ix - 1) j = Dv ix j) /\ j34 w (KgW m ix iz) = 0).
Hypothesis side_E :
  (kE = 1 /\ KinE m ix iz = 1 /\ (forall j, (iz - 1 <= j <= iz + 2)%Z -> Du ce j = Du ix j) /\ (forall j, (iz - 1 <= j <= iz + 1)%Z -> Dv (ce + 1) j = Dv (ix + 1) j)) \/
  (kE = 0 /\ KinE m ix iz = 0 /\ ce = (ix - 1)%Z /\ (forall j, (iz - 1 <= j <= iz + 2)%Z -> Du ix j = 0) /\
   (forall j, (iz - 1 <= j <= iz + 1)%Z -> Dv (ix + 1) j = Dv ix j) /\ j34 w (KgE m ix iz) = 0).
Hypothesis con_W : forall a, (kW = 0 -> a = 0) -> con (negb (tv m (KzW m ix iz) =? 30)%Z, V (KzW m ix iz), a) = a * Dv (ix - 1) iz.
Hypothesis con_SW : forall a, (kW = 0 -> a = 0) -> con (negb (tv m (KzSW m ix iz) =? 30)%Z, V (KzSW m ix iz), a) = a * Dv (ix - 1) (iz - 1).
Hypothesis con_NW : forall a, (kW = 0 -> a = 0) -> con (negb (tv m (KzNW m ix iz) =? 30)%Z, V (KzNW m ix iz), a) = a * Dv (ix - 1) (iz + 1).
Hypothesis con_E : forall a, (kE = 0 -> a = 0) -> con (negb (tv m (KzE m ix iz) =? 30)%Z, V (KzE m ix iz), a) = a * Dv (ix + 1) iz.
Hypothesis con_SE : forall a, (kE = 0 -> a = 0) -> con (negb (tv m (KzSE m ix iz) =? 30)%Z, V (KzSE m ix iz), a) = a * Dv (ix + 1) (iz - 1).
Hypothesis con_NE : forall a, (kE = 0 -> a = 0) -> con (negb (tv m (KzNE m ix iz) =? 30)%Z, V (KzNE m ix iz), a) = a * Dv (ix + 1) (iz + 1).
Hypothesis con_SWW : forall a, (kW = 0 -> a = 0) ->
  con (((1 <? ix)%Z || ((ix =? 1)%Z && (tu m (KxSWW m ix iz) =? -1)%Z)) && negb (tu m (KxSWW m ix iz) =? 30)%Z, U (KxSWW m ix iz), a) = a * Du cw iz.
Hypothesis con_NWW : forall a, (kW = 0 -> a = 0) ->
  con (((1 <? ix)%Z || ((ix =? 1)%Z && (tu m (KxNWW m ix iz) =? -1)%Z)) && negb (tu m (zc1 m ix iz + nx m - 2) =? 30)%Z, U (KxNWW m ix iz), a) = a * Du cw (iz + 1).
Hypothesis con_SEE : forall a, (kE = 0 -> a = 0) ->
  con (((ix <? nx m - 1)%Z || ((ix =? nx m - 1)%Z && (tu m (KxSEE m ix iz) =? -1)%Z)) && negb (tu m (zc1 m ix iz + 1) =? 30)%Z, U (KxSEE m ix iz), a) = a * Du (ce + 1) iz.
Hypothesis con_NEE : forall a, (kE = 0 -> a = 0) ->
  con (((ix <? nx m - 1)%Z || ((ix =? nx m - 1)%Z && (tu m (KxNEE m ix iz) =? -1)%Z)) && negb (tu m (KxNEE m ix iz) =? 30)%Z, U (KxNEE m ix iz), a) = a * Du (ce + 1) (iz + 1).
Hypothesis con_pSW : forall a, (kW = 0 -> a = 0) ->
  con (((1 <? ix)%Z || ((ix =? 1)%Z && perx w)) && negb (tp m (KpSW m ix iz) =? 30)%Z, P (KpSW m ix iz), a) = a * Dp cw (iz - 1).
Hypothesis con_pNW : forall a, (kW = 0 -> a = 0) ->
  con (((1 <? ix)%Z || ((ix =? 1)%Z && perx w)) && negb (tp m (KpNW m ix iz) =? 30)%Z, P (KpNW m ix iz), a) = a * Dp cw iz.
Hypothesis con_pSE : forall a, (kE = 0 -> a = 0) ->
  con (((ix <? nx m - 1)%Z || ((ix =? nx m - 1)%Z && perx w)) && negb (tp m (KpSE m ix iz) =? 30)%Z, P (KpSE m ix iz), a) = a * Dp ce (iz - 1).
Hypothesis con_pNE : forall a, (kE = 0 -> a = 0) ->
  con (((ix <? nx m - 1)%Z || ((ix =? nx m - 1)%Z && perx w)) && negb (tp m (KpNE m ix iz) =? 30)%Z, P (KpNE m ix iz), a) = a * Dp ce iz.
Hypothesis no_dir : forall c, In c [KzW m ix iz; KzE m ix iz; KzSW m ix iz; KzSE m ix iz; KzNW m ix iz; KzNE m ix iz] -> tv m c <> 11%Z.
(** Rows of Vx beyond: entered when unknown (or folded), otherwise carrying no shear. *)
Hypothesis far_S : (1 - KinSSW m w ix iz) * (Du (ix - 1) iz - Du (ix - 1) (iz - 1)) = 0 /\ (1 - KinSSE m w ix iz) * (Du ix iz - Du ix (iz - 1)) = 0.
Hypothesis far_N : (1 - KinNNW m w ix iz) * (Du (ix - 1) (iz + 2) - Du (ix - 1) (iz + 1)) = 0 /\ (1 - KinNNE m w ix iz) * (Du ix (iz + 2) - Du ix (iz + 1)) = 0.
Hypothesis slip_S : forall i, i = (ix - 1)%Z \/ i = ix -> tu m (Ui m i (iz - 1)) = 13%Z -> perx w = false.
Hypothesis slip_N : forall i, i = (ix - 1)%Z \/ i = ix -> tu m (Ui m i (iz + 2)) = 13%Z -> perx w = false.
Hypothesis same_corr : jz_corr m w ix iz = z_corr m ix iz.

(** Indices. *)
Lemma k_c3 : zc3 m ix iz = Vi m ix iz. Proof. reflexivity. Qed.
Lemma k_S : KzS m ix iz = Vi m ix (iz - 1). Proof. unfold KzS, zc3, nxvz, Vi. ring. Qed.
Lemma k_N : KzN m ix iz = Vi m ix (iz + 1). Proof. unfold KzN, zc3, nxvz, Vi. ring. Qed.
Lemma k_uSW : KxSW m ix iz = Ui m (ix - 1) iz. Proof. unfold KxSW, zc1, Ui. ring. Qed.
Lemma k_uSE : KxSE m ix iz = Ui m ix iz. Proof. reflexivity. Qed.
Lemma k_uNW : KxNW m ix iz = Ui m (ix - 1) (iz + 1). Proof. unfold KxNW, zc1, Ui. ring. Qed.
Lemma k_uNE : KxNE m ix iz = Ui m ix (iz + 1). Proof. unfold KxNE, zc1, Ui. ring. Qed.
Lemma k_uSSW : KxSSW m ix iz = Ui m (ix - 1) (iz - 1). Proof. unfold KxSSW. rewrite k_uSW. unfold Ui. ring. Qed.
Lemma k_uSSE : KxSSE m ix iz = Ui m ix (iz - 1). Proof. unfold KxSSE. rewrite k_uSE. unfold Ui. ring. Qed.
Lemma k_uNNW : KxNNW m ix iz = Ui m (ix - 1) (iz + 2). Proof. unfold KxNNW. rewrite k_uNW. unfold Ui. ring. Qed.
Lemma k_uNNE : KxNNE m ix iz = Ui m ix (iz + 2). Proof. unfold KxNNE. rewrite k_uNE. unfold Ui. ring. Qed.
Lemma k_PS : KpS m ix iz = Pi m (ix - 1) (iz - 1). Proof. unfold KpS, zc2, ncx, Pi. ring. Qed.
Lemma k_PN : KpN m ix iz = Pi m (ix - 1) iz. Proof. unfold KpN, zc2, ncx, Pi. ring. Qed.
Lemma k_gW : KgW m ix iz = Ui m (ix - 1) iz. Proof. unfold KgW, zc1, Ui. ring. Qed.
Lemma k_gE : KgE m ix iz = Ui m ix iz. Proof. reflexivity. Qed.

(** Flags. *)
Lemma g_S : KinS m ix iz = 1.
Proof. unfold KinS. rewrite k_PS, rock_p by (auto; lia). reflexivity. Qed.
Lemma g_N : KinN m ix iz = 1.
Proof. unfold KinN. rewrite k_PN, rock_p by (auto; lia). reflexivity. Qed.
Lemma g_Wv : KinWv m ix iz = 1.
Proof. unfold KinWv, flag. rewrite k_gW, (proj2 (Z.eqb_neq _ _)) by (apply rock_g; lia). reflexivity. Qed.
Lemma g_Ev : KinEv m ix iz = 1.
Proof. unfold KinEv, flag. rewrite k_gE, (proj2 (Z.eqb_neq _ _)) by (apply rock_g; lia). reflexivity. Qed.
Lemma g_SWv : KinSWv m ix iz = 1.
Proof.
  unfold KinSWv, KgSW, flag. rewrite k_gW. replace (0 <? iz)%Z with true by lia.
  replace (Ui m (ix - 1) iz - nx m)%Z with (Ui m (ix - 1) (iz - 1)) by (unfold Ui; ring). cbn [andb].
  rewrite (proj2 (Z.eqb_neq _ _)) by (apply rock_g; lia). reflexivity.
Qed.
Lemma g_SEv : KinSEv m ix iz = 1.
Proof.
  unfold KinSEv, KgSE, flag. rewrite k_gE. replace (0 <? iz)%Z with true by lia.
  replace (Ui m ix iz - nx m)%Z with (Ui m ix (iz - 1)) by (unfold Ui; ring). cbn [andb].
  rewrite (proj2 (Z.eqb_neq _ _)) by (apply rock_g; lia). reflexivity.
Qed.
Lemma g_NWv : KinNWv m ix iz = 1.
Proof.
  unfold KinNWv, KgNW, flag. rewrite k_gW. replace (iz <? nz m - 1)%Z with true by lia.
  replace (Ui m (ix - 1) iz + nx m)%Z with (Ui m (ix - 1) (iz + 1)) by (unfold Ui; ring). cbn [andb].
  rewrite (proj2 (Z.eqb_neq _ _)) by (apply rock_g; lia). reflexivity.
Qed.
Lemma g_NEv : KinNEv m ix iz = 1.
Proof.
  unfold KinNEv, KgNE, flag. rewrite k_gE. replace (iz <? nz m - 1)%Z with true by lia.
  replace (Ui m ix iz + nx m)%Z with (Ui m ix (iz + 1)) by (unfold Ui; ring). cbn [andb].
  rewrite (proj2 (Z.eqb_neq _ _)) by (apply rock_g; lia). reflexivity.
Qed.
Lemma g_wW : KwW m ix iz = if Req_EM_T kW 1 then / 4 else / 2.
Proof.
  unfold KwW. rewrite g_N, g_S, flW. destruct side_W as [(-> & _)|(-> & _)].
  - destruct (Req_EM_T 1 1); [apply inv4|contradiction].
  - destruct (Req_EM_T 0 1); [lra|apply inv2].
Qed.
Lemma g_wE : KwE m ix iz = if Req_EM_T kE 1 then / 4 else / 2.
Proof.
  unfold KwE. rewrite g_N, g_S, flE. destruct side_E as [(-> & _)|(-> & _)].
  - destruct (Req_EM_T 1 1); [apply inv4|contradiction].
  - destruct (Req_EM_T 0 1); [lra|apply inv2].
Qed.

(** Coefficients that vanish beside a wall. *)
Lemma zW : kW = 0 -> KinW m ix iz = 0.
Proof. intros E. destruct side_W as [(H & _)|(_ & H & _)]; [lra|exact H]. Qed.
Lemma zE : kE = 0 -> KinE m ix iz = 0.
Proof. intros E. destruct side_E as [(H & _)|(_ & H & _)]; [lra|exact H]. Qed.

Lemma row_S : (iz - 1 = 0 /\ iz = 1 \/ iz - 1 = nz m /\ iz = nz m - 1 \/ 0 < iz - 1 < nz m)%Z. Proof. lia. Qed.
Lemma row_N : (iz + 2 = 0 /\ iz + 1 = 1 \/ iz + 2 = nz m /\ iz + 1 = nz m - 1 \/ 0 < iz + 2 < nz m)%Z. Proof. lia. Qed.
Notation cv := (celvol m).

Lemma z_row_value :
  row_dot eu ev ep (entries m (jz_requests m w ix iz)) d =
  cv * (jz_uSSW m w ix iz * Du (ix - 1) (iz - 1) + jz_uSSE m w ix iz * Du ix (iz - 1)
   + jz_uSWW m w ix iz * Du cw iz + jz_uSW m w ix iz * Du (ix - 1) iz + jz_uSE m w ix iz * Du ix iz + jz_uSEE m w ix iz * Du (ce + 1) iz
   + jz_uNWW m w ix iz * Du cw (iz + 1) + jz_uNW m w ix iz * Du (ix - 1) (iz + 1) + jz_uNE m w ix iz * Du ix (iz + 1) + jz_uNEE m w ix iz * Du (ce + 1) (iz + 1)
   + jz_uNNW m w ix iz * Du (ix - 1) (iz + 2) + jz_uNNE m w ix iz * Du ix (iz + 2)
   + jz_vSW m w ix iz * Dv (ix - 1) (iz - 1) + jz_vS m w ix iz * Dv ix (iz - 1) + jz_vSE m w ix iz * Dv (ix + 1) (iz - 1)
   + jz_vW m w ix iz * Dv (ix - 1) iz + (jz_vC0 m w ix iz + jz_corr m w ix iz) * Dv ix iz + jz_vE m w ix iz * Dv (ix + 1) iz
   + jz_vNW m w ix iz * Dv (ix - 1) (iz + 1) + jz_vN m w ix iz * Dv ix (iz + 1) + jz_vNE m w ix iz * Dv (ix + 1) (iz + 1)
   + jz_pSW m w ix iz * Dp cw (iz - 1) + jz_pS m w ix iz * Dp (ix - 1) (iz - 1) + jz_pSE m w ix iz * Dp ce (iz - 1)
   + jz_pNW m w ix iz * Dp cw iz + jz_pN m w ix iz * Dp (ix - 1) iz + jz_pNE m w ix iz * Dp ce iz).
Proof.
  rewrite row_dot_entries. unfold jz_requests. cbn [fold_right].
  assert (Hs : (0 <? iz)%Z = true) by lia. assert (Hn : (iz <? nz m - 1)%Z = true) by lia.
  rewrite !(con_set m eu ev ep d _ _ _ _ Hs), !(con_set m eu ev ep d _ _ _ _ Hn).
  rewrite con_SWW, con_NWW by (intros E; unfold jz_uSWW, jz_uNWW; rewrite ?flW, E; unfold Rdiv; ring).
  rewrite con_SEE, con_NEE by (intros E; unfold jz_uSEE, jz_uNEE; rewrite ?flE, E; unfold Rdiv; ring).
  rewrite con_pSW, con_pNW by (intros E; unfold jz_pSW, jz_pNW; rewrite ?flW, E; unfold Rdiv; ring).
  rewrite con_pSE, con_pNE by (intros E; unfold jz_pSE, jz_pNE; rewrite ?flE, E; unfold Rdiv; ring).
  unfold jz_vW', jz_vE', jz_vC. unfold dirichlet at 1 2 3 4 5 6.
  rewrite !(proj2 (Z.eqb_neq (tv m (KzW m ix iz)) 11)), !(proj2 (Z.eqb_neq (tv m (KzE m ix iz)) 11)), !(proj2 (Z.eqb_neq (tv m (KzSW m ix iz)) 11)),
    !(proj2 (Z.eqb_neq (tv m (KzSE m ix iz)) 11)), !(proj2 (Z.eqb_neq (tv m (KzNW m ix iz)) 11)), !(proj2 (Z.eqb_neq (tv m (KzNE m ix iz)) 11)) by (apply no_dir; cbn; tauto).
  rewrite con_W by (intros E; unfold jz_vW; rewrite flW, (zW E), E; unfold Rdiv; ring).
  rewrite con_SW, con_NW by (intros E; unfold jz_vSW, jz_vNW; rewrite ?flW, (zW E), E; unfold Rdiv; ring).
  rewrite con_E by (intros E; unfold jz_vE; rewrite flE, (zE E), E; unfold Rdiv; ring).
  rewrite con_SE, con_NE by (intros E; unfold jz_vSE, jz_vNE; rewrite ?flE, (zE E), E; unfold Rdiv; ring).
  rewrite k_c3, k_S, k_N, k_uSW, k_uSE, k_uNW, k_uNE, k_uSSW, k_uSSE, k_uNNW, k_uNNE, k_PS, k_PN.
  rewrite (fold_U m eu ev ep d ft T PA (ix - 1) (iz - 1) iz (jz_uSSW m w ix iz) cv ltac:(lia) row_S)
    by (intros G; unfold jz_uSSW, KinSSW, flag; rewrite k_uSSW, G, (slip_S _ (or_introl eq_refl) G); cbn [Z.eqb orb b2R]; unfold Rdiv; ring).
  rewrite (fold_U m eu ev ep d ft T PA ix (iz - 1) iz (jz_uSSE m w ix iz) cv ltac:(lia) row_S)
    by (intros G; unfold jz_uSSE, KinSSE, flag; rewrite k_uSSE, G, (slip_S _ (or_intror eq_refl) G); cbn [Z.eqb orb b2R]; unfold Rdiv; ring).
  rewrite (fold_U m eu ev ep d ft T PA (ix - 1) (iz + 2) (iz + 1) (jz_uNNW m w ix iz) cv ltac:(lia) row_N)
    by (intros G; unfold jz_uNNW, KinNNW, flag; rewrite k_uNNW, G, (slip_N _ (or_introl eq_refl) G); cbn [Z.eqb orb b2R]; unfold Rdiv; ring).
  rewrite (fold_U m eu ev ep d ft T PA ix (iz + 2) (iz + 1) (jz_uNNE m w ix iz) cv ltac:(lia) row_N)
    by (intros G; unfold jz_uNNE, KinNNE, flag; rewrite k_uNNE, G, (slip_N _ (or_intror eq_refl) G); cbn [Z.eqb orb b2R]; unfold Rdiv; ring).
  rewrite !(con_U m eu ev ep d _ _ T (B0 m eu ev ep d ft PA) (B1 m eu ev ep d ft PA) (path_unit m eu ev ep d ft PA)) by (try lia; apply (u_not_ghost m T); lia).
  rewrite !(con_V m eu ev ep d _ _ T (path_unit m eu ev ep d ft PA)) by (try lia; apply (v_not_ghost m T); lia).
  assert (HP : forall j, (iz - 1 <= j <= iz)%Z -> forall a, con (negb (tp m (Pi m (ix - 1) (iz - 1)) =? 30)%Z && negb (tp m (Pi m (ix - 1) iz) =? 30)%Z, P (Pi m (ix - 1) j), a) = a * Dp (ix - 1) j).
  { intros j Hj a. rewrite <- (con_P m eu ev ep d _ _ T (path_unit m eu ev ep d ft PA) (ix - 1) j a) by lia.
    rewrite !rock_p by (auto; lia). reflexivity. }
  rewrite !HP by lia.
  unfold jz_uNW', jz_uNE', jz_uSW', jz_uSE'. rewrite k_uSSW, k_uSSE, k_uNNW, k_uNNE. unfold Rdiv; ring.
Qed.

(** ** Derivative of the residual along the path. *)
Notation eX := (eX m ft). Notation eZ := (eZ m ft). Notation gam := (gam m ft). Notation gamn := (gamn m ft).
Definition zmean (C : Z -> Z -> R) a b := / 4 * (C a (iz - 1)%Z + C b (iz - 1)%Z + C a iz + C b iz).

Lemma vavg_W C : vavg m w C (Ui m (ix - 1) iz) = zmean (fun i j => C (Pi m i j)) cw (ix - 1).
Proof.
  unfold zmean. apply vavg_eq; [lia|apply rock_g; lia|exact Hkw| | | |].
  - replace (ix - 1 =? nx m - 1)%Z with false by lia. reflexivity.
  - destruct (Z.eqb_spec iz 0); lia.
  - destruct (Z.eqb_spec iz (nz m - 1)); lia.
  - intros i j Hi Hj. apply rock_p; lia.
Qed.
Lemma vavg_E C : vavg m w C (Ui m ix iz) = zmean (fun i j => C (Pi m i j)) (ix - 1) ce.
Proof.
  unfold zmean. apply vavg_eq; [lia|apply rock_g; lia| |exact Hke| | |].
  - replace (ix =? 0)%Z with false by lia. reflexivity.
  - destruct (Z.eqb_spec iz 0); lia.
  - destruct (Z.eqb_spec iz (nz m - 1)); lia.
  - intros i j Hi Hj. apply rock_p; lia.
Qed.

Lemma der_cell j : j = (iz - 1)%Z \/ j = iz ->
  derivable_pt_lim (fun t => nszz m w L (ft t) (Pi m (ix - 1) j) - npc m w L (ft t) (Pi m (ix - 1) j)) 0
    (j21 w (Pi m (ix - 1) j) * eX (ix - 1) j + j22 w (Pi m (ix - 1) j) * eZ (ix - 1) j + j23 w (Pi m (ix - 1) j) * gamn (ix - 1) j
     + (j24 w (Pi m (ix - 1) j) - 1) * Dp (ix - 1) j).
Proof.
  intros Hj. assert (A : tp m (Pi m (ix - 1) j) = (-1)%Z) by (apply rock_p; lia).
  assert (A' : air (tp m (Pi m (ix - 1) j)) = false) by now rewrite A.
  eapply dlim_ext; [|exact (tan_z _ _ _ _ TG _ A' _ _ _ _)].
  intros t. unfold nszz, npc. rewrite A'. unfold nExx, nEzz.
  rewrite (path_exx m eu ev ep d ft T PA (ix - 1) j t), (path_ezz m eu ev ep d ft T PA (ix - 1) j t), (path_p m eu ev ep d ft PA (ix - 1) j t) by (try lia; exact A).
  rewrite (path_gxz m w eu ev ep d ft T PA (ix - 1) j t) by (try lia; try exact A; intros; apply rock_g; lia).
  replace (exxd m f (Pi m (ix - 1) j) + t * eX (ix - 1) j + exx0 m (Pi m (ix - 1) j)) with (exxd m f (Pi m (ix - 1) j) + exx0 m (Pi m (ix - 1) j) + t * eX (ix - 1) j) by ring.
  replace (ezzd m f (Pi m (ix - 1) j) + t * eZ (ix - 1) j + ezz0 m (Pi m (ix - 1) j)) with (ezzd m f (Pi m (ix - 1) j) + ezz0 m (Pi m (ix - 1) j) + t * eZ (ix - 1) j) by ring.
  reflexivity.
Qed.

Lemma der_vertex i a b : (i = ix - 1 /\ a = cw /\ b = ix - 1 \/ i = ix /\ a = ix - 1 /\ b = ce)%Z ->
  derivable_pt_lim (fun t => nsxz m w L (ft t) (Ui m i iz)) 0
    (j31 w (Ui m i iz) * zmean eX a b + j32 w (Ui m i iz) * zmean eZ a b + j33 w (Ui m i iz) * gam i iz
     + j34 w (Ui m i iz) * zmean (fun i j => Dp i j) a b).
Proof.
  intros Hi.
  assert (G : tg m (Ui m i iz) <> 30%Z) by (apply rock_g; lia).
  assert (VA : forall C, vavg m w C (Ui m i iz) = zmean (fun i j => C (Pi m i j)) a b).
  { intros C. destruct Hi as [(-> & -> & ->)|(-> & -> & ->)]; [apply vavg_W|apply vavg_E]. }
  assert (RK : forall i' j', i' = a \/ i' = b -> j' = (iz - 1)%Z \/ j' = iz -> (0 <= i' < nx m - 1)%Z /\ (0 <= j' < nz m - 1)%Z /\ tp m (Pi m i' j') = (-1)%Z).
  { intros i' j' Hi' Hj'. split; [lia|]. split; [lia|]. apply rock_p; lia. }
  eapply dlim_ext; [|exact (tan_s _ _ _ _ TG _ G _ _ _ _)].
  intros t. unfold nsxz. rewrite (proj2 (Z.eqb_neq _ _) G). unfold vExx, vEzz, vGxz, vP. rewrite !VA. unfold zmean.
  destruct (RK a (iz - 1)%Z) as (a1 & a2 & a3); auto. destruct (RK b (iz - 1)%Z) as (b1 & b2 & b3); auto.
  destruct (RK a iz) as (c1 & c2 & c3); auto. destruct (RK b iz) as (e1 & e2 & e3); auto.
  rewrite !(path_exx m eu ev ep d ft T PA _ _ t), !(path_ezz m eu ev ep d ft T PA _ _ t), !(path_p m eu ev ep d ft PA _ _ t) by assumption.
  rewrite (path_exz m eu ev ep d ft T PA i iz t) by (try lia; exact G).
  f_equal; field.
Qed.

Notation pN := (Pi m (ix - 1) iz). Notation pS := (Pi m (ix - 1) (iz - 1)). Notation gE := (Ui m ix iz). Notation gW := (Ui m (ix - 1) iz).
Definition z_derivative : R :=
  ((((j21 w pN * eX (ix - 1) iz + j22 w pN * eZ (ix - 1) iz + j23 w pN * gamn (ix - 1) iz + (j24 w pN - 1) * Dp (ix - 1) iz)
    - (j21 w pS * eX (ix - 1) (iz - 1) + j22 w pS * eZ (ix - 1) (iz - 1) + j23 w pS * gamn (ix - 1) (iz - 1) + (j24 w pS - 1) * Dp (ix - 1) (iz - 1))) / dz m
  + ((j31 w gE * zmean eX (ix - 1) ce + j32 w gE * zmean eZ (ix - 1) ce + j33 w gE * gam ix iz + j34 w gE * zmean (fun i j => Dp i j) (ix - 1) ce)
    - (j31 w gW * zmean eX cw (ix - 1) + j32 w gW * zmean eZ cw (ix - 1) + j33 w gW * gam (ix - 1) iz + j34 w gW * zmean (fun i j => Dp i j) cw (ix - 1))) / dx m)
  - z_corr m ix iz * Dv ix iz) * - celvol m.

Lemma z_der : derivable_pt_lim (fun t => jz_residual m w ix iz L (ft t)) 0 z_derivative.
Proof.
  pose proof (ok_dx m T). pose proof (ok_dz m T).
  eapply dlim_ext with (g := fun t => (((nszz m w L (ft t) pN - npc m w L (ft t) pN) - (nszz m w L (ft t) pS - npc m w L (ft t) pS)) / dz m
      + (nsxz m w L (ft t) gE - nsxz m w L (ft t) gW) / dx m
      - (z_corr m ix iz * fv f (Vi m ix iz) - bz m (Vi m ix iz) + t * (z_corr m ix iz * Dv ix iz))) * - celvol m).
  - intros t. unfold jz_residual. destruct HSzz as [-> ->]. cbv zeta.
    change (zPrS m ix iz) with (KpS m ix iz). change (zPrN m ix iz) with (KpN m ix iz). rewrite k_PS, k_PN.
    change (xyE m ix iz) with (KgE m ix iz). change (xyW m ix iz) with (KgW m ix iz). rewrite k_gE, k_gW, k_c3.
    rewrite (aff_v m eu ev ep d ft T PA ix iz t) by lia. field. auto.
  - unfold z_derivative. apply dlim_scal. apply dlim_minus; [apply dlim_plus; apply dlim_div; apply dlim_minus|apply dlim_affine].
    + apply der_cell; auto.
    + apply der_cell; auto.
    + apply der_vertex; auto.
    + apply der_vertex; auto.
Qed.

Lemma z_core : derivable_pt_lim (fun t => jz_residual m w ix iz L (ft t)) 0
  (row_dot eu ev ep (entries m (jz_requests m w ix iz)) d).
Proof.
  pose proof (ok_dx m T) as Hdx. pose proof (ok_dz m T) as Hdz.
  refine (dlim_eq _ _ _ _ _ z_der). rewrite z_row_value.
  rewrite same_corr.
  destruct far_S as [FS1 FS2], far_N as [FN1 FN2].
  unfold z_derivative, zmean.
  unfold jz_uSSW, jz_uSSE, jz_uSWW, jz_uSW, jz_uSE, jz_uSEE, jz_uNWW, jz_uNW, jz_uNE, jz_uNEE, jz_uNNW, jz_uNNE, jz_vSW, jz_vS, jz_vSE,
    jz_vW, jz_vC0, jz_vE, jz_vNW, jz_vN, jz_vNE, jz_pSW, jz_pS, jz_pSE, jz_pNW, jz_pN, jz_pNE.
  rewrite g_S, g_N, g_Wv, g_Ev, g_SWv, g_SEv, g_NWv, g_NEv, g_wW, g_wE, flW, flE, k_PS, k_PN, k_gW, k_gE.
  unfold JacProofs.eX, JacProofs.eZ, JacProofs.gamn, JacProofs.gam, dex, dez, celvol.
  replace (iz - 1 + 1)%Z with iz by lia. replace (iz + 1 + 1)%Z with (iz + 2)%Z by lia. replace (ix - 1 + 1)%Z with ix by lia.
  assert (K : forall a b c e, (1 - KinSSW m w ix iz) * (Du (ix - 1) iz - Du (ix - 1) (iz - 1)) * a + (1 - KinSSE m w ix iz) * (Du ix iz - Du ix (iz - 1)) * b
     + (1 - KinNNW m w ix iz) * (Du (ix - 1) (iz + 2) - Du (ix - 1) (iz + 1)) * c + (1 - KinNNE m w ix iz) * (Du ix (iz + 2) - Du ix (iz + 1)) * e = 0).
  { intros. rewrite FS1, FS2, FN1, FN2. ring. }
  pose proof (K (- j23 w pS / (4 * dz m ^ 2) * (dx m * dz m)) (- j23 w pS / (4 * dz m ^ 2) * (dx m * dz m)) (j23 w pN / (4 * dz m ^ 2) * (dx m * dz m)) (j23 w pN / (4 * dz m ^ 2) * (dx m * dz m))) as K0.
  match type of K0 with ?e = _ => match goal with |- ?l = ?r => cut (l + e = r); [intros Hc; rewrite K0, Rplus_0_r in Hc; exact Hc|] end end.
  clear K0 K FS1 FS2 FN1 FN2.
  assert (SW : (kW = 1 /\ KinW m ix iz = 1 /\ Du (cw + 1) iz = Du (ix - 1) iz /\ Du (cw + 1) (iz + 1) = Du (ix - 1) (iz + 1) /\
     Dv (cw + 1) (iz - 1) = Dv (ix - 1) (iz - 1) /\ Dv (cw + 1) iz = Dv (ix - 1) iz /\ Dv (cw + 1) (iz + 1) = Dv (ix - 1) (iz + 1)) \/
    (kW = 0 /\ KinW m ix iz = 0 /\ cw = (ix - 1)%Z /\ Du (ix - 1) (iz - 1) = 0 /\ Du (ix - 1) iz = 0 /\ Du (ix - 1) (iz + 1) = 0 /\ Du (ix - 1) (iz + 2) = 0 /\
     Dv (ix - 1) (iz - 1) = Dv ix (iz - 1) /\ Dv (ix - 1) iz = Dv ix iz /\ Dv (ix - 1) (iz + 1) = Dv ix (iz + 1) /\ j34 w gW = 0)).
  { destruct side_W as [(e1 & e2 & h1 & h2)|(e1 & e2 & e3 & h1 & h2 & h3)]; [left|right].
    - repeat split; try assumption; try (apply h1; lia); apply h2; lia.
    - rewrite k_gW in h3. repeat split; try assumption; try (apply h1; lia); apply h2; lia. }
  assert (SE : (kE = 1 /\ KinE m ix iz = 1 /\ Du ce iz = Du ix iz /\ Du ce (iz + 1) = Du ix (iz + 1) /\
     Dv (ce + 1) (iz - 1) = Dv (ix + 1) (iz - 1) /\ Dv (ce + 1) iz = Dv (ix + 1) iz /\ Dv (ce + 1) (iz + 1) = Dv (ix + 1) (iz + 1)) \/
    (kE = 0 /\ KinE m ix iz = 0 /\ ce = (ix - 1)%Z /\ Du ix (iz - 1) = 0 /\ Du ix iz = 0 /\ Du ix (iz + 1) = 0 /\ Du ix (iz + 2) = 0 /\
     Dv (ix + 1) (iz - 1) = Dv ix (iz - 1) /\ Dv (ix + 1) iz = Dv ix iz /\ Dv (ix + 1) (iz + 1) = Dv ix (iz + 1) /\ j34 w gE = 0)).
  { destruct side_E as [(e1 & e2 & h1 & h2)|(e1 & e2 & e3 & h1 & h2 & h3)]; [left|right].
    - repeat split; try assumption; try (apply h1; lia); apply h2; lia.
    - rewrite k_gE in h3. repeat split; try assumption; try (apply h1; lia); apply h2; lia. }
  destruct SW as [(a0 & a1 & a2 & a3 & a4 & a5 & a6)|(a0 & a1 & a2 & a3 & a4 & a5 & a6 & a7 & a8 & a9 & a10)];
  destruct SE as [(b0 & b1 & b2 & b3 & b4 & b5 & b6)|(b0 & b1 & b2 & b3 & b4 & b5 & b6 & b7 & b8 & b9 & b10)].
  - rewrite a0, a1, b0, b1. destruct (Req_EM_T 1 1) as [_|N]; [|contradiction].
    rewrite ?a2, ?a3, ?a4, ?a5, ?a6, ?b2, ?b3, ?b4, ?b5, ?b6. clear - Hdx Hdz. field; auto.
  - rewrite a0, a1, b0, b1. destruct (Req_EM_T 1 1) as [_|N]; [|contradiction]. destruct (Req_EM_T 0 1) as [N|_]; [lra|].
    rewrite b2. replace (ix - 1 + 1)%Z with ix by lia. rewrite ?a2, ?a3, ?a4, ?a5, ?a6, ?b3, ?b4, ?b5, ?b6, ?b7, ?b8, ?b9, ?b10. clear - Hdx Hdz. field; auto.
  - rewrite a0, a1, b0, b1. destruct (Req_EM_T 1 1) as [_|N]; [|contradiction]. destruct (Req_EM_T 0 1) as [N|_]; [lra|].
    rewrite a2. replace (ix - 1 + 1)%Z with ix by lia. rewrite ?b2, ?b3, ?b4, ?b5, ?b6, ?a3, ?a4, ?a5, ?a6, ?a7, ?a8, ?a9, ?a10. clear - Hdx Hdz. field; auto.
  - rewrite a0, a1, b0, b1. destruct (Req_EM_T 0 1) as [N|_]; [lra|].
    rewrite a2, b2. replace (ix - 1 + 1)%Z with ix by lia. rewrite ?b3, ?b4, ?b5, ?b6, ?b7, ?b8, ?b9, ?b10, ?a3, ?a4, ?a5, ?a6, ?a7, ?a8, ?a9, ?a10. clear - Hdx Hdz. field; auto.
Qed.
End Z.
