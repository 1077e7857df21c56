(** Concrete meshes for the Newton rows: cases meeting the hypotheses of C102 and
    boundary types outside them for which the rows are wrong. *)
From Coq Require Import ZArith Reals List Bool Lia Lra.
Import ListNotations.
From Verif Require Import StokesModel StokesProofs StokesX StokesProps JacModel JacProofs JacX JacZ JacT JacPoint JacProps.
Local Open Scope R_scope.

(** 3 x 2 cells with the given node types. *)
Definition mk (u v p : list Z) : mesh := {|
  nx := 4; nz := 3; dx := 1; dz := 2; tu := tab 30 u; tv := tab 30 v; tp := tab 30 p; tg := fun _ => (-1)%Z;
  eta_n := fun _ => 1; eta_s := fun _ => 1; exx0 := fun _ => 1; ezz0 := fun _ => 1; exz0 := fun _ => 1; valu := fun _ => 0; valv := fun _ => 0;
  rho_n := fun c => IZR c; gx := fun _ => 0; gz := fun _ => -10; comp := true; oop := false; stab := false;
  om := 1; dt := 1; bx := fun _ => 0; bz := fun _ => -10; ccomp := fun _ => true; bet := fun _ => 1; p0 := fun _ => 0; bp := fun _ => 0 |}.
Definition ramp (u v p : list Z) (t : R) : fields :=
  {| fu := fun c => t * rtab u c; fv := fun c => t * rtab v c; fp := fun c => t * rtab p c; fpc := fun c => t * rtab p c |}.
Definition dvec (u v p : list Z) (e : Z) : R := if (e <? 50)%Z then rtab u e else if (e <? 80)%Z then rtab v (e - 50)%Z else rtab p (e - 80)%Z.
Definition ev_l (c : Z) : Z := (50 + c)%Z.
Definition ep_l (c : Z) : Z := (80 + c)%Z.

(** A rheology quadratic in the pressure; [s] scales how the shear stress depends on it. *)
Definition law_q (s : R) : law := {|
  l_sxx := fun c a b g q => 2 * a + 3 * b + 5 * g + (1 + q) * (1 + q); l_szz := fun c a b g q => 3 * a + 7 * b + 2 * g + (1 + q) * (1 + q);
  l_pc := fun c a b g q => q; l_sxz := fun c a b g q => 4 * a + 6 * b + 9 * g + s * q |}.
Definition newton_q (s : R) (px : bool) : newton := {|
  j11 := fun _ => 2; j12 := fun _ => 3; j13 := fun _ => 5; j14 := fun _ => 2; j21 := fun _ => 3; j22 := fun _ => 7; j23 := fun _ => 2; j24 := fun _ => 2;
  j31 := fun _ => 4; j32 := fun _ => 6; j33 := fun _ => 9; j34 := fun _ => s; exz0_n := fun _ => 0; exx0_s := fun _ => 0; ezz0_s := fun _ => 0; perx := px |}.
Lemma tangent_q m s px u v p : tangent_ok m (newton_q s px) (law_q s) (ramp u v p 0).
Proof.
  assert (Q : forall q, derivable_pt_lim (fun t => (1 + (0 + t * q)) * (1 + (0 + t * q))) 0 (2 * q)).
  { intros q. apply dlim_ext with (g := fun t => (1 + t * q) * (1 + t * q)); [intros; ring|].
    apply dlim_eq with (q * (1 + 0 * q) + (1 + 0 * q) * q); [ring|]. apply (derivable_pt_lim_mult (fun t => 1 + t * q) (fun t => 1 + t * q)); apply dlim_affine. }
  split; intros c _ a b g q; cbn [l_sxx l_szz l_pc l_sxz law_q j11 j12 j13 j14 j21 j22 j23 j24 j31 j32 j33 j34 newton_q fp ramp].
  - set (A := nExx m (ramp u v p 0) c). set (B := nEzz m (ramp u v p 0) c). set (G := nGxz m _ (ramp u v p 0) c).
    apply dlim_ext with (g := fun t => ((2 * A + 3 * B + 5 * G) + t * (2 * a + 3 * b + 5 * g - q)) + (1 + (0 + t * q)) * (1 + (0 + t * q))); [intros; ring|].
    eapply dlim_eq; [|apply dlim_plus; [apply dlim_affine|apply Q]]. ring.
  - set (A := nExx m (ramp u v p 0) c). set (B := nEzz m (ramp u v p 0) c). set (G := nGxz m _ (ramp u v p 0) c).
    apply dlim_ext with (g := fun t => ((3 * A + 7 * B + 2 * G) + t * (3 * a + 7 * b + 2 * g - q)) + (1 + (0 + t * q)) * (1 + (0 + t * q))); [intros; ring|].
    eapply dlim_eq; [|apply dlim_plus; [apply dlim_affine|apply Q]]. ring.
  - set (A := vExx m _ (ramp u v p 0) c). set (B := vEzz m _ (ramp u v p 0) c). set (G := vGxz m (ramp u v p 0) c). set (P := vP m _ (ramp u v p 0) c).
    apply dlim_ext with (g := fun t => (4 * A + 6 * B + 9 * G + s * P) + t * (4 * a + 6 * b + 9 * g + s * q)); [intros; ring|].
    eapply dlim_eq; [|apply dlim_affine]. ring.
Qed.

(** [path] for the ramp, from finitely many checks. *)
Lemma path_ramp u v p eu U V P : length U = 16%nat -> length V = 15%nat -> length P = 6%nat ->
  length u = 16%nat -> length v = 15%nat -> length p = 6%nat ->
  bc_ok (mk u v p) (ramp U V P 1) ->
  (forall c, (0 <= c < 16)%Z -> In (tab 30 u c) [-1; 2; -2]%Z -> eu c = c) ->
  (forall c, (0 <= c < 16)%Z -> In (tab 30 u c) [0; 30; 31]%Z -> tab 0 U c = 0%Z) ->
  (forall c, (0 <= c < 15)%Z -> In (tab 30 v c) [0; 30; 31]%Z -> tab 0 V c = 0%Z) ->
  (forall c, (0 <= c < 6)%Z -> tab 30 p c <> (-1)%Z -> tab 0 P c = 0%Z) ->
  (forall j, (0 <= j <= 3)%Z -> tab 30 u (3 + j * 4) = (-12)%Z -> eu (3 + j * 4)%Z = eu (0 + j * 4)%Z) ->
  path (mk u v p) eu ev_l ep_l (dvec U V P) (ramp U V P).
Proof.
  intros LU LV LP lu lv lp [bS bN bP bW bE] Hu Hu0 Hv0 Hp0 He. split; intros t.
  - cbn [fu fv ramp valu valv mk] in *. split.
    + intros i Hi. destruct (bS i Hi) as [a b]. split; intros E; [specialize (a E)|specialize (b E)]; cbn [fu fv ramp valu valv mk] in *; [rewrite !Rmult_1_l in a; now rewrite a|].
      rewrite !Rmult_1_l in b. rewrite <- Rmult_plus_distr_l, b. ring.
    + intros i Hi. destruct (bN i Hi) as [a b]. split; intros E; [specialize (a E)|specialize (b E)]; cbn [fu fv ramp valu valv mk] in *; [rewrite !Rmult_1_l in a; now rewrite a|].
      rewrite !Rmult_1_l in b. rewrite <- Rmult_plus_distr_l, b. ring.
    + intros j Hj E. specialize (bP j Hj E). cbn [fu fv ramp valu valv mk] in *. rewrite !Rmult_1_l in bP. now rewrite bP.
    + intros j Hj. destruct (bW j Hj) as (a & b & c). repeat split; intros E; [specialize (a E)|specialize (b E)|specialize (c E)]; cbn [fu fv ramp valu valv mk] in *.
      * rewrite !Rmult_1_l in a; now rewrite a. * rewrite !Rmult_1_l in b. rewrite <- Rmult_plus_distr_l, b. ring. * rewrite !Rmult_1_l in c; now rewrite c.
    + intros j Hj. destruct (bE j Hj) as (a & b & c). repeat split; intros E; [specialize (a E)|specialize (b E)|specialize (c E)]; cbn [fu fv ramp valu valv mk] in *.
      * rewrite !Rmult_1_l in a; now rewrite a. * rewrite !Rmult_1_l in b. rewrite <- Rmult_plus_distr_l, b. ring. * rewrite !Rmult_1_l in c; now rewrite c.
  - assert (O : forall (def : Z) l c, ~ (0 <= c < Z.of_nat (length l))%Z -> tab def l c = def) by (intros; now apply tab_out).
    split; cbn [tu tv tp mk fu fv fp fpc ramp nx nz].
    + intros c H. destruct (Z_lt_dec c 0) as [N|N]; [rewrite O in H by lia; cbn in H; lia|]. destruct (Z_lt_dec c 16) as [M|M]; [|rewrite O in H by lia; cbn in H; lia].
      rewrite (Hu c) by (try assumption; lia). unfold dvec. replace (c <? 50)%Z with true by lia. ring.
    + intros c H. unfold rtab. destruct (Z_lt_dec c 0) as [N|N]; [rewrite (O 0%Z) by lia; ring|]. destruct (Z_lt_dec c 16) as [M|M]; [|rewrite (O 0%Z) by lia; ring].
      rewrite Hu0 by (try assumption; lia). ring.
    + intros c H. unfold dvec, ev_l. destruct (Z_lt_dec c 0) as [N|N]; [rewrite O in H by lia; cbn in H; lia|]. destruct (Z_lt_dec c 15) as [M|M]; [|rewrite O in H by lia; cbn in H; lia].
      replace (50 + c <? 50)%Z with false by lia. replace (50 + c <? 80)%Z with true by lia. replace (50 + c - 50)%Z with c by lia. ring.
    + intros c H. unfold rtab. destruct (Z_lt_dec c 0) as [N|N]; [rewrite (O 0%Z) by lia; ring|]. destruct (Z_lt_dec c 15) as [M|M]; [|rewrite (O 0%Z) by lia; ring].
      rewrite Hv0 by (try assumption; lia). ring.
    + intros c H. unfold dvec, ep_l. destruct (Z_lt_dec c 0) as [N|N]; [rewrite O in H by lia; cbn in H; lia|]. destruct (Z_lt_dec c 6) as [M|M]; [|rewrite O in H by lia; cbn in H; lia].
      replace (80 + c <? 50)%Z with false by lia. replace (80 + c <? 80)%Z with false by lia. replace (80 + c - 80)%Z with c by lia. split; ring.
    + intros c H. unfold rtab. destruct (Z_lt_dec c 0) as [N|N]; [rewrite (O 0%Z) by lia; split; ring|]. destruct (Z_lt_dec c 6) as [M|M]; [|rewrite (O 0%Z) by lia; split; ring].
      rewrite Hp0 by (try assumption; lia). split; ring.
    + intros j Hj E. replace (Ui (mk u v p) (4 - 1) j) with (3 + j * 4)%Z in * by (unfold Ui; cbn; lia). replace (Ui (mk u v p) 0 j) with (0 + j * 4)%Z by (unfold Ui; cbn; lia). apply He; [lia|exact E].
Qed.
Ltac bc_finite := split; intros i Hi; cbn [nx nz mk] in Hi; unfold ramp, rtab; cbn [fu fv valu valv mk]; zcase i 4%nat; try (exfalso; lia); decide_cell.
Ltac path_finite := apply path_ramp; [reflexivity | reflexivity | reflexivity | reflexivity | reflexivity | reflexivity | bc_finite
  |intros c Hc; zcase c 16%nat; try (exfalso; lia); cbn; intuition (try lia; congruence)
  |intros c Hc; zcase c 16%nat; try (exfalso; lia); cbn; intuition (try lia; congruence)
  |intros c Hc; zcase c 15%nat; try (exfalso; lia); cbn; intuition (try lia; congruence)
  |intros c Hc; zcase c 6%nat; try (exfalso; lia); cbn; intuition (try lia; congruence)
  |intros j Hj; zcase j 4%nat; try (exfalso; lia); cbn; intuition (try lia; congruence)].
Ltac tags_finite := split; [cbn; lia | cbn; lia | cbn; lra | cbn; lra | ..];
  first
  [solve [intros i j Hi Hj; cbn in Hi, Hj; zcase i 5%nat; try (exfalso; lia); zcase j 4%nat; try (exfalso; lia); decide_cell]
  |solve [intros j Hj; cbn in Hj; zcase j 4%nat; try (exfalso; lia); decide_cell]
  |solve [intros j Hj Ty j' Hj'; cbn in Hj; right; assert (0 <= j' < 5)%Z by lia; zcase j 5%nat; try (exfalso; lia); zcase j' 5%nat; try (exfalso; lia); decide_cell]].
Ltac nums := cbv -[Rplus Rmult Rdiv Rminus Ropp Rinv IZR Rpow_def.pow Rlt_dec];
  repeat match goal with |- context [Rlt_dec ?a ?b] => destruct (Rlt_dec a b); try (exfalso; lra) end.

(** *** Pure shear template *)
Definition ps_u := [13; 13; 13; 13;   0; -1; -1; 0;   0; -1; -1; 0;   13; 13; 13; 13]%Z.
Definition ps_v := [13; 0; 0; 0; 13;   13; -1; -1; -1; 13;   13; 0; 0; 0; 13]%Z.
Definition all_p := [-1; -1; -1; -1; -1; -1]%Z.
Definition m_ps := mk ps_u ps_v all_p.
Definition ps_U := [0; 5; 7; 0;   0; 5; 7; 0;   0; 4; 6; 0;   0; 4; 6; 0]%Z.
Definition ps_V := [0; 0; 0; 0; 0;   1; 1; 2; 3; 3;   0; 0; 0; 0; 0]%Z.
Definition some_P := [10; 20; 40; 50; 90; 60]%Z.
Definition f_ps := ramp ps_U ps_V some_P.
Definition d_ps := dvec ps_U ps_V some_P.
Definition id_l (c : Z) : Z := c.
Lemma path_ps : path m_ps id_l ev_l ep_l d_ps f_ps.
Proof. path_finite. Qed.
Lemma tags_ps : tags_ok m_ps.
Proof. tags_finite. Qed.
Lemma rock_ps ix iz : rock PureShear m_ps ix iz.
Proof.
  split; intros i j _ _ Hi Hj; cbn [nx nz m_ps mk] in Hi, Hj; [| | |cbn; lia];
    zcase i 5%nat; try (exfalso; lia); zcase j 4%nat; try (exfalso; lia); reflexivity.
Qed.

Example C102_ex_pure_shear : tags_ok m_ps /\ path m_ps id_l ev_l ep_l d_ps f_ps /\ tangent_ok m_ps (newton_q 0 false) (law_q 0) (f_ps 0) /\
  perx (newton_q 0 false) = periodic PureShear /\ wall_shear_free_of_p PureShear m_ps (newton_q 0 false) /\ rock PureShear m_ps 1 1 /\
  jx_corr m_ps (newton_q 0 false) 1 1 = x_corr m_ps 1 1 /\ jz_corr m_ps (newton_q 0 false) 1 1 = z_corr m_ps 1 1 /\
  row_dot id_l ev_l ep_l (jx_row m_ps (newton_q 0 false) 1 1) d_ps <> 0 /\ row_dot id_l ev_l ep_l (jz_row m_ps (newton_q 0 false) 1 1) d_ps <> 0.
Proof.
  split; [exact tags_ps|]. split; [exact path_ps|]. split; [apply tangent_q|]. split; [reflexivity|]. split; [intros _ i j _ _ _; reflexivity|].
  split; [apply rock_ps|]. split; [reflexivity|]. split; [reflexivity|]. split; nums; lra.
Qed.

(** *** Simple shear template *)
Definition ss_u := [11; 11; 11; 11;   -2; -1; -1; -12;   -2; -1; -1; -12;   11; 11; 11; 11]%Z.
Definition ss_v := [-12; 0; 0; 0; -12;   -12; -1; -1; -1; -12;   -12; 0; 0; 0; -12]%Z.
Definition m_ss := mk ss_u ss_v all_p.
Definition ss_U := [-3; -5; -7; -3;   3; 5; 7; 3;   2; 4; 6; 2;   -2; -4; -6; -2]%Z.
Definition ss_V := [0; 0; 0; 0; 0;   3; 1; 2; 3; 1;   0; 0; 0; 0; 0]%Z.
Definition f_ss := ramp ss_U ss_V some_P.
Definition d_ss := dvec ss_U ss_V some_P.
Definition eu_ss (c : Z) : Z := if (c =? 7)%Z then 4%Z else if (c =? 11)%Z then 8%Z else c.
Lemma path_ss : path m_ss eu_ss ev_l ep_l d_ss f_ss.
Proof. path_finite. Qed.
Lemma tags_ss : tags_ok m_ss.
Proof. tags_finite. Qed.
Lemma rock_ss ix iz : rock SimpleShear m_ss ix iz.
Proof.
  split; intros i j _ _ Hi Hj; cbn [nx nz m_ss mk] in Hi, Hj; [| | |cbn; lia];
    zcase i 5%nat; try (exfalso; lia); zcase j 4%nat; try (exfalso; lia); reflexivity.
Qed.
Example C102_ex_simple_shear : tags_ok m_ss /\ path m_ss eu_ss ev_l ep_l d_ss f_ss /\ tangent_ok m_ss (newton_q 1 true) (law_q 1) (f_ss 0) /\
  perx (newton_q 1 true) = periodic SimpleShear /\ wall_shear_free_of_p SimpleShear m_ss (newton_q 1 true) /\ rock SimpleShear m_ss 0 1 /\
  jx_corr m_ss (newton_q 1 true) 0 1 = x_corr m_ss 0 1 /\ jz_corr m_ss (newton_q 1 true) 1 1 = z_corr m_ss 1 1 /\
  row_dot eu_ss ev_l ep_l (jx_row m_ss (newton_q 1 true) 0 1) d_ss <> 0 /\ row_dot eu_ss ev_l ep_l (jz_row m_ss (newton_q 1 true) 1 1) d_ss <> 0.
Proof.
  split; [exact tags_ss|]. split; [exact path_ss|]. split; [apply tangent_q|]. split; [reflexivity|]. split; [discriminate|].
  split; [apply rock_ss|]. split; [reflexivity|]. split; [reflexivity|]. split; nums; lra.
Qed.

(** ** Where the rows are not the derivative *)
Lemma dlim_poly f a b c : (forall t, f t = a + t * b + t * t * c) -> derivable_pt_lim f 0 b.
Proof.
  intros H. eapply dlim_ext; [exact H|]. apply dlim_eq with (b + (1 * 0 + 0 * 1) * c); [ring|]. apply dlim_plus; [apply dlim_affine|].
  apply dlim_scal. apply (derivable_pt_lim_mult (fun t => t) (fun t => t)); apply derivable_pt_lim_id.
Qed.
Lemma not_slope f b l : derivable_pt_lim f 0 b -> b <> l -> ~ derivable_pt_lim f 0 l.
Proof. intros H N D. apply N. exact (uniqueness_limite f 0 b l H D). Qed.

(** Free-slip walls and a shear stress depending on the pressure (as with a
    pressure-dependent yield stress): the row of a Vx node beside the wall drops the
    pressure derivative of the wall's shear stress. *)
Theorem C102_wall_pressure_refuted : exists m w eu ev ep d ft L ix iz,
  tags_ok m /\ (3 <= nx m)%Z /\ path m eu ev ep d ft /\ tangent_ok m w L (ft 0) /\ perx w = periodic PureShear /\ rock PureShear m ix iz /\
  jx_corr m w ix iz = x_corr m ix iz /\ (0 < ix < nx m - 1)%Z /\ (0 < iz < nz m)%Z /\
  ~ derivable_pt_lim (fun t => jx_residual m w ix iz L (ft t)) 0 (row_dot eu ev ep (jx_row m w ix iz) d).
Proof.
  exists m_ps, (newton_q 1 false), id_l, ev_l, ep_l, d_ps, f_ps, (law_q 1), 1%Z, 1%Z.
  split; [exact tags_ps|]. split; [cbn; lia|]. split; [exact path_ps|]. split; [apply tangent_q|]. split; [reflexivity|]. split; [apply rock_ps|].
  split; [reflexivity|]. split; [cbn; lia|]. split; [cbn; lia|].
  apply (not_slope _ (- (605 / 12))); [apply dlim_poly with (a := 0) (c := - 600); intros t; nums; field|nums; lra].
Qed.
Print Assumptions C102_wall_pressure_refuted.

(** No-slip side walls (Vz prescribed on the wall, type 11): the rows of the Vx nodes
    beside the wall miss the shear strain rate of the wall's vertices. *)
Definition ns_v := [11; 0; 0; 0; 11;   11; -1; -1; -1; 11;   11; 0; 0; 0; 11]%Z.
Definition m_ns := mk ps_u ns_v all_p.
Definition ns_V := [0; 0; 0; 0; 0;   -1; 1; 2; 3; -3;   0; 0; 0; 0; 0]%Z.
Lemma path_ns : path m_ns id_l ev_l ep_l (dvec ps_U ns_V some_P) (ramp ps_U ns_V some_P).
Proof. path_finite. Qed.
Lemma tags_ns : tags_ok m_ns.
Proof. tags_finite. Qed.
Theorem C102_no_slip_side_refuted : exists m w eu ev ep d ft L ix iz,
  tags_ok m /\ (3 <= nx m)%Z /\ path m eu ev ep d ft /\ tangent_ok m w L (ft 0) /\ perx w = false /\ (forall v, j34 w v = 0) /\
  (forall i j, (0 <= i < nx m)%Z -> (0 <= j <= nz m)%Z -> tu m (Ui m i j) = template_u PureShear m i j) /\
  (forall i j, (0 < i < nx m)%Z -> (0 <= j < nz m)%Z -> tv m (Vi m i j) = template_v PureShear m i j) /\
  (forall j, (0 <= j < nz m)%Z -> tv m (Vi m 0 j) = 11%Z /\ tv m (Vi m (nx m) j) = 11%Z) /\
  (forall i j, (0 <= i < nx m - 1)%Z -> (0 <= j < nz m - 1)%Z -> tp m (Pi m i j) = (-1)%Z) /\ (forall v, tg m v <> 30%Z) /\
  jx_corr m w ix iz = x_corr m ix iz /\ (0 < ix < nx m - 1)%Z /\ (0 < iz < nz m)%Z /\
  ~ derivable_pt_lim (fun t => jx_residual m w ix iz L (ft t)) 0 (row_dot eu ev ep (jx_row m w ix iz) d).
Proof.
  exists m_ns, (newton_q 0 false), id_l, ev_l, ep_l, (dvec ps_U ns_V some_P), (ramp ps_U ns_V some_P), (law_q 0), 1%Z, 1%Z.
  split; [exact tags_ns|]. split; [cbn; lia|]. split; [exact path_ns|]. split; [apply tangent_q|]. split; [reflexivity|]. split; [reflexivity|].
  split; [intros i j Hi Hj; cbn in Hi, Hj; zcase i 5%nat; try (exfalso; lia); zcase j 4%nat; try (exfalso; lia); reflexivity|].
  split; [intros i j Hi Hj; cbn in Hi, Hj; zcase i 5%nat; try (exfalso; lia); zcase j 4%nat; try (exfalso; lia); reflexivity|].
  split; [intros j Hj; cbn in Hj; zcase j 4%nat; try (exfalso; lia); split; reflexivity|].
  split; [intros i j Hi Hj; cbn in Hi, Hj; zcase i 5%nat; try (exfalso; lia); zcase j 4%nat; try (exfalso; lia); reflexivity|].
  split; [intros v; cbn; lia|]. split; [reflexivity|]. split; [cbn; lia|]. split; [cbn; lia|].
  apply (not_slope _ (- (215 / 12))); [apply dlim_poly with (a := 0) (c := - 600); intros t; nums; field|nums; lra].
Qed.
Print Assumptions C102_no_slip_side_refuted.

(** A boundary node with a prescribed normal stress (type 2) has an empty Newton row:
    its unknown is numbered but its equation is void, so the matrix is singular,
    although the residual does depend on the unknowns. *)
Definition st_u := [13; 13; 13; 13;   2; -1; -1; 0;   2; -1; -1; 0;   13; 13; 13; 13]%Z.
Definition m_st := mk st_u ps_v all_p.
Definition st_U := [3; 5; 7; 0;   3; 5; 7; 0;   2; 4; 6; 0;   2; 4; 6; 0]%Z.
Lemma path_st : path m_st id_l ev_l ep_l (dvec st_U ps_V some_P) (ramp st_U ps_V some_P).
Proof. path_finite. Qed.
Lemma tags_st : tags_ok m_st.
Proof. tags_finite. Qed.
Theorem C102_stress_boundary_refuted : exists m w eu ev ep d ft L iz,
  tags_ok m /\ (3 <= nx m)%Z /\ path m eu ev ep d ft /\ tangent_ok m w L (ft 0) /\
  tu m (Ui m 0 iz) = 2%Z /\ (0 < iz < nz m)%Z /\ (forall d', row_dot eu ev ep (jx_row m w 0 iz) d' = 0) /\
  ~ derivable_pt_lim (fun t => jx_residual m w 0 iz L (ft t)) 0 (row_dot eu ev ep (jx_row m w 0 iz) d).
Proof.
  exists m_st, (newton_q 0 false), id_l, ev_l, ep_l, (dvec st_U ps_V some_P), (ramp st_U ps_V some_P), (law_q 0), 1%Z.
  split; [exact tags_st|]. split; [cbn; lia|]. split; [exact path_st|]. split; [apply tangent_q|]. split; [reflexivity|]. split; [cbn; lia|].
  split; [intros d'; reflexivity|].
  apply (not_slope _ (- (79 / 4))); [apply dlim_poly with (a := - 12) (c := - 200); intros t; nums; field|nums; lra].
Qed.
Print Assumptions C102_stress_boundary_refuted.

(** Beside an air cell: the row averages the three rock cells around the vertex with
    weight 1/3, the strain rates and pressure of the vertex are a quarter of their sum. *)
Definition ai_v := [13; 0; 0; 0; 13;   13; -1; -1; -1; 13;   13; 0; 0; 30; 13]%Z.
Definition ai_p := [-1; -1; -1; -1; -1; 30]%Z.
Definition m_ai := mk ps_u ai_v ai_p.
Definition ai_P := [10; 20; 40; 50; 90; 0]%Z.
Lemma path_ai : path m_ai id_l ev_l ep_l (dvec ps_U ps_V ai_P) (ramp ps_U ps_V ai_P).
Proof. path_finite. Qed.
Lemma tags_ai : tags_ok m_ai.
Proof. tags_finite. Qed.
Theorem C102_beside_air_refuted : exists m w eu ev ep d ft L ix iz,
  tags_ok m /\ (3 <= nx m)%Z /\ path m eu ev ep d ft /\ tangent_ok m w L (ft 0) /\ perx w = false /\ (forall v, j34 w v = 0) /\
  air (tp m (Pi m (nx m - 2) (nz m - 2))) = true /\
  (forall i j, (0 <= i < nx m - 1)%Z -> (0 <= j < nz m - 1)%Z -> (i, j) <> (nx m - 2, nz m - 2)%Z -> tp m (Pi m i j) = (-1)%Z) /\ (forall v, tg m v <> 30%Z) /\
  jx_corr m w ix iz = x_corr m ix iz /\ (0 < ix < nx m - 1)%Z /\ (0 < iz < nz m)%Z /\
  ~ derivable_pt_lim (fun t => jx_residual m w ix iz L (ft t)) 0 (row_dot eu ev ep (jx_row m w ix iz) d).
Proof.
  exists m_ai, (newton_q 0 false), id_l, ev_l, ep_l, (dvec ps_U ps_V ai_P), (ramp ps_U ps_V ai_P), (law_q 0), 2%Z, 1%Z.
  split; [exact tags_ai|]. split; [cbn; lia|]. split; [exact path_ai|]. split; [apply tangent_q|]. split; [reflexivity|]. split; [reflexivity|].
  split; [reflexivity|].
  split; [intros i j Hi Hj Hn; cbn in Hi, Hj, Hn; zcase i 5%nat; try (exfalso; lia); zcase j 4%nat; try (exfalso; lia); try (exfalso; apply Hn; reflexivity); reflexivity|].
  split; [intros v; cbn; lia|]. split; [reflexivity|]. split; [cbn; lia|]. split; [cbn; lia|].
  apply (not_slope _ (- (449 / 12))); [apply dlim_poly with (a := 0) (c := - 2400); intros t; nums; field|nums; lra].
Qed.
Print Assumptions C102_beside_air_refuted.
