(** C32, C33: the assembled Stokes system. *)
From Coq Require Import ZArith Reals List Bool Lia Lra.
Import ListNotations.
From Verif Require Import StokesModel StokesProofs StokesX StokesZ StokesSym.
Local Open Scope R_scope.

(** ** C32 *)
Theorem C32_momentum_rows_linearise_residual : forall m eu ev ep d f f',
  tags_ok m -> bc_ok m f -> bc_ok m f' -> incremented m eu ev ep d f f' ->
  (forall i j, (0 <= i < nx m)%Z -> (0 < j < nz m)%Z -> In (tu m (Ui m i j)) [-1; 2; -2]%Z ->
     x_residual m i j f' - x_residual m i j f = row_dot eu ev ep (x_row m i j) d) /\
  (forall i j, (0 < i < nx m)%Z -> (0 <= j < nz m)%Z -> In (tv m (Vi m i j)) [-1; 2]%Z ->
     z_residual m i j f' - z_residual m i j f = row_dot eu ev ep (z_row m i j) d).
Proof.
  intros m eu ev ep d f f' T B B' I. split; intros i j Hi Hj Ty.
  - now apply (x_linearisation m eu ev ep d f f').
  - now apply (z_linearisation m eu ev ep d f f').
Qed.
Print Assumptions C32_momentum_rows_linearise_residual.

Theorem C32_continuity_rows_linearise_residual : forall m eu ev ep d f f',
  tags_ok m -> bc_ok m f -> bc_ok m f' -> incremented m eu ev ep d f f' -> dt m <> 0 ->
  forall i j, (0 <= i < nx m - 1)%Z -> (0 <= j < nz m - 1)%Z -> tp m (Pi m i j) = (-1)%Z ->
  tu m (Ui m i (j + 1)) <> 30%Z -> tu m (Ui m (i + 1) (j + 1)) <> 30%Z ->
  tv m (Vi m (i + 1) j) <> 30%Z -> tv m (Vi m (i + 1) (j + 1)) <> 30%Z ->
  c_residual m i j f' - c_residual m i j f =
  row_dot eu ev ep (c_row m i j) d
  (* the part the solver adds itself in compressible cells *)
  + b2R (ccomp m (Pi m i j)) * bet m (Pi m i j) / dt m * celvol m * d (ep (Pi m i j)).
Proof. intros. now apply c_linearisation with (f := f). Qed.
Print Assumptions C32_continuity_rows_linearise_residual.

(** Consequence: with frozen viscosities, subtracting an exact solution [x] of
    "matrix times x = residual" (step length -1) annihilates every momentum residual. *)
Theorem C32_exact_solve_annihilates_residual : forall m eu ev ep x f f',
  tags_ok m -> bc_ok m f -> bc_ok m f' -> incremented m eu ev ep (fun k => - 1 * x k) f f' ->
  (forall i j, (0 <= i < nx m)%Z -> (0 < j < nz m)%Z -> In (tu m (Ui m i j)) [-1; 2; -2]%Z ->
     row_dot eu ev ep (x_row m i j) x = x_residual m i j f -> x_residual m i j f' = 0) /\
  (forall i j, (0 < i < nx m)%Z -> (0 <= j < nz m)%Z -> In (tv m (Vi m i j)) [-1; 2]%Z ->
     row_dot eu ev ep (z_row m i j) x = z_residual m i j f -> z_residual m i j f' = 0).
Proof.
  intros m eu ev ep x f f' T B B' I.
  assert (L : forall row, row_dot eu ev ep row (fun k => - 1 * x k) = - row_dot eu ev ep row x).
  { induction row as [|[t a] row IH]; cbn [row_dot fold_right fst snd]; [lra|].
    unfold row_dot in *. rewrite IH. ring. }
  destruct (C32_momentum_rows_linearise_residual m eu ev ep _ f f' T B B' I) as (X & Z).
  split; intros i j Hi Hj Ty E.
  - specialize (X i j Hi Hj Ty). rewrite L, E in X. lra.
  - specialize (Z i j Hi Hj Ty). rewrite L, E in Z. lra.
Qed.
Print Assumptions C32_exact_solve_annihilates_residual.

(** *** A set-up meeting the hypotheses: normal stress prescribed at the west and
    north sides, velocity at the east and south. *)
Fixpoint tab (def : Z) (l : list Z) (c : Z) : Z :=
  match l with [] => def | x :: r => if (c =? 0)%Z then x else tab def r (c - 1)%Z end.
Definition rtab (l : list Z) (c : Z) : R := IZR (tab 0 l c).
Definition m_ex (tp0 : Z -> Z) (cmp : bool) : mesh := {|
  nx := 4; nz := 3; dx := 1; dz := 2;
  tu := tab 30 [13; 13; 13; 13;   2; -1; -1; 0;   2; -1; -1; 0;   11; 11; 11; 11]%Z;
  tv := tab 30 [13; 0; 0; 0; 11;   13; -1; -1; -1; 11;   13; 2; 2; 2; 11]%Z;
  tp := tp0; tg := fun _ => (-1)%Z;
  eta_n := fun c => 1 + IZR c * IZR c; eta_s := fun c => 2 + IZR c * IZR c;
  exx0 := fun _ => 1; ezz0 := fun _ => 1; exz0 := fun _ => 1; valu := fun _ => 0; valv := fun _ => 0;
  rho_n := fun c => IZR c; gx := fun _ => 0; gz := fun _ => -10; comp := cmp; oop := false; stab := false;
  om := 1; dt := 1; bx := fun _ => 0; bz := fun _ => -10; ccomp := fun _ => cmp; bet := fun _ => 1; p0 := fun _ => 0; bp := fun _ => 0 |}.
Definition u_ex := rtab [3; 5; 7; 0;   3; 5; 7; 0;   2; 4; 6; 0;   -2; -4; -6; 0]%Z.
Definition v_ex := rtab [0; 0; 0; 0; 0;   1; 1; 2; 3; -3;   9; 9; 8; 7; -7]%Z.
Definition p_ex := rtab [10; 20; 30; 40; 50; 60]%Z.
Definition f0_ex := {| fu := fun _ => 0; fv := fun _ => 0; fp := fun _ => 0; fpc := fun _ => 0 |}.
Definition f1_ex (pp : Z -> R) := {| fu := u_ex; fv := v_ex; fp := pp; fpc := pp |}.
Definition d_ex (e : Z) : R := if (e <? 50)%Z then u_ex e else if (e <? 80)%Z then v_ex (e - 50)%Z else p_ex (e - 80)%Z.

Ltac zcase i n := lazymatch n with
  | O => idtac
  | S ?k => destruct (Z.eq_dec i (Z.of_nat k)); [subst i|zcase i k]
  end.
Ltac decide_cell := cbn in *; first [tauto | intuition (try lia; try lra; try congruence)].

Definition tp_ex c : Z := if (0 <=? c)%Z && (c <? 6)%Z then (-1)%Z else 30%Z.
Lemma tags_ex cmp : tags_ok (m_ex tp_ex cmp).
Proof.
  split.
  - cbn; lia.
  - cbn; lia.
  - cbn; lra.
  - cbn; lra.
  - intros i j Hi Hj. cbn [nx nz m_ex] in Hi, Hj. zcase i 4%nat; try (exfalso; lia); zcase j 4%nat; try (exfalso; lia); decide_cell.
  - intros i j Hi Hj. cbn [nx nz m_ex] in Hi, Hj. zcase i 4%nat; try (exfalso; lia); zcase j 4%nat; try (exfalso; lia); decide_cell.
  - intros i j Hi Hj. cbn [nx nz m_ex] in Hi, Hj. zcase i 4%nat; try (exfalso; lia); zcase j 4%nat; try (exfalso; lia); decide_cell.
  - intros i j Hi Hj. cbn [nx nz m_ex] in Hi, Hj. zcase i 4%nat; try (exfalso; lia); zcase j 4%nat; try (exfalso; lia); decide_cell.
  - intros i j Hi Hj. cbn [nx nz m_ex] in Hi, Hj. zcase i 4%nat; try (exfalso; lia); zcase j 4%nat; try (exfalso; lia); decide_cell.
  - intros i j Hi Hj. cbn [nx nz m_ex] in Hi, Hj. zcase i 4%nat; try (exfalso; lia); zcase j 4%nat; try (exfalso; lia); decide_cell.
  - intros j Hj. cbn [nx nz m_ex] in Hj. zcase j 4%nat; try (exfalso; lia); decide_cell.
  - intros i j Hi Hj. cbn [nx nz m_ex] in Hi, Hj. zcase i 5%nat; try (exfalso; lia); zcase j 4%nat; try (exfalso; lia); decide_cell.
  - intros i j Hi Hj. cbn [nx nz m_ex] in Hi, Hj. zcase i 5%nat; try (exfalso; lia); zcase j 4%nat; try (exfalso; lia); decide_cell.
  - intros i j Hi Hj. cbn [nx nz m_ex] in Hi, Hj. zcase i 5%nat; try (exfalso; lia); zcase j 4%nat; try (exfalso; lia); decide_cell.
  - intros i j Hi Hj. cbn [nx nz m_ex] in Hi, Hj. zcase i 5%nat; try (exfalso; lia); zcase j 4%nat; try (exfalso; lia); decide_cell.
  - intros i j Hi Hj. cbn [tp m_ex]. unfold tp_ex. destruct (_ && _); cbn; tauto.
  - intros j Hj Ty j' Hj'. cbn [nx nz m_ex] in Hj. right. assert (0 <= j' < 3)%Z by lia. zcase j' 3%nat; try (exfalso; lia); cbn; tauto.
  - intros j Hj Ty j' Hj'. cbn [nx nz m_ex] in Hj. right. assert (0 <= j' < 3)%Z by lia. zcase j' 3%nat; try (exfalso; lia); cbn; tauto.
  - intros j Hj Ty j' Hj'. cbn [nx nz m_ex] in Hj. right. assert (0 <= j' < 4)%Z by lia. zcase j' 4%nat; try (exfalso; lia); cbn; tauto.
  - intros j Hj Ty j' Hj'. cbn [nx nz m_ex] in Hj. right. assert (0 <= j' < 4)%Z by lia. zcase j' 4%nat; try (exfalso; lia); cbn; tauto.
  - intros j Hj. cbn [nx nz m_ex] in Hj. zcase j 4%nat; try (exfalso; lia); decide_cell.
Qed.

Lemma bc0_ex tp0 cmp : bc_ok (m_ex tp0 cmp) f0_ex.
Proof. split; intros; cbn; repeat split; intros; lra. Qed.
Lemma bc1_ex tp0 cmp pp : bc_ok (m_ex tp0 cmp) (f1_ex pp).
Proof.
  split; intros i Hi; cbn [nx nz m_ex] in Hi; unfold f1_ex, u_ex, v_ex, rtab; cbn [fu fv valu valv m_ex].
  - zcase i 4%nat; try (exfalso; lia); decide_cell.
  - zcase i 4%nat; try (exfalso; lia); decide_cell.
  - zcase i 4%nat; try (exfalso; lia); decide_cell.
  - zcase i 4%nat; try (exfalso; lia); decide_cell.
  - zcase i 4%nat; try (exfalso; lia); decide_cell.
Qed.

Lemma tab_out def l c : ~ (0 <= c < Z.of_nat (length l))%Z -> tab def l c = def.
Proof.
  revert c. induction l as [|x l IH]; intros c H; [reflexivity|].
  cbn [length tab] in *. destruct (Z.eqb_spec c 0); [lia|]. apply IH. lia.
Qed.

Lemma inc_ex tp0 cmp pp :
  (forall c, tp0 c = (-1)%Z -> (0 <= c)%Z /\ pp c = p_ex c) -> (forall c, tp0 c <> (-1)%Z -> pp c = 0) ->
  incremented (m_ex tp0 cmp) (fun c => c) (fun c => (50 + c)%Z) (fun c => (80 + c)%Z) d_ex f0_ex (f1_ex pp).
Proof.
  intros Hp Hq. split.
  - intros c H. cbn [fu f1_ex f0_ex]. destruct (Z_lt_dec c 0) as [N|N]; [|destruct (Z_lt_dec c 16)].
    + cbn [tu m_ex] in H. rewrite tab_out in H by (cbn; lia). decide_cell.
    + unfold d_ex. replace (c <? 50)%Z with true by lia. lra.
    + cbn [tu m_ex] in H. rewrite tab_out in H by (cbn; lia). decide_cell.
  - intros c H. cbn [fu f1_ex f0_ex]. unfold u_ex, rtab. destruct (Z_lt_dec c 0) as [N|N]; [|destruct (Z_lt_dec c 16)].
    + rewrite tab_out by (cbn; lia). reflexivity.
    + zcase c 16%nat; try (exfalso; lia); decide_cell.
    + rewrite tab_out by (cbn; lia). reflexivity.
  - intros c H. cbn [fv f1_ex f0_ex]. destruct (Z_lt_dec c 0) as [N|N]; [|destruct (Z_lt_dec c 15)].
    + cbn [tv m_ex] in H. rewrite tab_out in H by (cbn; lia). decide_cell.
    + unfold d_ex. replace (50 + c <? 50)%Z with false by lia. replace (50 + c <? 80)%Z with true by lia.
      replace (50 + c - 50)%Z with c by lia. lra.
    + cbn [tv m_ex] in H. rewrite tab_out in H by (cbn; lia). decide_cell.
  - intros c H. cbn [fv f1_ex f0_ex]. unfold v_ex, rtab. destruct (Z_lt_dec c 0) as [N|N]; [|destruct (Z_lt_dec c 15)].
    + rewrite tab_out by (cbn; lia). reflexivity.
    + zcase c 15%nat; try (exfalso; lia); decide_cell.
    + rewrite tab_out by (cbn; lia). reflexivity.
  - intros c H. destruct (Hp c H) as (H0 & E). cbn [fp fpc f1_ex f0_ex]. unfold d_ex. rewrite E.
    replace (80 + c <? 50)%Z with false by lia. replace (80 + c <? 80)%Z with false by lia.
    replace (80 + c - 80)%Z with c by lia. lra.
  - intros c H. cbn [fp fpc f1_ex f0_ex]. rewrite (Hq c H). auto.
  - intros j Hj H. cbn [nx nz m_ex] in Hj. zcase j 4%nat; try (exfalso; lia); decide_cell.
Qed.

Lemma inc_full_ex cmp : incremented (m_ex tp_ex cmp) (fun c => c) (fun c => (50 + c)%Z) (fun c => (80 + c)%Z) d_ex f0_ex (f1_ex p_ex).
Proof.
  apply inc_ex; intros c; unfold tp_ex; destruct (Z.leb_spec 0 c); destruct (Z.ltb_spec c 6); cbn [andb]; intros Q; try lia.
  - auto.
  - unfold p_ex, rtab. rewrite tab_out by (cbn; lia). reflexivity.
  - unfold p_ex, rtab. rewrite tab_out by (cbn; lia). reflexivity.
Qed.
Ltac numbers := cbv -[Rplus Rmult Rdiv Rminus Ropp Rinv IZR Rpow_def.pow].

Example C32_momentum_ex :
  tags_ok (m_ex tp_ex true) /\ bc_ok (m_ex tp_ex true) f0_ex /\ bc_ok (m_ex tp_ex true) (f1_ex p_ex) /\
  incremented (m_ex tp_ex true) (fun c => c) (fun c => (50 + c)%Z) (fun c => (80 + c)%Z) d_ex f0_ex (f1_ex p_ex) /\
  tu (m_ex tp_ex true) (Ui (m_ex tp_ex true) 0 2) = 2%Z /\
  x_residual (m_ex tp_ex true) 0 2 (f1_ex p_ex) <> x_residual (m_ex tp_ex true) 0 2 f0_ex.
Proof.
  repeat apply conj; try apply tags_ex; try apply bc0_ex; try apply bc1_ex; try apply inc_full_ex; try reflexivity.
  numbers. lra.
Qed.

(** A cell with prescribed pressure (type 0), as set by several published set-ups
    at the top corners: all other hypotheses hold, yet the row is not the
    linearisation of the residual. *)
Theorem C32_prescribed_pressure_refuted : exists tp0 eu ev ep d f f' i j,
  (forall c, c <> 5%Z -> tp0 c = tp_ex c) /\ tp0 5%Z = 0%Z /\
  let m := m_ex tp0 false in
  tags_ok (m_ex tp_ex false) /\ bc_ok m f /\ bc_ok m f' /\ incremented m eu ev ep d f f' /\
  (0 <= i < nx m)%Z /\ (0 < j < nz m)%Z /\ tu m (Ui m i j) = (-1)%Z /\
  x_residual m i j f' - x_residual m i j f <> row_dot eu ev ep (x_row m i j) d.
Proof.
  set (q := fun c : Z => if (c =? 5)%Z then 0%Z else tp_ex c).
  set (pp := fun c : Z => if (c =? 5)%Z then 0 else p_ex c).
  exists q, (fun c => c), (fun c => (50 + c)%Z), (fun c => (80 + c)%Z), d_ex, f0_ex, (f1_ex pp), 2%Z, 2%Z.
  repeat apply conj; try apply tags_ex; try apply bc0_ex; try apply bc1_ex; try reflexivity; try (cbn; lia).
  - intros c N. unfold q. now rewrite (proj2 (Z.eqb_neq _ _) N).
  - apply inc_ex; intros c; unfold q, pp; destruct (Z.eqb_spec c 5) as [->|N]; intros Q; try lia; try reflexivity.
    + unfold tp_ex in Q. destruct (Z.leb_spec 0 c); destruct (Z.ltb_spec c 6); cbn [andb] in Q; try lia. auto.
    + unfold tp_ex in Q. unfold p_ex, rtab. destruct (Z.leb_spec 0 c); destruct (Z.ltb_spec c 6); cbn [andb] in Q; try lia;
        rewrite tab_out by (cbn; lia); reflexivity.
  - numbers. lra.
Qed.
Print Assumptions C32_prescribed_pressure_refuted.

(** *** Periodic sides, prescribed velocity at bottom and top. *)
Definition m_per : mesh := {|
  nx := 4; nz := 3; dx := 1; dz := 2;
  tu := tab 30 [11; 11; 11; 11;   -2; -1; -1; -12;   -2; -1; -1; -12;   11; 11; 11; 11]%Z;
  tv := tab 30 [-12; 0; 0; 0; -12;   -12; -1; -1; -1; -12;   -12; 0; 0; 0; -12]%Z;
  tp := tp_ex; tg := fun _ => (-1)%Z;
  eta_n := fun c => 1 + IZR c * IZR c; eta_s := fun c => 2 + IZR (c / 4) * IZR (c / 4);
  exx0 := fun _ => 1; ezz0 := fun _ => 1; exz0 := fun _ => 1; valu := fun c => IZR c; valv := fun _ => 0;
  rho_n := fun c => IZR c; gx := fun _ => 0; gz := fun _ => -10; comp := true; oop := false; stab := false;
  om := 1; dt := 1; bx := fun _ => 0; bz := fun _ => -10; ccomp := fun _ => true; bet := fun _ => 1; p0 := fun _ => 0; bp := fun _ => 0 |}.
Definition eu_per (c : Z) : Z := if (c =? 7)%Z then 4%Z else if (c =? 11)%Z then 8%Z else c.

Lemma tags_per : tags_ok m_per.
Proof.
  split.
  - cbn; lia.
  - cbn; lia.
  - cbn; lra.
  - cbn; lra.
  - intros i j Hi Hj. cbn [nx nz m_per] in Hi, Hj. zcase i 4%nat; try (exfalso; lia); zcase j 4%nat; try (exfalso; lia); decide_cell.
  - intros i j Hi Hj. cbn [nx nz m_per] in Hi, Hj. zcase i 4%nat; try (exfalso; lia); zcase j 4%nat; try (exfalso; lia); decide_cell.
  - intros i j Hi Hj. cbn [nx nz m_per] in Hi, Hj. zcase i 4%nat; try (exfalso; lia); zcase j 4%nat; try (exfalso; lia); decide_cell.
  - intros i j Hi Hj. cbn [nx nz m_per] in Hi, Hj. zcase i 4%nat; try (exfalso; lia); zcase j 4%nat; try (exfalso; lia); decide_cell.
  - intros i j Hi Hj. cbn [nx nz m_per] in Hi, Hj. zcase i 4%nat; try (exfalso; lia); zcase j 4%nat; try (exfalso; lia); decide_cell.
  - intros i j Hi Hj. cbn [nx nz m_per] in Hi, Hj. zcase i 4%nat; try (exfalso; lia); zcase j 4%nat; try (exfalso; lia); decide_cell.
  - intros j Hj. cbn [nx nz m_per] in Hj. zcase j 4%nat; try (exfalso; lia); decide_cell.
  - intros i j Hi Hj. cbn [nx nz m_per] in Hi, Hj. zcase i 5%nat; try (exfalso; lia); zcase j 4%nat; try (exfalso; lia); decide_cell.
  - intros i j Hi Hj. cbn [nx nz m_per] in Hi, Hj. zcase i 5%nat; try (exfalso; lia); zcase j 4%nat; try (exfalso; lia); decide_cell.
  - intros i j Hi Hj. cbn [nx nz m_per] in Hi, Hj. zcase i 5%nat; try (exfalso; lia); zcase j 4%nat; try (exfalso; lia); decide_cell.
  - intros i j Hi Hj. cbn [nx nz m_per] in Hi, Hj. zcase i 5%nat; try (exfalso; lia); zcase j 4%nat; try (exfalso; lia); decide_cell.
  - intros i j Hi Hj. cbn [tp m_per]. unfold tp_ex. destruct (_ && _); cbn; tauto.
  - intros j Hj. cbn [nx nz m_per] in Hj. zcase j 4%nat; try (exfalso; lia); decide_cell.
  - intros j Hj. cbn [nx nz m_per] in Hj. zcase j 4%nat; try (exfalso; lia); decide_cell.
  - intros j Hj. cbn [nx nz m_per] in Hj. zcase j 4%nat; try (exfalso; lia); decide_cell.
  - intros j Hj. cbn [nx nz m_per] in Hj. zcase j 4%nat; try (exfalso; lia); decide_cell.
  - intros j Hj Ty j' Hj'. cbn [nx nz m_per] in Hj. right. assert (0 <= j' < 3)%Z by lia. zcase j' 3%nat; try (exfalso; lia); reflexivity.
Qed.
Lemma tab_in def l c : tab def l c = def \/ In (tab def l c) l.
Proof.
  revert c. induction l as [|x l IH]; intros c; [now left|]. cbn [tab In]. destruct (c =? 0)%Z; [auto|].
  destruct (IH (c - 1)%Z); auto.
Qed.
Lemma sides_per : sides_ok m_per.
Proof.
  split.
  - intros c E. cbn [tu m_per] in E. destruct (tab_in 30 [11; 11; 11; 11;   -2; -1; -1; -12;   -2; -1; -1; -12;   11; 11; 11; 11]%Z c) as [Q|Q];
      rewrite E in Q; cbn in Q; intuition lia.
  - intros c E. cbn [tv m_per] in E. destruct (tab_in 30 [-12; 0; 0; 0; -12;   -12; -1; -1; -1; -12;   -12; 0; 0; 0; -12]%Z c) as [Q|Q];
      rewrite E in Q; cbn in Q; intuition lia.
  - intros j Hj. cbn [nz m_per] in Hj. zcase j 4%nat; try (exfalso; lia); cbn; tauto.
  - intros j Hj _. cbn [nz m_per] in Hj. zcase j 4%nat; try (exfalso; lia); cbn; lra.
Qed.
Lemma shared_per : shared m_per eu_per.
Proof. intros j Hj. cbn [nz m_per] in Hj. zcase j 4%nat; try (exfalso; lia); decide_cell. Qed.
Lemma faces_per : faces_ok m_per.
Proof.
  intros i j Hi Hj _. cbn [nx nz m_per] in Hi, Hj. zcase i 3%nat; try (exfalso; lia); zcase j 2%nat; try (exfalso; lia); cbn; lia.
Qed.

(** ** C33 *)
(** For all velocity vectors [w], [z]: [w . A z = z . A w]. *)
Theorem C33_velocity_block_symmetric : forall m eu ev ep, tags_ok m -> sides_ok m -> shared m eu ->
  forall w z, velocity_vector ep w -> velocity_vector ep z -> power m eu ev ep w z = power m eu ev ep z w.
Proof. intros. now apply power_sym. Qed.
Print Assumptions C33_velocity_block_symmetric.

(** [w . A w >= 0]: what a Cholesky factorisation needs, for arbitrary non-negative
    viscosities. *)
Theorem C33_velocity_block_dissipates : forall m eu ev ep, tags_ok m -> sides_ok m -> shared m eu ->
  0 < dx m -> 0 < dz m -> stab m = false -> (forall c, 0 <= eta_n m c) -> (forall c, 0 <= eta_s m c) ->
  forall w, velocity_vector ep w -> 0 <= power m eu ev ep w w.
Proof.
  intros m eu ev ep T Sd Sh Hx Hz Hs He Hes w Hw. apply power_nonneg; try assumption.
  unfold celvol. apply Rmult_le_pos; lra.
Qed.
Print Assumptions C33_velocity_block_dissipates.

(** The pressure gradient block is minus the transposed divergence block; with the
    out-of-plane option the divergence is 3/2 times larger and the two differ by that factor. *)
Theorem C33_gradient_is_minus_transposed_divergence : forall m eu ev ep, tags_ok m -> sides_ok m -> shared m eu -> faces_ok m ->
  forall w q, velocity_vector ep w -> pressure_vector eu ev q ->
  (if oop m then 3 / 2 else 1) * power m eu ev ep w q = - flux m eu ev ep q w.
Proof. intros m eu ev ep T Sd Sh Fo w q Hw Hq. pose proof (gradient_transpose m eu ev ep T Sd Sh q w Fo Hw Hq) as E. exact E. Qed.
Print Assumptions C33_gradient_is_minus_transposed_divergence.

Definition w_ex (k : Z) : R := if (k =? 5)%Z then 1 else if (k =? 4)%Z then 2 else if (k =? 57)%Z then 3 else 0.
Definition z_ex (k : Z) : R := if (k =? 6)%Z then 1 else if (k =? 58)%Z then -1 else 0.
Definition q_ex (k : Z) : R := if (80 <=? k)%Z && (k <? 86)%Z then IZR k else 0.
Definition ev_per (c : Z) : Z := if (0 <=? c)%Z && (c <? 15)%Z then (50 + c)%Z else 49%Z.
Definition eu_per' (c : Z) : Z := if (0 <=? c)%Z && (c <? 16)%Z then eu_per c else 49%Z.
Definition ep_per (c : Z) : Z := if (0 <=? c)%Z && (c <? 6)%Z then (80 + c)%Z else 79%Z.
Lemma shared_per' : shared m_per eu_per'.
Proof. intros j Hj. cbn [nz m_per] in Hj. zcase j 4%nat; try (exfalso; lia); decide_cell. Qed.

Example C33_ex : tags_ok m_per /\ sides_ok m_per /\ shared m_per eu_per' /\ faces_ok m_per /\
  velocity_vector ep_per w_ex /\ velocity_vector ep_per z_ex /\ pressure_vector eu_per' ev_per q_ex /\
  power m_per eu_per' ev_per ep_per w_ex z_ex <> 0 /\ 0 < power m_per eu_per' ev_per ep_per w_ex w_ex /\
  flux m_per eu_per' ev_per ep_per q_ex w_ex <> 0.
Proof.
  repeat apply conj; try apply tags_per; try apply sides_per; try apply shared_per'; try apply faces_per.
  - intros c. unfold ep_per, w_ex. destruct (Z.leb_spec 0 c); destruct (Z.ltb_spec c 6); cbn [andb]; try reflexivity.
    replace (80 + c =? 5)%Z with false by lia. replace (80 + c =? 4)%Z with false by lia. replace (80 + c =? 57)%Z with false by lia. reflexivity.
  - intros c. unfold ep_per, z_ex. destruct (Z.leb_spec 0 c); destruct (Z.ltb_spec c 6); cbn [andb]; try reflexivity.
    replace (80 + c =? 6)%Z with false by lia. replace (80 + c =? 58)%Z with false by lia. reflexivity.
  - intros c. unfold q_ex, eu_per', ev_per, eu_per. split.
    + destruct (Z.leb_spec 0 c); destruct (Z.ltb_spec c 16); cbn [andb]; try reflexivity.
      destruct (Z.eqb_spec c 7); [reflexivity|]. destruct (Z.eqb_spec c 11); [reflexivity|]. replace (80 <=? c)%Z with false by lia. reflexivity.
    + destruct (Z.leb_spec 0 c); destruct (Z.ltb_spec c 15); cbn [andb]; try reflexivity. replace (80 <=? 50 + c)%Z with false by lia. reflexivity.
  - numbers. lra.
  - numbers. lra.
  - numbers. lra.
Qed.

(** Uniform translation produces no force at a node none of whose neighbours is
    prescribed. *)
Definition free_nb (m : mesh) (t : target) : Prop := ~ In (type_of m t) [0; 2; 11; 13; 30; 31]%Z.
Theorem C33_translation_exerts_no_force : forall m eu ev ep a b d, dx m <> 0 -> dz m <> 0 -> stab m = false ->
  (forall c, d (eu c) = a) -> (forall c, d (ev c) = b) -> (forall c, d (ep c) = 0) ->
  (forall i j, (0 < i < nx m - 1)%Z -> Forall (fun e => match snd (fst e) with P _ => True | t => free_nb m t end) (x_requests m i j) ->
     row_dot eu ev ep (x_row m i j) d = 0) /\
  (forall i j, (0 < j < nz m - 1)%Z -> Forall (fun e => match snd (fst e) with P _ => True | t => free_nb m t end) (z_requests m i j) ->
     row_dot eu ev ep (z_row m i j) d = 0).
Proof.
  intros m eu ev ep a b d Hdx Hdz Hs Hu Hv Hp.
  assert (CP : forall bb c k, contrib m eu ev ep d (bb, P c, k) = 0).
  { intros. unfold contrib. cbn [col_of]. rewrite Hp. destruct (_ && _); ring. }
  assert (CU : forall s c k, free_nb m (U c) -> contrib m eu ev ep d (negb (tu m c =? 30)%Z && s, U c, k) = if s then k * a else 0).
  { intros s c k F. unfold contrib. cbn [col_of type_of]. unfold free_nb in F. cbn [type_of In] in F. rewrite Hu. unfold to_rhs.
    replace (tu m c =? 30)%Z with false by lia. replace (tu m c =? 0)%Z with false by lia. replace (tu m c =? 31)%Z with false by lia.
    replace (tu m c =? 11)%Z with false by lia. replace (tu m c =? 13)%Z with false by lia. destruct s; reflexivity. }
  assert (CV : forall s c k, free_nb m (V c) -> contrib m eu ev ep d (negb (tv m c =? 30)%Z && s, V c, k) = if s then k * b else 0).
  { intros s c k F. unfold contrib. cbn [col_of type_of]. unfold free_nb in F. cbn [type_of In] in F. rewrite Hv. unfold to_rhs.
    replace (tv m c =? 30)%Z with false by lia. replace (tv m c =? 0)%Z with false by lia. replace (tv m c =? 31)%Z with false by lia.
    replace (tv m c =? 11)%Z with false by lia. replace (tv m c =? 13)%Z with false by lia. destruct s; reflexivity. }
  assert (CU1 : forall c k, free_nb m (U c) -> contrib m eu ev ep d (negb (tu m c =? 30)%Z, U c, k) = k * a).
  { intros c k F. rewrite <- (andb_true_r (negb _)). now rewrite (CU true). }
  assert (CV1 : forall c k, free_nb m (V c) -> contrib m eu ev ep d (negb (tv m c =? 30)%Z, V c, k) = k * b).
  { intros c k F. rewrite <- (andb_true_r (negb _)). now rewrite (CV true). }
  assert (RG : forall t, ~ In t [0; 2; 11; 13; 30; 31]%Z -> reg t = 1 /\ eqt t 11 = 0).
  { intros t F. cbn [In] in F. unfold reg, eqt. replace (t =? 13)%Z with false by lia. replace (t =? 11)%Z with false by lia. cbn. auto. }
  split; intros i j Hij F.
  - unfold x_row. rewrite row_dot_entries. unfold x_requests in *.
    repeat (apply Forall_cons_iff in F; destruct F as [? F]). cbn [fst snd] in *. cbn [fold_right].
    rewrite !CP, !CU, !CU1, !CV by assumption. replace (0 <? i)%Z with true by lia. replace (i <? nx m - 1)%Z with true by lia. cbn [orb].
    assert (x_corr m i j = 0) as -> by (unfold x_corr; now rewrite Hs).
    assert (SxxW m i j = 0) as S1 by (unfold SxxW; replace (i =? 0)%Z with false by lia; reflexivity).
    assert (SxxE m i j = 0) as S2 by (unfold SxxE; replace (i =? nx m - 1)%Z with false by lia; reflexivity).
    unfold x_uW, x_uC, x_uE, x_uS, x_uN, x_vSW, x_vSE, x_vNW, x_vNE. rewrite S1, S2.
    destruct (RG (tu m (xVxS m i j)) ltac:(assumption)) as (R1 & R2). destruct (RG (tu m (xVxN m i j)) ltac:(assumption)) as (R3 & R4).
    unfold RegS, RegN, DirS, DirN. rewrite R1, R2, R3, R4. field. auto.
  - unfold z_row. rewrite row_dot_entries. unfold z_requests in *.
    repeat (apply Forall_cons_iff in F; destruct F as [? F]). cbn [fst snd] in *. cbn [fold_right].
    rewrite !CP, !CU, !CV, !CV1 by assumption. replace (0 <? j)%Z with true by lia. replace (j <? nz m - 1)%Z with true by lia.
    assert (z_corr m i j = 0) as -> by (unfold z_corr; now rewrite Hs).
    assert (SzzS m i j = 0) as S1 by (unfold SzzS; replace (j =? 0)%Z with false by lia; reflexivity).
    assert (SzzN m i j = 0) as S2 by (unfold SzzN; replace (j =? nz m - 1)%Z with false by lia; reflexivity).
    unfold z_uSW, z_uSE, z_uNW, z_uNE, z_vS, z_vW, z_vC, z_vE, z_vN. rewrite S1, S2.
    destruct (RG (tv m (zVzW m i j)) ltac:(assumption)) as (R1 & R2). destruct (RG (tv m (zVzE m i j)) ltac:(assumption)) as (R3 & R4).
    unfold RegW, RegE, DirW, DirE. rewrite R1, R2, R3, R4. field. auto.
Qed.
Print Assumptions C33_translation_exerts_no_force.

(** Coefficient of one unknown in a row. *)
Definition is_t (t t' : target) : bool :=
  match t, t' with U a, U b | V a, V b | P a, P b => (a =? b)%Z | _, _ => false end.
Definition coef (row : list (target * R)) (t : target) : R :=
  fold_right (fun e s => (if is_t (fst e) t then snd e else 0) + s) 0 row.

(** At a stress boundary with free tangential slip the block is not symmetric. *)
Theorem C33_stress_boundary_refuted : exists m, tags_ok m /\
  tu m (Ui m 0 2) = 2%Z /\ tv m (Vi m 1 1) = (-1)%Z /\
  coef (x_row m 0 2) (V (Vi m 1 1)) <> coef (z_row m 1 1) (U (Ui m 0 2)).
Proof.
  exists (m_ex tp_ex false). repeat apply conj; try apply tags_ex; try reflexivity.
  numbers. lra.
Qed.
Print Assumptions C33_stress_boundary_refuted.

(** Beside a cell of prescribed pressure the block of a compressible run is not
    symmetric. *)
Theorem C33_prescribed_pressure_refuted : exists tp0,
  (forall c, c <> 5%Z -> tp0 c = tp_ex c) /\ tp0 5%Z = 0%Z /\ tags_ok (m_ex tp_ex true) /\
  let m := m_ex tp0 true in
  tu m (Ui m 2 2) = (-1)%Z /\ tv m (Vi m 3 1) = (-1)%Z /\
  coef (x_row m 2 2) (V (Vi m 3 1)) <> coef (z_row m 3 1) (U (Ui m 2 2)).
Proof.
  set (q := fun c : Z => if (c =? 5)%Z then 0%Z else tp_ex c). exists q.
  repeat apply conj; try apply tags_ex; try reflexivity.
  - intros c N. unfold q. now rewrite (proj2 (Z.eqb_neq _ _) N).
  - numbers. lra.
Qed.
Print Assumptions C33_prescribed_pressure_refuted.

Example C32_periodic_ex : tags_ok (hom m_per) /\ bc_ok (hom m_per) zero /\ bc_ok (hom m_per) (field m_per eu_per' ev_per ep_per w_ex) /\
  incremented (hom m_per) eu_per' ev_per ep_per w_ex zero (field m_per eu_per' ev_per ep_per w_ex) /\
  tu (hom m_per) (Ui (hom m_per) 0 1) = (-2)%Z /\
  x_residual (hom m_per) 0 1 (field m_per eu_per' ev_per ep_per w_ex) <> x_residual (hom m_per) 0 1 zero.
Proof.
  repeat apply conj; [apply hom_tags, tags_per|apply zero_bc|apply field_bc|apply field_inc|reflexivity|].
  - apply tags_per.
  - apply shared_per'.
  - apply sides_per.
  - apply shared_per'.
  - numbers. lra.
Qed.

Definition m_free : mesh := {|
  nx := 4; nz := 4; dx := 1; dz := 2; tu := fun _ => (-1)%Z; tv := fun _ => (-1)%Z; tp := fun _ => (-1)%Z; tg := fun _ => (-1)%Z;
  eta_n := fun c => 1 + IZR c * IZR c; eta_s := fun c => 2 + IZR c * IZR c;
  exx0 := fun _ => 1; ezz0 := fun _ => 1; exz0 := fun _ => 1; valu := fun _ => 0; valv := fun _ => 0;
  rho_n := fun c => IZR c; gx := fun _ => 0; gz := fun _ => -10; comp := true; oop := false; stab := false;
  om := 1; dt := 1; bx := fun _ => 0; bz := fun _ => -10; ccomp := fun _ => true; bet := fun _ => 1; p0 := fun _ => 0; bp := fun _ => 0 |}.
Example C33_translation_ex :
  Forall (fun e => match snd (fst e) with P _ => True | t => free_nb m_free t end) (x_requests m_free 1 2) /\
  Forall (fun e => match snd (fst e) with P _ => True | t => free_nb m_free t end) (z_requests m_free 2 1) /\
  coef (x_row m_free 1 2) (U (Ui m_free 1 2)) <> 0.
Proof.
  repeat split.
  - unfold x_requests. repeat constructor; unfold free_nb; cbn; lia.
  - unfold z_requests. repeat constructor; unfold free_nb; cbn; lia.
  - numbers. lra.
Qed.
