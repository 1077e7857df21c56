(** * C52: flagging of the grid around the free surface *)
From Coq Require Import ZArith Reals List Bool Arith Lia Lra.
Import ListNotations.
From Verif Require Import GridModel GridProofs AdvModel FlagModel.
Local Open Scope Z_scope.

(** ** Specification *)

(** The surface above the middle of cell column [i] is the mean of the heights of
    the two vertices of the column. *)
Definition column_height (height : nat -> R) (i : nat) : R := ((height i + height (i + 1)%nat) / 2)%R.

(** ... outside the box the surface continues the line of the outermost column;
    extended column [i+1] is cell column [i]. *)
Definition ext_height (ncx : nat) (height : nat -> R) (i : nat) : R :=
  match i with
  | O => ((3 * height 0%nat - height 1%nat) / 2)%R
  | S k => if Nat.eqb k ncx then ((3 * height ncx - height (ncx - 1)%nat) / 2)%R else column_height height k
  end.

(** Regular grid as built by the program (C23). *)
Definition regular (dx : R) (xg xvz : nat -> R) : Prop :=
  (dx > 0)%R /\ (forall i, xg i = xg 0%nat + INR i * dx)%R /\ (forall i, xvz i = xg 0%nat + (INR i - 1 / 2) * dx)%R.
Definition climbing (zvx : nat -> R) : Prop := forall a b, (a <= b)%nat -> (zvx a <= zvx b)%R.

(** The surface of a column passes between the centres of lines [j-1] and [j]. *)
Definition cuts (zvx : nat -> R) (h : R) (j : nat) : Prop := (zvx (j - 1)%nat <= h < zvx j)%R.

(** All flags of one call. *)
Definition flags (nx nz : nat) (dx : R) (xg xvz zg zvx height : nat -> R) : tags :=
  cell_tags (nx - 1) (nz - 1) (raw_tags (nx - 1) (fit_a dx height) (fit_b dx xg height) xvz zvx).

(** ** Lemmas *)
Lemma raw_two ncx a b xvz zvx i j :
  raw_tags ncx a b xvz zvx i j = 30 \/ raw_tags ncx a b xvz zvx i j = -1.
Proof. unfold raw_tags. destruct (Rltb _ _); auto. Qed.

Definition two (t : tags) : Prop := forall i j, t i j = 30 \/ t i j = -1.
Definition three (t : tags) : Prop := forall i j, t i j = 30 \/ t i j = -1 \/ t i j = 60.

Lemma first_above_three ncz t : two t -> three (first_above ncz t).
Proof.
  intros T i j. unfold first_above. destruct (_ && _); [auto|]. destruct (T i j); auto.
Qed.

Lemma slopes_three ncx t : three t -> three (slopes ncx t).
Proof.
  intros T i j. unfold slopes. destruct (_ && _); [|apply T]. cbv zeta.
  destruct (_ && _ && _); [auto|]. destruct (_ && _ && _); [auto|]. destruct (_ && _ && _); [auto|].
  destruct (_ && _); [auto|]. apply T.
Qed.

Lemma side_three ncx t : three t -> three (side_cells ncx t).
Proof. intros T i j. unfold side_cells. destruct (Nat.eqb _ _); apply T. Qed.

Lemma cell_tags_three ncx ncz t : two t -> three (cell_tags ncx ncz t).
Proof. intro T. apply side_three, slopes_three, first_above_three, T. Qed.

Ltac bools :=
  repeat match goal with
  | H : (_ && _)%bool = true |- _ => apply andb_prop in H; destruct H
  | H : (_ =? _)%Z = true |- _ => apply Z.eqb_eq in H
  | H : (_ =? _)%Z = false |- _ => apply Z.eqb_neq in H
  | H : (_ <? _)%nat = true |- _ => apply Nat.ltb_lt in H
  | H : (_ <? _)%nat = false |- _ => apply Nat.ltb_ge in H
  | H : (_ <=? _)%nat = true |- _ => apply Nat.leb_le in H
  | H : (_ <=? _)%nat = false |- _ => apply Nat.leb_gt in H
  | H : Nat.eqb _ _ = true |- _ => apply Nat.eqb_eq in H
  | H : Nat.eqb _ _ = false |- _ => apply Nat.eqb_neq in H
  | H : negb _ = true |- _ => apply negb_true_iff in H
  | H : negb _ = false |- _ => apply negb_false_iff in H
  end.

Lemma slopes_fluid ncx t i j : slopes ncx t i j = -1 -> t i j = -1.
Proof.
  unfold slopes. destruct (_ && _); [|auto]. cbv zeta.
  destruct (_ && _ && _); [discriminate|]. destruct (_ && _ && _); [discriminate|].
  destruct (_ && _ && _); [discriminate|]. destruct (_ && _); [discriminate|auto].
Qed.

Lemma slopes_air ncx t i j : slopes ncx t i j = 30 -> t i j = 30.
Proof.
  unfold slopes. destruct (_ && _); [|auto]. cbv zeta.
  destruct (_ && _ && _); [discriminate|]. destruct (_ && _ && _); [discriminate|].
  destruct (_ && _ && _); [discriminate|]. destruct (_ && _); [discriminate|auto].
Qed.

Lemma first_above_fluid ncz t i j : first_above ncz t i j = -1 -> t i j = -1 /\ ((1 <= j <= ncz)%nat -> t i (j - 1)%nat = -1).
Proof.
  unfold first_above. destruct ((0 <? j)%nat && (j <? ncz + 1)%nat && negb (t i j =? t i (j - 1)%nat)) eqn:E; [discriminate|].
  intro H. split; [exact H|]. intro J.
  replace (0 <? j)%nat with true in E by (symmetry; apply Nat.ltb_lt; lia).
  replace (j <? ncz + 1)%nat with true in E by (symmetry; apply Nat.ltb_lt; lia).
  cbn [andb] in E. bools. rewrite H in E. auto.
Qed.

Lemma first_above_air ncz t i j : first_above ncz t i j = 30 -> t i j = 30 /\ ((1 <= j <= ncz)%nat -> t i (j - 1)%nat = 30).
Proof.
  unfold first_above. destruct ((0 <? j)%nat && (j <? ncz + 1)%nat && negb (t i j =? t i (j - 1)%nat)) eqn:E; [discriminate|].
  intro H. split; [exact H|]. intro J.
  replace (0 <? j)%nat with true in E by (symmetry; apply Nat.ltb_lt; lia).
  replace (j <? ncz + 1)%nat with true in E by (symmetry; apply Nat.ltb_lt; lia).
  cbn [andb] in E. bools. rewrite H in E. auto.
Qed.

Lemma inner_col ncx t i j : (i <= ncx)%nat -> side_cells ncx t i j = t i j.
Proof. intro H. unfold side_cells. destruct (Nat.eqb_spec i (ncx + 1)); [lia|reflexivity]. Qed.

(** Vertical neighbours. *)
Lemma above_fluid ncx ncz t i j :
  two t -> (i <= ncx)%nat -> (j < ncz)%nat -> cell_tags ncx ncz t i j = -1 -> cell_tags ncx ncz t i (j + 1)%nat <> 30.
Proof.
  intros T I J H K. unfold cell_tags in *. rewrite inner_col in H, K by lia.
  apply slopes_fluid, first_above_fluid in H. apply slopes_air, first_above_air in K.
  destruct H as [H _]. destruct K as [_ K]. replace (j + 1 - 1)%nat with j in K by lia.
  rewrite K in H by lia. discriminate.
Qed.
Lemma below_fluid ncx ncz t i j :
  two t -> (i <= ncx)%nat -> (1 <= j <= ncz)%nat -> cell_tags ncx ncz t i j = -1 -> cell_tags ncx ncz t i (j - 1)%nat <> 30.
Proof.
  intros T I J H K. unfold cell_tags in *. rewrite inner_col in H, K by lia.
  apply slopes_fluid, first_above_fluid in H. apply slopes_air, first_above_air in K.
  destruct H as [_ H]. destruct K as [K _]. rewrite H in K by lia. discriminate.
Qed.

(** Horizontal neighbours: an air cell next to a cell that is -1 before the slope
    correction is turned into 60. *)
Lemma slopes_east ncx t i j :
  three t -> (1 <= i <= ncx)%nat -> t (i - 1)%nat j = -1 -> slopes ncx t i j <> 30.
Proof.
  intros T I W K. pose proof (slopes_air _ _ _ _ K) as C. revert K. unfold slopes.
  replace ((1 <=? i)%nat && (i <? ncx + 1)%nat) with true
    by (symmetry; apply andb_true_intro; split; [apply Nat.leb_le|apply Nat.ltb_lt]; lia).
  cbv zeta. rewrite C, W. destruct (T (i + 1)%nat j) as [E|[E|E]]; rewrite E; discriminate.
Qed.
Lemma slopes_west ncx t i j :
  three t -> (1 <= i <= ncx)%nat -> t (i + 1)%nat j = -1 -> slopes ncx t i j <> 30.
Proof.
  intros T I W K. pose proof (slopes_air _ _ _ _ K) as C. revert K. unfold slopes.
  replace ((1 <=? i)%nat && (i <? ncx + 1)%nat) with true
    by (symmetry; apply andb_true_intro; split; [apply Nat.leb_le|apply Nat.ltb_lt]; lia).
  cbv zeta. rewrite C, W. destruct (T (i - 1)%nat j) as [E|[E|E]]; rewrite E; discriminate.
Qed.

Lemma east_fluid ncx ncz t i j :
  two t -> (i < ncx)%nat -> cell_tags ncx ncz t i j = -1 -> cell_tags ncx ncz t (i + 1)%nat j <> 30.
Proof.
  intros T I H. unfold cell_tags in *. rewrite inner_col in * by lia.
  apply slopes_fluid in H. apply slopes_east; [apply first_above_three, T|lia|].
  replace (i + 1 - 1)%nat with i by lia. exact H.
Qed.
Lemma west_fluid ncx ncz t i j :
  two t -> (2 <= i <= ncx)%nat -> cell_tags ncx ncz t i j = -1 -> cell_tags ncx ncz t (i - 1)%nat j <> 30.
Proof.
  intros T I H. unfold cell_tags in *. rewrite inner_col in * by lia.
  apply slopes_fluid in H. apply slopes_west; [apply first_above_three, T|lia|].
  replace (i - 1 + 1)%nat with i by lia. exact H.
Qed.

Lemma bcp_fluid c i j : bcp c i j = -1 <-> c (i + 1)%nat (j + 1)%nat = -1.
Proof. unfold bcp. cbv zeta. destruct (Z.eqb_spec (c (i + 1)%nat (j + 1)%nat) 60) as [E|E]; [rewrite E|]; split; intro H; try discriminate; exact H. Qed.
Lemma bcp_air c i j : bcp c i j = 30 <-> c (i + 1)%nat (j + 1)%nat = 30.
Proof. unfold bcp. cbv zeta. destruct (Z.eqb_spec (c (i + 1)%nat (j + 1)%nat) 60) as [E|E]; [rewrite E|]; split; intro H; try discriminate; exact H. Qed.

(** ** Theorems: cells *)

(** The tags are the documented ones; temperature and pressure agree; the
    temperature of every cell that is not fluid is reset. *)
Theorem C52_cell_tags : forall nx nz dx xg xvz zg zvx height (T0 : R) T i j,
  let c := flags nx nz dx xg xvz zg zvx height in
  (bcp c i j = -1 \/ bcp c i j = 30 \/ bcp c i j = 31) /\
  (bcp c i j = -1 -> bct c i j = -1 /\ flag_T c T0 T i j = T i j) /\
  (bcp c i j <> -1 -> bct c i j = 30 /\ flag_T c T0 T i j = T0).
Proof.
  intros. assert (H : three c) by (apply cell_tags_three; intros ? ?; apply raw_two).
  unfold bcp, bct, flag_T. cbv zeta.
  destruct (H (i + 1)%nat (j + 1)%nat) as [E|[E|E]]; rewrite E; cbn; repeat split; auto; try discriminate; try congruence.
Qed.
Print Assumptions C52_cell_tags.

(** ** Exact meaning of the flags *)
Lemma ext_height_ok ncx dx xg xvz height i :
  regular dx xg xvz -> (1 <= ncx)%nat -> (i <= ncx + 1)%nat ->
  topo_fun (fit_a dx height) (fit_b dx xg height) (fit_column ncx i) (xvz i) = ext_height ncx height i.
Proof.
  intros (D & G & V) N I. unfold topo_fun, fit_b, fit_a, fit_column, ext_height, column_height.
  destruct i as [|k].
  - cbn [Nat.eqb]. cbn [Nat.add]. rewrite V. cbn [INR]. field. lra.
  - replace (Nat.eqb (S k) 0) with false by reflexivity.
    replace (Nat.eqb (S k) (ncx + 1)) with (Nat.eqb k ncx)
      by (destruct (Nat.eqb_spec k ncx), (Nat.eqb_spec (S k) (ncx + 1)); lia || reflexivity).
    destruct (Nat.eqb_spec k ncx) as [->|E].
    + replace (ncx - 1 + 1)%nat with ncx by lia. rewrite V, (G (ncx - 1)%nat), S_INR, minus_INR by lia.
      cbn [INR]. field. lra.
    + replace (S k - 1)%nat with k by lia. rewrite V, (G k), S_INR. field. lra.
Qed.

Lemma Rltb_true a b : Rltb a b = true <-> (a < b)%R.
Proof. unfold Rltb. destruct (Rlt_dec a b); split; intro; auto; discriminate. Qed.
Lemma Rltb_false a b : Rltb a b = false <-> (b <= a)%R.
Proof. unfold Rltb. destruct (Rlt_dec a b); split; intro; auto; try discriminate; lra. Qed.

Section Exact.
Variables (ncx ncz : nat) (h z : nat -> R) (t : tags).
Hypothesis T : forall i j, (i <= ncx + 1)%nat -> t i j = if Rltb (h i) (z j) then 30 else -1.
Hypothesis Z : climbing z.

Lemma fa_cases i j : (i <= ncx + 1)%nat -> (1 <= j <= ncz)%nat ->
  let L := (z j <= h i)%R in let C := cuts z (h i) j in let A := (h i < z (j - 1)%nat)%R in
  (first_above ncz t i j = -1 /\ L /\ ~ C /\ ~ A) \/
  (first_above ncz t i j = 60 /\ ~ L /\ C /\ ~ A) \/
  (first_above ncz t i j = 30 /\ ~ L /\ ~ C /\ A).
Proof.
  intros I J L C A. unfold first_above.
  replace (0 <? j)%nat with true by (symmetry; apply Nat.ltb_lt; lia).
  replace (j <? ncz + 1)%nat with true by (symmetry; apply Nat.ltb_lt; lia).
  cbn [andb]. rewrite !T by lia.
  pose proof (Z (j - 1)%nat j ltac:(lia)) as M. unfold L, C, A, cuts.
  destruct (Rltb (h i) (z j)) eqn:X, (Rltb (h i) (z (j - 1)%nat)) eqn:Y;
    (apply Rltb_true in X || apply Rltb_false in X); (apply Rltb_true in Y || apply Rltb_false in Y);
    cbn [Z.eqb Pos.eqb negb].
  - right; right. repeat split; try (intro; lra); lra.
  - right; left. repeat split; try (intro; lra); lra.
  - exfalso; lra.
  - left. repeat split; try (intro; lra); lra.
Qed.

Lemma exact i j : (1 <= i <= ncx)%nat -> (1 <= j <= ncz)%nat ->
  let W := h (i - 1)%nat in let E := h (i + 1)%nat in let c := cell_tags ncx ncz t i j in
  (c = -1 <-> (z j <= h i)%R /\ ~ (cuts z W j /\ cuts z E j)) /\
  (c = 60 <-> cuts z (h i) j \/ ((z j <= h i)%R /\ cuts z W j /\ cuts z E j) \/
              ((h i < z (j - 1)%nat)%R /\ ((z j <= W)%R \/ (z j <= E)%R))).
Proof.
  intros I J W E c. subst c. unfold cell_tags. rewrite inner_col by lia. unfold slopes.
  replace ((1 <=? i)%nat && (i <? ncx + 1)%nat) with true
    by (symmetry; apply andb_true_intro; split; [apply Nat.leb_le|apply Nat.ltb_lt]; lia).
  cbv zeta. fold W E.
  pose proof (fa_cases i j ltac:(lia) J) as FC.
  pose proof (fa_cases (i - 1) j ltac:(lia) J) as FW.
  pose proof (fa_cases (i + 1) j ltac:(lia) J) as FE.
  cbv zeta in FC, FW, FE. fold W in FW. fold E in FE.
  generalize dependent (first_above ncz t i j). generalize dependent (first_above ncz t (i - 1)%nat j).
  generalize dependent (first_above ncz t (i + 1)%nat j).
  generalize (z j <= h i)%R, (cuts z (h i) j), (h i < z (j - 1)%nat)%R.
  generalize (z j <= W)%R, (cuts z W j), (W < z (j - 1)%nat)%R.
  generalize (z j <= E)%R, (cuts z E j), (E < z (j - 1)%nat)%R.
  clear. intros L1 C1 A1 L2 C2 A2 L3 C3 A3 e FE w FW c FC.
  destruct FC as [(-> & ? & ? & ?)|[(-> & ? & ? & ?)|(-> & ? & ? & ?)]];
  destruct FW as [(-> & ? & ? & ?)|[(-> & ? & ? & ?)|(-> & ? & ? & ?)]];
  destruct FE as [(-> & ? & ? & ?)|[(-> & ? & ? & ?)|(-> & ? & ? & ?)]];
  cbn [Z.eqb Pos.eqb andb orb];
  (split; (split; [intro K; try discriminate K; clear K|intro K; try reflexivity; exfalso])); tauto.
Qed.
End Exact.

Lemma raw_of nx dx xg xvz zvx height i j : (2 <= nx)%nat -> regular dx xg xvz -> (i <= (nx - 1) + 1)%nat ->
  raw_tags (nx - 1) (fit_a dx height) (fit_b dx xg height) xvz zvx i j =
  if Rltb (ext_height (nx - 1) height i) (zvx j) then 30 else -1.
Proof. intros N R I. unfold raw_tags. rewrite ext_height_ok by (auto; lia). reflexivity. Qed.

(** A cell is solved for exactly when its centre lies at or below the surface,
    except cells pinched between two columns whose surface passes just below; the
    first layer above the surface is exactly the cells cut by it, those pinched
    cells, and the cells beside fluid on steep slopes. *)
Theorem C52_exact_cells : forall nx nz dx xg xvz zg zvx height i j,
  (2 <= nx)%nat -> regular dx xg xvz -> climbing zvx -> (i < nx - 1)%nat -> (j < nz - 1)%nat ->
  let c := flags nx nz dx xg xvz zg zvx height in
  let h := ext_height (nx - 1) height in
  let H := column_height height i in let W := h i in let E := h (i + 2)%nat in
  let zc := zvx (j + 1)%nat in let zb := zvx j in
  let pinched := (zb <= W < zc)%R /\ (zb <= E < zc)%R in
  (bcp c i j = -1 <-> (zc <= H)%R /\ ~ pinched) /\
  (bcp c i j = 31 <-> (zb <= H < zc)%R \/ ((zc <= H)%R /\ pinched) \/ ((H < zb)%R /\ ((zc <= W)%R \/ (zc <= E)%R))).
Proof.
  intros nx nz dx xg xvz zg zvx height i j N R C I J c h H W E zc zb pinched.
  pose proof (exact (nx - 1) (nz - 1) h zvx
    (raw_tags (nx - 1) (fit_a dx height) (fit_b dx xg height) xvz zvx)
    (fun i j L => raw_of nx dx xg xvz zvx height i j N R L) C (i + 1) (j + 1) ltac:(lia) ltac:(lia)) as X.
  cbv zeta in X. unfold cuts in X.
  replace (j + 1 - 1)%nat with j in X by lia. replace (i + 1 - 1)%nat with i in X by lia.
  replace (i + 1 + 1)%nat with (i + 2)%nat in X by lia.
  assert (HH : h (i + 1)%nat = H).
  { unfold h, ext_height. replace (i + 1)%nat with (S i) by lia.
    destruct (Nat.eqb_spec i (nx - 1)); [lia|reflexivity]. }
  rewrite HH in X. fold W E zc zb in X. fold pinched in X.
  destruct X as [X Y].
  change (cell_tags (nx - 1) (nz - 1) _) with c in X, Y. split.
  - rewrite bcp_fluid. exact X.
  - rewrite <- Y. unfold bcp. cbv zeta.
    destruct (Z.eqb_spec (c (i + 1)%nat (j + 1)%nat) 60) as [Q|Q]; [rewrite Q; tauto|].
    split; intro K; [exfalso|contradiction].
    assert (T3 : three c) by (apply cell_tags_three; intros ? ?; apply raw_two).
    destruct (T3 (i + 1)%nat (j + 1)%nat) as [V|[V|V]]; rewrite V in K; discriminate.
Qed.
Print Assumptions C52_exact_cells.

Example C52_exact_cells_ex :
  let c := flags 4 4 1 INR (fun i => INR i - 1 / 2)%R INR (fun j => INR j - 1 / 2)%R (fun _ => 1.2%R) in
  regular 1 INR (fun i => INR i - 1 / 2)%R /\ climbing (fun j => INR j - 1 / 2)%R /\
  bcp c 1%nat 0%nat = -1 /\ bcp c 1%nat 1%nat = 31 /\ bcp c 1%nat 2%nat = 30.
Proof.
  intro c.
  assert (R : regular 1 INR (fun i => INR i - 1 / 2)%R)
    by (repeat split; intros; cbn [INR]; lra).
  assert (C : climbing (fun j => INR j - 1 / 2)%R).
  { intros a b H. apply le_INR in H. lra. }
  split; [exact R|]. split; [exact C|].
  assert (X : forall i j, (i < 4 - 1)%nat -> (j < 4 - 1)%nat -> _) by
    exact (fun i j I J => C52_exact_cells 4 4 1 INR _ INR _ (fun _ => 1.2%R) i j ltac:(lia) R C I J).
  cbv zeta in X. change (flags _ _ _ _ _ _ _ _) with c in X. unfold column_height in X.
  assert (H : forall i, (i <= 4)%nat -> ext_height 3 (fun _ => 1.2%R) i = 1.2%R).
  { intros i I. unfold ext_height, column_height. destruct i; [field|]. destruct (Nat.eqb i 3); field. }
  repeat split.
  - apply (X 1%nat 0%nat); try lia. cbn [Nat.sub Nat.add]. rewrite !H by lia. cbn [INR]. lra.
  - apply (X 1%nat 1%nat); try lia. left. cbn [INR Nat.add]. lra.
  - destruct (X 1%nat 2%nat ltac:(lia) ltac:(lia)) as [X1 X2].
    cbn [Nat.sub Nat.add] in X1, X2. rewrite !H in X1, X2 by lia. cbn [INR] in X1, X2.
    pose proof (C52_cell_tags 4 4 1 INR (fun i => INR i - 1 / 2)%R INR (fun j => INR j - 1 / 2)%R (fun _ => 1.2%R) 0%R (fun _ _ => 0%R) 1%nat 2%nat) as Y.
    cbv zeta in Y. change (flags _ _ _ _ _ _ _ _) with c in Y.
    destruct Y as [[Y|[Y|Y]] _]; [exfalso|exact Y|exfalso].
    + apply X1 in Y. lra.
    + apply X2 in Y. lra.
Qed.

(** ** Theorems: neighbours of the fluid *)

(** No air cell touches a fluid cell: between them lies at least one cell of the
    first layer above the surface. In particular the callback for the pressure
    condition is never told that a cell is at the free surface. *)
Theorem C52_fluid_never_touches_air : forall nx nz dx xg xvz zg zvx height i j,
  let p := bcp (flags nx nz dx xg xvz zg zvx height) in
  (i < nx - 1)%nat -> (j < nz - 1)%nat -> p i j = -1 ->
  ((j + 1 < nz - 1)%nat -> p i (j + 1)%nat <> 30) /\ ((1 <= j)%nat -> p i (j - 1)%nat <> 30) /\
  ((i + 1 < nx - 1)%nat -> p (i + 1)%nat j <> 30) /\ ((1 <= i)%nat -> p (i - 1)%nat j <> 30).
Proof.
  intros. subst p. rewrite bcp_fluid in H1. rewrite !bcp_air. unfold flags in *.
  assert (T : two (raw_tags (nx - 1) (fit_a dx height) (fit_b dx xg height) xvz zvx)) by (intros ? ?; apply raw_two).
  repeat split; intro K.
  - apply above_fluid; [exact T|lia|lia|exact H1].
  - replace (j - 1 + 1)%nat with (j + 1 - 1)%nat by lia. apply below_fluid; [exact T|lia|lia|exact H1].
  - apply east_fluid; [exact T|lia|exact H1].
  - replace (i - 1 + 1)%nat with (i + 1 - 1)%nat by lia. apply west_fluid; [exact T|lia|exact H1].
Qed.
Print Assumptions C52_fluid_never_touches_air.

Theorem C52_surface_position_never_reported : forall nx nz dx xg xvz zg zvx height i j,
  let p := bcp (flags nx nz dx xg xvz zg zvx height) in
  (i < nx - 1)%nat -> (j + 1 < nz - 1)%nat -> told_free_surface p i j = false.
Proof.
  intros. unfold told_free_surface.
  destruct (C52_cell_tags nx nz dx xg xvz zg zvx height 0%R (fun _ _ => 0%R) i j) as [[E|[E|E]] _];
    cbv zeta in E; fold p in E; rewrite E; cbn; try reflexivity.
  apply Z.eqb_neq. apply (C52_fluid_never_touches_air nx nz dx xg xvz zg zvx height i j); auto; lia.
Qed.
Print Assumptions C52_surface_position_never_reported.

Lemma side_row n (t : tags) i j : (3 <= n)%nat ->
  copy_sides n t i j = if Nat.eqb i (n - 1) then t (n - 2)%nat j else if Nat.eqb i 0 then t 1%nat j else t i j.
Proof.
  intro N. unfold copy_sides. cbv zeta. unfold upd at 1.
  destruct (Nat.eqb_spec i (n - 1)).
  - unfold upd. destruct (Nat.eqb_spec (n - 2) 0); [lia|reflexivity].
  - unfold upd. destruct (Nat.eqb_spec i 0); reflexivity.
Qed.

(** Every velocity on the boundary of a fluid cell is solved for; inside the grid no
    other velocity is. *)
Theorem C52_velocities : forall nx nz dx xg xvz zg zvx height i j,
  let c := flags nx nz dx xg xvz zg zvx height in let p := bcp c in
  (3 <= nx)%nat -> (i < nx - 1)%nat -> (j < nz - 1)%nat ->
  (p i j = -1 -> bcu nx c i (j + 1)%nat = -1 /\ bcu nx c (i + 1)%nat (j + 1)%nat = -1 /\
                 bcv nx c (i + 1)%nat j = -1 /\ bcv nx c (i + 1)%nat (j + 1)%nat = -1) /\
  ((1 <= i)%nat -> bcu nx c i (j + 1)%nat = -1 <-> p (i - 1)%nat j = -1 \/ p i j = -1) /\
  ((1 <= j)%nat -> bcv nx c (i + 1)%nat j = -1 <-> p i (j - 1)%nat = -1 \/ p i j = -1) /\
  (bcu nx c i (j + 1)%nat = -1 \/ bcu nx c i (j + 1)%nat = 30) /\ (bcv nx c i j = -1 \/ bcv nx c i j = 30).
Proof.
  intros nx nz dx xg xvz zg zvx height i j c p N I J. unfold p. rewrite !bcp_fluid.
  unfold bcu, bcv. rewrite !side_row by lia.
  assert (VX : forall a b, vx_inner c a b = -1 <-> c a b = -1 \/ c (a + 1)%nat b = -1).
  { intros a b. unfold vx_inner. destruct (Z.eqb_spec (c a b) (-1)), (Z.eqb_spec (c (a + 1)%nat b) (-1)); cbn; intuition congruence. }
  assert (VZ : forall a b, vz_inner c a b = -1 <-> c a b = -1 \/ c a (b + 1)%nat = -1).
  { intros a b. unfold vz_inner. destruct (Z.eqb_spec (c a b) (-1)), (Z.eqb_spec (c a (b + 1)%nat) (-1)); cbn; intuition congruence. }
  assert (VX2 : forall a b, vx_inner c a b = -1 \/ vx_inner c a b = 30) by (intros; unfold vx_inner; destruct (_ || _); auto).
  assert (VZ2 : forall a b, vz_inner c a b = -1 \/ vz_inner c a b = 30) by (intros; unfold vz_inner; destruct (_ || _); auto).
  refine (conj _ (conj _ (conj _ (conj _ _)))).
  - intro F. refine (conj _ (conj _ (conj _ _))).
    + destruct (Nat.eqb_spec i (nx - 1)); [lia|]. destruct (Nat.eqb_spec i 0).
      * apply VX. left. subst i. exact F.
      * apply VX. right. exact F.
    + destruct (Nat.eqb_spec (i + 1) (nx - 1)).
      * apply VX. right. replace (nx - 2 + 1)%nat with (i + 1)%nat by lia. exact F.
      * destruct (Nat.eqb_spec (i + 1) 0); [lia|]. apply VX. left. exact F.
    + destruct (Nat.eqb_spec (i + 1) (nx + 1 - 1)); [lia|]. destruct (Nat.eqb_spec (i + 1) 0); [lia|].
      apply VZ. right. exact F.
    + destruct (Nat.eqb_spec (i + 1) (nx + 1 - 1)); [lia|]. destruct (Nat.eqb_spec (i + 1) 0); [lia|].
      apply VZ. left. exact F.
  - intro L. destruct (Nat.eqb_spec i (nx - 1)); [lia|]. destruct (Nat.eqb_spec i 0); [lia|].
    rewrite VX. replace (i - 1 + 1)%nat with i by lia. reflexivity.
  - intro L. destruct (Nat.eqb_spec (i + 1) (nx + 1 - 1)); [lia|]. destruct (Nat.eqb_spec (i + 1) 0); [lia|].
    rewrite VZ. replace (j - 1 + 1)%nat with j by lia. reflexivity.
  - destruct (Nat.eqb _ _); [auto|]. destruct (Nat.eqb _ _); auto.
  - destruct (Nat.eqb _ _); [auto|]. destruct (Nat.eqb _ _); auto.
Qed.
Print Assumptions C52_velocities.

(** ** Vertices *)
Lemma spread nx nz (ok : nat -> nat -> bool) (ni nj : nat -> nat -> nat) t :
  two t ->
  let t' := columns_then_lines nx nz (fun t i j =>
    if ok i j && ((t i j =? -1) && (t (ni i j) (nj i j) =? 30)) then upd2 t i j 30 else t) t in
  two t' /\ (forall a b, t a b = 30 -> t' a b = 30) /\
  (forall i j, (i < nx)%nat -> (j < nz)%nat -> ok i j = true -> t (ni i j) (nj i j) = 30 -> t' i j = 30).
Proof.
  intros T t'.
  set (body := fun (t : tags) i j =>
    if ok i j && ((t i j =? -1) && (t (ni i j) (nj i j) =? 30)) then upd2 t i j 30 else t).
  assert (B : forall s i j, two s -> two (body s i j) /\ (forall a b, s a b = 30 -> body s i j a b = 30) /\
    (ok i j = true -> s (ni i j) (nj i j) = 30 -> body s i j i j = 30)).
  { intros s i j S. unfold body.
    destruct (ok i j) eqn:O; cbn [andb]; [|repeat split; auto; discriminate].
    destruct (s i j =? -1) eqn:C; cbn [andb]; bools.
    - destruct (s (ni i j) (nj i j) =? 30) eqn:D; bools.
      + unfold upd2. repeat split.
        * intros a b. destruct (_ && _); auto.
        * intros a b H. destruct (_ && _); auto.
        * intros _ _. rewrite !Nat.eqb_refl. reflexivity.
      + repeat split; auto. intros _ K. contradiction.
    - repeat split; auto. intros _ _. destruct (S i j); [assumption|contradiction]. }
  set (P := fun (i j : nat) (s : tags) => two s /\ (forall a b, t a b = 30 -> s a b = 30) /\
    (forall a b, (a < i \/ a = i /\ b < j)%nat -> (b < nz)%nat -> ok a b = true -> t (ni a b) (nj a b) = 30 -> s a b = 30)).
  assert (In : forall i s, P i 0%nat s -> P i nz (loop 0 nz (fun t j => body t i j) s)).
  { intros i s H. pose proof (loop_ind (fun j s => P i j s) (fun t j => body t i j) nz 0 s) as L.
    cbv beta in L. apply L; [exact H|]. clear L. intros j u _ (U1 & U2 & U3).
    destruct (B u i j U1) as (B1 & B2 & B3). refine (conj B1 (conj _ _)).
    - intros a b K. apply B2, U2, K.
    - intros a b K K1 K2 K3.
      destruct (Nat.eq_dec a i) as [->|N1]; [destruct (Nat.eq_dec b j) as [->|N2]|].
      + apply B3; [exact K2|]. apply U2, K3.
      + apply B2, U3; auto. lia.
      + apply B2, U3; auto. lia. }
  assert (Out : P nx 0%nat t').
  { pose proof (loop_ind (fun i s => P i 0%nat s) (fun t i => loop 0 nz (fun t j => body t i j) t) nx 0 t) as L.
    cbv beta in L. apply L.
    - refine (conj T (conj (fun a b H => H) _)). intros a b [K|K]; lia.
    - clear L. intros i u _ H. apply In in H. destruct H as (U1 & U2 & U3).
      refine (conj U1 (conj U2 _)). intros a b K K1. apply U3; [|exact K1]. lia. }
  destruct Out as (O1 & O2 & O3). refine (conj O1 (conj O2 _)).
  intros i j I J. apply O3; [left; exact I|exact J].
Qed.

(** Height of the lines of vertices: cell line [j] lies half a spacing above vertex
    line [j]. *)
Definition regular_z (dz : R) (zg zvx : nat -> R) : Prop :=
  (dz > 0)%R /\ (forall j, zg (j + 1)%nat = zg j + dz)%R /\ (forall j, zvx (j + 1)%nat = zg j + dz / 2)%R /\
  (zvx 0%nat = zg 0%nat - dz / 2)%R.

Lemma regular_z_climbs dz zg zvx : regular_z dz zg zvx -> climbing zvx.
Proof.
  intros (D & G & V & V0) a b H. induction H as [|b H IH]; [lra|].
  apply Rle_trans with (zvx b); [exact IH|]. replace (S b) with (b + 1)%nat by lia.
  destruct b as [|b]; [rewrite V, V0; lra|].
  replace (S b) with (b + 1)%nat by lia. rewrite !V, G. lra.
Qed.

(** What the three passes certainly mark. *)
Lemma passes_mark nx nz raw :
  two raw ->
  let t := pass_west nx nz (pass_east nx nz (pass_down nx nz raw)) in
  two t /\
  (forall i j, raw i j = 30 -> t i j = 30) /\
  (forall i j, (i < nx)%nat -> (j < nz - 1)%nat -> raw i (j + 1)%nat = 30 -> t i j = 30) /\
  (forall i j, (1 <= i < nx)%nat -> (j < nz)%nat -> raw (i - 1)%nat j = 30 -> t i j = 30) /\
  (forall i j, (i < nx - 1)%nat -> (j < nz)%nat -> raw (i + 1)%nat j = 30 -> t i j = 30).
Proof.
  intros T t.
  destruct (spread nx nz (fun i j => (j <? nz - 1)%nat) (fun i j => i) (fun i j => (j + 1)%nat) raw T) as (A1 & A2 & A3).
  destruct (spread nx nz (fun i j => (0 <? i)%nat) (fun i j => (i - 1)%nat) (fun i j => j) _ A1) as (B1 & B2 & B3).
  destruct (spread nx nz (fun i j => (i <? nx - 1)%nat) (fun i j => (i + 1)%nat) (fun i j => j) _ B1) as (C1 & C2 & C3).
  refine (conj C1 (conj _ (conj _ (conj _ _)))).
  - intros i j H. apply C2, B2, A2, H.
  - intros i j I J H. apply C2, B2, A3; [exact I|lia|apply Nat.ltb_lt; lia|exact H].
  - intros i j I J H. apply C2, B3; [lia|exact J|apply Nat.ltb_lt; lia|apply A2, H].
  - intros i j I J H. apply C3; [lia|exact J|apply Nat.ltb_lt; lia|apply B2, A2, H].
Qed.

(** An interior vertex is active exactly when the four cells around it are fluid. *)
Theorem C52_interior_vertices : forall nx nz dx dz xg xvz zg zvx height i j,
  regular dx xg xvz -> regular_z dz zg zvx ->
  (1 <= i < nx - 1)%nat -> (1 <= j < nz - 1)%nat ->
  let p := bcp (flags nx nz dx xg xvz zg zvx height) in
  let g := bcg nx nz p (vertex_raw zg height) in
  (g i j = -1 <-> p (i - 1)%nat (j - 1)%nat = -1 /\ p i (j - 1)%nat = -1 /\ p (i - 1)%nat j = -1 /\ p i j = -1) /\
  (g i j = -1 \/ g i j = 30).
Proof.
  intros nx nz dx dz xg xvz zg zvx height i j RX RZ I J p g.
  assert (T : two (vertex_raw zg height)) by (intros a b; unfold vertex_raw; destruct (Rltb _ _); auto).
  destruct (passes_mark nx nz _ T) as (M1 & M2 & M3 & M4 & M5).
  set (t := pass_west nx nz (pass_east nx nz (pass_down nx nz (vertex_raw zg height)))) in *.
  assert (G : g i j = if t i j =? 30 then
     if (p (i - 1)%nat j =? -1) && (p (i - 1)%nat (j - 1)%nat =? -1) && (p i j =? -1) && (p i (j - 1)%nat =? -1) then -1 else t i j else t i j).
  { unfold g, bcg, reactivate. fold t. cbv zeta.
    replace (0 <? j)%nat with true by (symmetry; apply Nat.ltb_lt; lia).
    replace (j <? nz - 1)%nat with true by (symmetry; apply Nat.ltb_lt; lia).
    replace (0 <? i)%nat with true by (symmetry; apply Nat.ltb_lt; lia).
    replace (i <? nx - 1)%nat with true by (symmetry; apply Nat.ltb_lt; lia). reflexivity. }
  assert (G2 : g i j = -1 \/ g i j = 30).
  { rewrite G. destruct (M1 i j) as [E|E]; rewrite E; cbn; [destruct (_ && _)|]; auto. }
  split; [|exact G2].
  destruct ((p (i - 1)%nat j =? -1) && (p (i - 1)%nat (j - 1)%nat =? -1) && (p i j =? -1) && (p i (j - 1)%nat =? -1)) eqn:F.
  { bools. split; [intros _; auto|intros _]. rewrite G. destruct (M1 i j) as [E|E]; rewrite E; reflexivity. }
  (* otherwise the vertex is marked *)
  assert (NF : ~ (p (i - 1)%nat (j - 1)%nat = -1 /\ p i (j - 1)%nat = -1 /\ p (i - 1)%nat j = -1 /\ p i j = -1)).
  { intros (F1 & F2 & F3 & F4). rewrite F1, F2, F3, F4 in F. discriminate. }
  split; [intro K; exfalso|intro K; contradiction].
  rewrite G in K.
  assert (Mk : t i j = 30); [|rewrite Mk in K; discriminate].
  clear K G G2 g F.
  assert (RW : forall a b, (height a < zg b)%R -> vertex_raw zg height a b = 30).
  { intros a b H. unfold vertex_raw. apply Rltb_true in H. rewrite H. reflexivity. }
  destruct RZ as (D & Gz & V & V0).
  assert (C : climbing zvx) by (apply (regular_z_climbs dz zg zvx); repeat split; auto).
  (* heights *)
  destruct (Rlt_dec (height i) (zg (j + 1)%nat)) as [A0|A0]; [apply M3; [lia|lia|auto]|].
  destruct (Rlt_dec (height (i - 1)%nat) (zg j)) as [A1|A1]; [apply M4; [lia|lia|auto]|].
  destruct (Rlt_dec (height (i + 1)%nat) (zg j)) as [A2|A2]; [apply M5; [lia|lia|auto]|].
  exfalso. apply NF. rewrite Gz in A0.
  assert (Zj : (zvx j = zg j - dz / 2)%R).
  { replace j with (j - 1 + 1)%nat by lia. rewrite V, Gz. lra. }
  pose proof (C (j - 1)%nat j ltac:(lia)) as Zm.
  pose proof (V j) as Zu.
  assert (X : forall a b, (a < nx - 1)%nat -> (b < nz - 1)%nat -> _) by
    exact (fun a b P Q => proj1 (C52_exact_cells nx nz dx xg xvz zg zvx height a b ltac:(lia) RX C P Q)).
  cbv zeta in X. fold p in X.
  assert (HW : ext_height (nx - 1) height i = column_height height (i - 1)%nat).
  { unfold ext_height. destruct i as [|k]; [lia|]. destruct (Nat.eqb_spec k (nx - 1)); [lia|]. f_equal. lia. }
  assert (HE : ext_height (nx - 1) height (i - 1 + 2) = column_height height i).
  { replace (i - 1 + 2)%nat with (S i) by lia. unfold ext_height. destruct (Nat.eqb_spec i (nx - 1)); [lia|]. reflexivity. }
  assert (CW : column_height height (i - 1)%nat = ((height (i - 1)%nat + height i) / 2)%R).
  { unfold column_height. replace (i - 1 + 1)%nat with i by lia. reflexivity. }
  assert (CE : column_height height i = ((height i + height (i + 1)%nat) / 2)%R) by reflexivity.
  refine (conj _ (conj _ (conj _ _))).
  - apply X; [lia|lia|]. replace (j - 1 + 1)%nat with j by lia. rewrite HE, CW, CE. split; [lra|]. intros [_ [_ K]]. lra.
  - apply X; [lia|lia|]. replace (j - 1 + 1)%nat with j by lia. rewrite HW, CW, CE. split; [lra|]. intros [[_ K] _]. lra.
  - apply X; [lia|lia|]. rewrite HE, CW, CE. split; [lra|]. intros [_ [_ K]]. lra.
  - apply X; [lia|lia|]. rewrite HW, CW, CE. split; [lra|]. intros [[_ K] _]. lra.
Qed.
Print Assumptions C52_interior_vertices.

Example C52_interior_vertices_ex :
  regular 1 INR (fun i => INR i - 1 / 2)%R /\ regular_z 1 INR (fun j => INR j - 1 / 2)%R.
Proof.
  split; repeat split; intros; rewrite ?plus_INR; cbn [INR]; lra.
Qed.

(** ** Mirror symmetry *)
Definition mirrored (nx : nat) (h h' : nat -> R) : Prop := forall k, (k < nx)%nat -> h' k = h (nx - 1 - k)%nat.

Lemma ext_height_mirror nx h h' i : (2 <= nx)%nat -> mirrored nx h h' -> (i <= nx)%nat ->
  ext_height (nx - 1) h' i = ext_height (nx - 1) h (nx - i).
Proof.
  intros N M I. unfold ext_height, column_height.
  destruct i as [|k].
  - rewrite Nat.sub_0_r. destruct nx as [|m]; [lia|]. replace (S m - 1)%nat with m by lia. rewrite Nat.eqb_refl.
    rewrite (M 0%nat), (M 1%nat) by lia. do 4 f_equal; lia.
  - destruct (Nat.eqb_spec k (nx - 1)) as [->|E].
    + replace (nx - S (nx - 1))%nat with 0%nat by lia. rewrite (M (nx - 1)%nat), (M (nx - 1 - 1)%nat) by lia.
      do 4 f_equal; lia.
    + destruct (nx - S k)%nat as [|m] eqn:Q; [lia|]. destruct (Nat.eqb_spec m (nx - 1)); [lia|].
      rewrite (M k), (M (k + 1)%nat) by lia. rewrite Rplus_comm. do 3 f_equal; lia.
Qed.

(** The flags of the cells do not distinguish left from right: a mirrored surface
    gives the mirrored flags. *)
Theorem C52_cells_mirror : forall nx nz dx xg xvz zg zvx h h' i j,
  (2 <= nx)%nat -> regular dx xg xvz -> climbing zvx -> mirrored nx h h' ->
  (i < nx - 1)%nat -> (j < nz - 1)%nat ->
  bcp (flags nx nz dx xg xvz zg zvx h') i j = bcp (flags nx nz dx xg xvz zg zvx h) (nx - 2 - i)%nat j.
Proof.
  intros nx nz dx xg xvz zg zvx h h' i j N R C M I J.
  destruct (C52_exact_cells nx nz dx xg xvz zg zvx h' i j N R C I J) as [A1 A2].
  destruct (C52_exact_cells nx nz dx xg xvz zg zvx h (nx - 2 - i) j N R C ltac:(lia) J) as [B1 B2].
  cbv zeta in A1, A2, B1, B2.
  rewrite (ext_height_mirror nx h h' i), (ext_height_mirror nx h h' (i + 2)) in A1, A2 by (auto; lia).
  assert (HC : column_height h' i = column_height h (nx - 2 - i)).
  { unfold column_height. rewrite (M i), (M (i + 1)%nat) by lia. rewrite Rplus_comm. do 3 f_equal; lia. }
  rewrite HC in A1, A2.
  replace (nx - (i + 2))%nat with (nx - 2 - i)%nat in A1, A2 by lia.
  replace (nx - 2 - i + 2)%nat with (nx - i)%nat in B1, B2 by lia.
  destruct (C52_cell_tags nx nz dx xg xvz zg zvx h' 0%R (fun _ _ => 0%R) i j) as [TA _].
  destruct (C52_cell_tags nx nz dx xg xvz zg zvx h 0%R (fun _ _ => 0%R) (nx - 2 - i)%nat j) as [TB _].
  cbv zeta in TA, TB.
  revert A1 A2 B1 B2 TA TB.
  generalize (bcp (flags nx nz dx xg xvz zg zvx h') i j) (bcp (flags nx nz dx xg xvz zg zvx h) (nx - 2 - i)%nat j).
  intros a b A1 A2 B1 B2 TA TB.
  assert (E1 : a = -1 <-> b = -1) by (rewrite A1, B1; split; intros [Q K]; (split; [exact Q|intros [K1 K2]; apply K; split; assumption])).
  assert (E2 : a = 31 <-> b = 31) by (rewrite A2, B2; split; (intros [Q|[[Q [K1 K2]]|[Q [K|K]]]];
    [left; exact Q|right; left; split; [exact Q|split; assumption]|right; right; split; [exact Q|right; exact K]|right; right; split; [exact Q|left; exact K]])).
  clear A1 A2 B1 B2. destruct TA as [ -> | [ -> | -> ] ], TB as [ -> | [ -> | -> ] ]; auto; exfalso; intuition discriminate.
Qed.
Print Assumptions C52_cells_mirror.

(** The vertices on the sides do: with heights 62, 80, 20 (spacing 10) the western
    side vertex of line 5 is active; with the mirrored heights its image is not. *)
Lemma Rltb_IZR a b : Rltb (IZR a) (IZR b) = (a <? b).
Proof.
  unfold Rltb. destruct (Rlt_dec (IZR a) (IZR b)) as [H|H].
  - apply lt_IZR in H. symmetry. apply Z.ltb_lt. exact H.
  - symmetry. apply Z.ltb_ge. apply le_IZR. lra.
Qed.
Lemma vertex_raw_IZR (hz : nat -> Z) :
  vertex_raw (fun j => IZR (10 * Z.of_nat j)) (fun i => IZR (hz i)) = fun i j => if hz i <? 10 * Z.of_nat j then 30 else -1.
Proof.
  apply FunctionalExtensionality.functional_extensionality; intro i.
  apply FunctionalExtensionality.functional_extensionality; intro j.
  unfold vertex_raw. rewrite Rltb_IZR. reflexivity.
Qed.

Definition hz1 (i : nat) : Z := match i with 0%nat => 62 | 1%nat => 80 | _ => 20 end.
Definition hz2 (i : nat) : Z := match i with 0%nat => 20 | 1%nat => 80 | _ => 62 end.

Lemma IZR_10 j : IZR (10 * Z.of_nat j) = (10 * INR j)%R.
Proof. rewrite mult_IZR, <- INR_IZR_INZ. reflexivity. Qed.

Theorem C52_side_vertices_mirror_refuted :
  exists nx nz dx dz xg xvz zg zvx h h' j,
  regular dx xg xvz /\ regular_z dz zg zvx /\ mirrored nx h h' /\ (1 <= j < nz - 1)%nat /\
  bcg nx nz (bcp (flags nx nz dx xg xvz zg zvx h)) (vertex_raw zg h) 0%nat j = -1 /\
  bcg nx nz (bcp (flags nx nz dx xg xvz zg zvx h')) (vertex_raw zg h') (nx - 1)%nat j = 30.
Proof.
  exists 3%nat, 12%nat, 10%R, 10%R, (fun i => IZR (10 * Z.of_nat i)), (fun i => 10 * INR i - 5)%R,
    (fun j => IZR (10 * Z.of_nat j)), (fun j => 10 * INR j - 5)%R, (fun i => IZR (hz1 i)), (fun i => IZR (hz2 i)), 5%nat.
  assert (R : regular 10 (fun i => IZR (10 * Z.of_nat i)) (fun i => 10 * INR i - 5)%R).
  { repeat split; intros; rewrite ?IZR_10; cbn [INR Z.of_nat]; lra. }
  assert (RZ : regular_z 10 (fun j => IZR (10 * Z.of_nat j)) (fun j => 10 * INR j - 5)%R).
  { repeat split; intros; rewrite ?IZR_10, ?plus_INR; cbn [INR Z.of_nat]; lra. }
  split; [exact R|]. split; [exact RZ|]. split.
  { intros k K. f_equal. destruct k as [|[|[|k]]]; try reflexivity; lia. }
  split; [lia|]. split.
  - unfold bcg. rewrite vertex_raw_IZR. unfold reactivate.
    replace (pass_west 3 12 _ 0%nat 5%nat) with (-1) by (vm_compute; reflexivity). reflexivity.
  - set (p := bcp _).
    assert (P : p 1%nat 5%nat <> -1).
    { pose proof (C52_exact_cells 3 12 10 (fun i => IZR (10 * Z.of_nat i)) (fun i => 10 * INR i - 5)%R
        (fun j => IZR (10 * Z.of_nat j)) (fun j => 10 * INR j - 5)%R (fun i => IZR (hz2 i)) 1%nat 5%nat
        ltac:(lia) R (regular_z_climbs _ _ _ RZ) ltac:(lia) ltac:(lia)) as [X _].
      cbv zeta in X. fold p in X. intro K. apply X in K. destruct K as [_ K]. apply K.
      unfold ext_height, column_height. cbn [Nat.add Nat.sub Nat.eqb hz2 INR]. lra. }
    unfold bcg. rewrite vertex_raw_IZR. unfold reactivate. cbv zeta.
    replace (pass_west 3 12 _ (3 - 1)%nat 5%nat) with 30 by (vm_compute; reflexivity).
    cbn [Nat.sub Nat.ltb Nat.leb Nat.eqb andb Z.eqb Pos.eqb].
    destruct (Z.eqb_spec (p 1%nat 5%nat) (-1)); [contradiction|]. reflexivity.
Qed.
Print Assumptions C52_side_vertices_mirror_refuted.

(** ** Density of cells cut by the surface *)

(** Below the top line of cells, a fluid cell whose upper neighbour has its centre
    above the surface gets as weight the fraction of the spacing between the two
    centres that lies below the surface; a cell that is not fluid gets zero. *)
Theorem C52_density_weight : forall nx nz dx dz xg xvz zg zvx height i j,
  (2 <= nx)%nat -> regular dx xg xvz -> regular_z dz zg zvx -> (i < nx - 1)%nat -> (j + 1 < nz - 1)%nat ->
  let p := bcp (flags nx nz dx xg xvz zg zvx height) in
  let H := column_height height i in
  let zc := (fun k => zvx (k + 1)%nat) in
  (column_height height i < zc (j + 1)%nat)%R ->
  exists w, surface_weight (nx - 1) (nz - 1) p (fit_a dx height) (fit_b dx xg height) (fun k => xvz (k + 1)%nat) zc dz i j = Some w /\
  (0 <= w <= 1)%R /\
  (p i j = -1 -> (w * dz = H - zc j)%R) /\ (p i j <> -1 -> w = 0%R).
Proof.
  intros nx nz dx dz xg xvz zg zvx height i j N R RZ I J p H zc U.
  pose proof (regular_z_climbs _ _ _ RZ) as C.
  destruct (C52_exact_cells nx nz dx xg xvz zg zvx height i j N R C I ltac:(lia)) as [A1 _].
  destruct (C52_exact_cells nx nz dx xg xvz zg zvx height i (j + 1) N R C I J) as [_ B2].
  cbv zeta in A1, B2. fold p in A1, B2. fold H in A1, B2. unfold zc in *.
  destruct RZ as (D & G & V & V0).
  assert (L : topo_fun (fit_a dx height) (fit_b dx xg height) i (xvz (i + 1)%nat) = H).
  { pose proof (ext_height_ok (nx - 1) dx xg xvz height (i + 1) R ltac:(lia) ltac:(lia)) as X.
    unfold fit_column in X. destruct (Nat.eqb_spec (i + 1) 0); [lia|].
    destruct (Nat.eqb_spec (i + 1) (nx - 1 + 1)); [lia|]. replace (i + 1 - 1)%nat with i in X by lia.
    rewrite X. replace (i + 1)%nat with (S i) by lia. unfold ext_height. destruct (Nat.eqb_spec i (nx - 1)); [lia|reflexivity]. }
  unfold topo_fun in L. unfold surface_weight. rewrite L.
  destruct (Z.eqb_spec (p i j) (-1)) as [F|F].
  - replace (j + 1 <? nz - 1)%nat with true by (symmetry; apply Nat.ltb_lt; lia).
    pose proof (proj1 (proj1 A1 F)) as F1.
    assert (B : p i (j + 1)%nat = 31) by (apply B2; left; split; [exact F1|exact U]).
    rewrite B. cbn [Z.eqb Pos.eqb]. rewrite Rabs_pos_eq by lra.
    eexists; split; [reflexivity|].
    assert (S : (zvx (j + 1 + 1)%nat = zvx (j + 1)%nat + dz)%R) by (rewrite !V, G; lra).
    fold H in U. rewrite S in U.
    split; [split; [apply Rmult_le_pos; [lra|left; apply Rinv_0_lt_compat; lra]|apply Rmult_le_reg_r with dz; [lra|field_simplify; lra]]|].
    split; [intros _; field; lra|]. intro K. contradiction.
  - eexists; split; [reflexivity|].
    destruct (C52_cell_tags nx nz dx xg xvz zg zvx height 0%R (fun _ _ => 0%R) i j) as [[T|[T|T]] _];
      cbv zeta in T; fold p in T; [contradiction| |]; rewrite T; cbn; (split; [lra|]; split; [intro; discriminate|auto]).
Qed.
Print Assumptions C52_density_weight.

Example C52_density_weight_ex :
  regular 1 INR (fun i => INR i - 1 / 2)%R /\ regular_z 1 INR (fun j => INR j - 1 / 2)%R /\
  (column_height (fun _ => 1.2) 1 < INR (1 + 1) - 1 / 2)%R.
Proof.
  destruct C52_interior_vertices_ex as [A B]. split; [exact A|]. split; [exact B|].
  unfold column_height. cbn [INR Nat.add]. lra.
Qed.

(** On a spike between two low columns the weight is not a fraction: here it is 7.5. *)
Theorem C52_density_weight_refuted : exists nx nz dx dz xg xvz zg zvx height i j w,
  regular dx xg xvz /\ regular_z dz zg zvx /\ (i < nx - 1)%nat /\ (j + 1 < nz - 1)%nat /\
  surface_weight (nx - 1) (nz - 1) (bcp (flags nx nz dx xg xvz zg zvx height)) (fit_a dx height) (fit_b dx xg height)
    (fun k => xvz (k + 1)%nat) (fun k => zvx (k + 1)%nat) dz i j = Some w /\ (w > 1)%R.
Proof.
  destruct C52_interior_vertices_ex as [A B].
  set (h := fun i : nat => match i with 1%nat => 10 | 2%nat => 10 | _ => (-4) end%R).
  exists 4%nat, 12%nat, 1%R, 1%R, INR, (fun i => INR i - 1 / 2)%R, INR, (fun j => INR j - 1 / 2)%R, h, 1%nat, 2%nat.
  pose proof (fun j => C52_exact_cells 4 12 1 INR (fun i => INR i - 1 / 2)%R INR (fun j => INR j - 1 / 2)%R h 1 j
     ltac:(lia) A (regular_z_climbs _ _ _ B) ltac:(lia)) as X.
  cbv zeta in X. set (p := bcp _) in *.
  assert (F : p 1%nat 2%nat = -1).
  { apply X; [lia|]. unfold ext_height, column_height, h. cbn [Nat.add Nat.sub Nat.eqb INR]. lra. }
  assert (S : p 1%nat 3%nat = 31).
  { apply X; [lia|]. right; left. unfold ext_height, column_height, h. cbn [Nat.add Nat.sub Nat.eqb INR]. lra. }
  eexists. split; [exact A|]. split; [exact B|]. split; [lia|]. split; [lia|].
  unfold surface_weight. rewrite F. cbn [Nat.add Nat.sub Nat.ltb Nat.leb Z.eqb Pos.eqb]. rewrite S. cbn [Z.eqb Pos.eqb].
  split; [reflexivity|]. unfold fit_b, fit_a, h. cbn [Nat.add INR]. rewrite Rabs_pos_eq; lra.
Qed.
Print Assumptions C52_density_weight_refuted.

(** Fluid in the top line of cells makes the correction read past the end of the tags. *)
Theorem C52_top_line_read_refuted : forall ncx ncz p a b xc zc dz i,
  (1 <= ncz)%nat -> p i (ncz - 1)%nat = -1 -> surface_weight ncx ncz p a b xc zc dz i (ncz - 1) = None.
Proof.
  intros ncx ncz p a b xc zc dz i N F. unfold surface_weight. rewrite F. cbn [Z.eqb Pos.eqb].
  destruct (Nat.ltb_spec (ncz - 1 + 1) ncz); [lia|reflexivity].
Qed.
Print Assumptions C52_top_line_read_refuted.
Example C52_top_line_read_refuted_ex : exists p : tags, p 0%nat (3 - 1)%nat = -1.
Proof. exists (fun _ _ => -1). reflexivity. Qed.
Example C52_cells_mirror_ex : mirrored 3 (fun i => IZR (hz1 i)) (fun i => IZR (hz2 i)).
Proof. intros k K. f_equal. destruct k as [|[|[|k]]]; try reflexivity; lia. Qed.
Example C52_fluid_never_touches_air_ex : exists c : tags, bcp c 1%nat 0%nat = -1 /\ bcp c 1%nat 1%nat = 31.
Proof.
  exists (flags 4 4 1 INR (fun i => INR i - 1 / 2)%R INR (fun j => INR j - 1 / 2)%R (fun _ => 1.2%R)).
  destruct C52_exact_cells_ex as (_ & _ & A & B & _). split; assumption.
Qed.
