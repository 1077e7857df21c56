(** * C87: phase maps show the nearest marker *)
From Coq Require Import ZArith Reals List Bool Lra Lia.
Import ListNotations.
From Verif Require Import P2GModel P2GProofs AdvModel AdvProofs ReseedModel ItpModel ItpProofs VizModel.
Local Open Scope R_scope.

(** ** Specification *)
Section Spec.
Variables (m : mesh) (tag : Z -> Z) (r : positive).
(** Size of a picture cell and its centre. *)
Definition wx : R := DX m / IZR (Zpos r).
Definition wz : R := DZ m / IZR (Zpos r).
Definition centre_x (j : Z) : R := X0 m + (IZR j + / 2) * wx.
Definition centre_z (i : Z) : R := Z0 m + (IZR i + / 2) * wz.
(** Marker [p] is in picture cell (i, j): west and south sides belong to the neighbour, except at the box sides. *)
Definition in_range (x x0 w : R) (j n : Z) : Prop :=
  (0 <= j < n)%Z /\ x <= x0 + (IZR j + 1) * w /\ (x0 + IZR j * w < x \/ (j = 0%Z /\ x0 <= x)).
Definition in_cell (i j : Z) (p : mark) : Prop :=
  in_range (mx p) (X0 m) wx j (Zpos r * (NX m - 1)) /\ in_range (mz p) (Z0 m) wz i (Zpos r * (NZ m - 1)).
(** It is an active marker in a rock cell of the computational grid. *)
Definition shown (p : mark) : Prop :=
  mphase p <> (-1)%Z /\ exists I J, in_range (mx p) (X0 m) (DX m) J (NX m - 1) /\ in_range (mz p) (Z0 m) (DZ m) I (NZ m - 1) /\
  rockb (tag (J + I * (NX m - 1))%Z) = true.
(** Closeness to the centre of its picture cell: 1 at the centre, 1/4 at a corner. *)
Definition closeness (i j : Z) (p : mark) : R :=
  (1 - Rabs (mx p - centre_x j) / wx) * (1 - Rabs (mz p - centre_z i) / wz).
End Spec.
Definition in_box (m : mesh) (p : mark) : Prop :=
  X0 m <= mx p <= X0 m + IZR (NX m - 1) * DX m /\ Z0 m <= mz p <= Z0 m + IZR (NZ m - 1) * DZ m.

(** ** Lemmas *)
Lemma ladder_affine : forall x0 h k, ladder x0 h k = x0 + INR k * h.
Proof. induction k as [|k IH]; [cbn; ring|]. cbn [ladder]. rewrite IH, S_INR. ring. Qed.

Lemma slot_in : forall x x0 w n, 0 < w -> (0 < n)%Z -> x0 <= x <= x0 + IZR n * w ->
  in_range x x0 w (slot x (x0 + 1 / 2 * w) w n) n.
Proof.
  intros x x0 w n Hw Hn Hx. unfold slot. set (q := (x - x0) / w).
  assert (E : (x - (x0 + 1 / 2 * w)) / w + 1 / 2 = q) by (unfold q; field; lra). rewrite E.
  assert (Ex : x = x0 + q * w) by (unfold q; field; lra).
  assert (Q0 : 0 <= q) by (unfold q; apply Rmult_le_pos; [lra|left; now apply Rinv_0_lt_compat]).
  assert (Qn : q <= IZR n).
  { unfold q. apply Rmult_le_reg_r with w; [exact Hw|]. unfold Rdiv. rewrite Rmult_assoc, Rinv_l by lra. lra. }
  destruct (Zceil_spec q) as [C1 C2]. set (c := Zceil q) in *.
  assert (Cn : (c <= n)%Z). { apply Z.lt_succ_r, lt_IZR. rewrite succ_IZR. lra. }
  assert (C0 : (0 <= c)%Z) by (apply le_IZR; lra).
  unfold in_range, clampZ. destruct (Z.ltb_spec (c - 1) 0) as [L|L].
  - assert (c = 0%Z) by lia. assert (Ec : IZR c = 0) by (rewrite H; reflexivity).
    assert (q = 0) by lra. destruct (Z.ltb_spec (n - 1) 0) as [M|M]; [lia|]. split; [lia|].
    rewrite Ex, H0. change (IZR 0) with 0. split; [lra|]. right. split; [reflexivity|lra].
  - destruct (Z.ltb_spec (n - 1) (c - 1)) as [M|M]; [lia|]. split; [lia|]. rewrite minus_IZR.
    rewrite Ex. split.
    + assert (q * w <= IZR c * w) by (apply Rmult_le_compat_r; lra). lra.
    + left. assert ((IZR c - 1) * w < q * w) by (apply Rmult_lt_compat_r; lra). lra.
Qed.
Lemma range_unique : forall x x0 w j j' n, 0 < w -> in_range x x0 w j n -> in_range x x0 w j' n -> j = j'.
Proof.
  intros x x0 w j j' n Hw (B & U & L) (B' & U' & L').
  assert (K : forall a b, (0 <= a)%Z -> x <= x0 + (IZR a + 1) * w -> (x0 + IZR b * w < x \/ (b = 0%Z /\ x0 <= x)) -> (b <= a)%Z).
  { intros a b Pa Ua [Lb|[-> _]]; [|exact Pa]. apply Z.lt_succ_r, lt_IZR. rewrite succ_IZR.
    apply Rmult_lt_reg_r with w; [exact Hw|]. lra. }
  pose proof (K j j' (proj1 B) U L'). pose proof (K j' j (proj1 B') U' L). lia.
Qed.

Section Map.
Variables (m : mesh) (tag : Z -> Z) (r : positive).
Hypothesis (HNX : (2 <= NX m)%Z) (HNZ : (2 <= NZ m)%Z) (Hdx : 0 < DX m) (Hdz : 0 < DZ m).
Lemma rpos : 1 <= IZR (Zpos r). Proof. apply (IZR_le 1). lia. Qed.
Lemma wx_pos : 0 < wx m r. Proof. unfold wx. pose proof rpos. apply Rmult_lt_0_compat; [exact Hdx|apply Rinv_0_lt_compat; lra]. Qed.
Lemma wz_pos : 0 < wz m r. Proof. unfold wz. pose proof rpos. apply Rmult_lt_0_compat; [exact Hdz|apply Rinv_0_lt_compat; lra]. Qed.
Lemma dxv_eq : dxv m r = wx m r.
Proof. unfold dxv, X_vect, wx, hx. rewrite !ladder_affine. change (Z.to_nat 1) with 1%nat. change (Z.to_nat 0) with 0%nat. cbn [INR]. ring. Qed.
Lemma dzv_eq : dzv m r = wz m r.
Proof. unfold dzv, Z_vect, wz, hz. rewrite !ladder_affine. change (Z.to_nat 1) with 1%nat. change (Z.to_nat 0) with 0%nat. cbn [INR]. ring. Qed.
Lemma xg0 : xg m 0 = X0 m. Proof. unfold xg. change (IZR 0) with 0. ring. Qed.
Lemma zg0 : zg m 0 = Z0 m. Proof. unfold zg. change (IZR 0) with 0. ring. Qed.
Lemma width_x : IZR (cols m r) * wx m r = IZR (NX m - 1) * DX m.
Proof. unfold cols, wx. rewrite mult_IZR. pose proof rpos. field. lra. Qed.
Lemma width_z : IZR (rows m r) * wz m r = IZR (NZ m - 1) * DZ m.
Proof. unfold rows, wz. rewrite mult_IZR. pose proof rpos. field. lra. Qed.

Lemma cell_of_marker : forall p, in_box m p -> in_cell m r (ipart m r p) (jpart m r p) p.
Proof.
  intros p (Bx & Bz). unfold in_cell, jpart, ipart. rewrite dxv_eq, dzv_eq, xg0, zg0. split.
  - apply slot_in; [apply wx_pos|unfold cols; nia|]. fold (cols m r); rewrite width_x. exact Bx.
  - apply slot_in; [apply wz_pos|unfold rows; nia|]. fold (rows m r); rewrite width_z. exact Bz.
Qed.
Lemma in_cell_unique : forall p i j i' j', in_cell m r i j p -> in_cell m r i' j' p -> i = i' /\ j = j'.
Proof.
  intros p i j i' j' (A & B) (A' & B'). split.
  - eapply range_unique; [apply wz_pos|exact B|exact B'].
  - eapply range_unique; [apply wx_pos|exact A|exact A'].
Qed.
Lemma shown_iff : forall p, in_box m p -> (shown m tag p <-> mphase p <> (-1)%Z /\ rockb (own_flag m tag p) = true).
Proof.
  intros p (Bx & Bz).
  assert (Sx : in_range (mx p) (X0 m) (DX m) (slot (mx p) (xc m 0) (DX m) (NX m - 1)) (NX m - 1)).
  { replace (xc m 0) with (X0 m + 1 / 2 * DX m) by (unfold xc; change (IZR 0) with 0; field). apply slot_in; [exact Hdx|lia|exact Bx]. }
  assert (Sz : in_range (mz p) (Z0 m) (DZ m) (slot (mz p) (zc m 0) (DZ m) (NZ m - 1)) (NZ m - 1)).
  { replace (zc m 0) with (Z0 m + 1 / 2 * DZ m) by (unfold zc; change (IZR 0) with 0; field). apply slot_in; [exact Hdz|lia|exact Bz]. }
  unfold shown, own_flag. cbv zeta. split.
  - intros (H & I0 & J0 & HJ & HI & HR). split; [exact H|].
    rewrite <- (range_unique _ _ _ _ _ _ Hdx HJ Sx), <- (range_unique _ _ _ _ _ _ Hdz HI Sz). exact HR.
  - intros (H & HR). split; [exact H|]. eexists. eexists. split; [exact Sx|]. split; [exact Sz|]. exact HR.
Qed.
Lemma nearness_eq : forall p, in_box m p -> nearness m r p = closeness m r (ipart m r p) (jpart m r p) p.
Proof.
  intros p B. destruct (cell_of_marker p B) as ((Jr & _) & (Ir & _)). unfold nearness, closeness, centre_x, centre_z.
  rewrite dxv_eq, dzv_eq. unfold X_vect, Z_vect. rewrite !ladder_affine, xg0, zg0.
  rewrite !INR_IZR_INZ, !Z2Nat.id by lia. rewrite !plus_IZR. fold (wx m r) (wz m r). unfold hx, hz. fold (wx m r) (wz m r).
  rewrite (Rabs_minus_sym (mx p)), (Rabs_minus_sym (mz p)).
  f_equal; f_equal; f_equal; f_equal; field.
Qed.
Lemma half_cell : forall x x0 w j n, 0 < w -> in_range x x0 w j n -> Rabs (x - (x0 + (IZR j + / 2) * w)) <= w / 2.
Proof.
  intros x x0 w j n Hw (_ & U & L). apply Rabs_le. assert (x0 + IZR j * w <= x).
  { destruct L as [L|[-> L]]; [lra|]. change (IZR 0) with 0. lra. }
  lra.
Qed.
Lemma closeness_pos : forall p i j, in_cell m r i j p -> / 4 <= closeness m r i j p <= 1.
Proof.
  intros p i j (A & B). pose proof wx_pos as Px. pose proof wz_pos as Pz.
  pose proof (half_cell _ _ _ _ _ Px A) as Hx. pose proof (half_cell _ _ _ _ _ Pz B) as Hz.
  unfold closeness, centre_x, centre_z.
  set (a := Rabs _) in *. set (b := Rabs (mz p - _)) in *.
  assert (Ha : 0 <= a) by apply Rabs_pos. assert (Hb : 0 <= b) by apply Rabs_pos.
  assert (A1 : 0 <= a / wx m r <= / 2).
  { split; [apply Rmult_le_pos; [exact Ha|left; now apply Rinv_0_lt_compat]|].
    apply Rmult_le_reg_r with (wx m r); [exact Px|]. unfold Rdiv. rewrite Rmult_assoc, Rinv_l by lra. lra. }
  assert (B1 : 0 <= b / wz m r <= / 2).
  { split; [apply Rmult_le_pos; [exact Hb|left; now apply Rinv_0_lt_compat]|].
    apply Rmult_le_reg_r with (wz m r); [exact Pz|]. unfold Rdiv. rewrite Rmult_assoc, Rinv_l by lra. lra. }
  set (u := 1 - a / wx m r) in *. set (v := 1 - b / wz m r) in *.
  assert (/ 2 <= u <= 1) by (unfold u; lra). assert (/ 2 <= v <= 1) by (unfold v; lra).
  split.
  - replace (/ 4) with (/ 2 * / 2) by lra. apply Rmult_le_compat; lra.
  - replace 1 with (1 * 1) by ring. apply Rmult_le_compat; lra.
Qed.
Lemma number_inj : forall i j i' j', (0 <= j < cols m r)%Z -> (0 <= j' < cols m r)%Z ->
  (j + i * cols m r = j' + i' * cols m r)%Z -> i = i' /\ j = j'.
Proof.
  intros i j i' j' H H' E. assert (i = i').
  { assert (i = (j + i * cols m r) / cols m r)%Z by (rewrite Z.div_add, Z.div_small; lia).
    assert (i' = (j' + i' * cols m r) / cols m r)%Z by (rewrite Z.div_add, Z.div_small; lia). congruence. }
  subst. lia.
Qed.

(** Value and weight of a picture cell after some markers. *)
Definition best (field : mark -> Z) (done : list mark) (s : pict) : Prop :=
  forall i j, (0 <= i < rows m r)%Z -> (0 <= j < cols m r)%Z ->
  let k := (j + i * cols m r)%Z in
  ((forall p, In p done -> shown m tag p -> ~ in_cell m r i j p) /\ wm s k = 0 /\ node s k = (-1)%Z) \/
  (exists p, In p done /\ shown m tag p /\ in_cell m r i j p /\ wm s k = closeness m r i j p /\ node s k = as_char (field p) /\
     forall p', In p' done -> shown m tag p' -> in_cell m r i j p' -> closeness m r i j p' <= closeness m r i j p).

Lemma paint_best : forall field done s p, (mphase p <> (-1)%Z -> in_box m p) ->
  best field done s -> best field (done ++ [p]) (paint m tag r field s p).
Proof.
  intros field done s p Hb B i j Hi Hj k. specialize (B i j Hi Hj). cbv zeta in B. fold k in B.
  assert (SKIP : (shown m tag p -> ~ in_cell m r i j p) -> forall s', wm s' k = wm s k -> node s' k = node s k ->
    ((forall p0, In p0 (done ++ [p]) -> shown m tag p0 -> ~ in_cell m r i j p0) /\ wm s' k = 0 /\ node s' k = (-1)%Z) \/
    (exists p0, In p0 (done ++ [p]) /\ shown m tag p0 /\ in_cell m r i j p0 /\ wm s' k = closeness m r i j p0 /\ node s' k = as_char (field p0) /\
     forall p', In p' (done ++ [p]) -> shown m tag p' -> in_cell m r i j p' -> closeness m r i j p' <= closeness m r i j p0)).
  { intros N s' E1 E2. rewrite E1, E2. destruct B as [(B1 & B2 & B3)|(p0 & B1 & B2 & B3 & B4 & B5 & B6)].
    - left. split; [|split; assumption]. intros q Iq Sq. apply in_app_or in Iq. destruct Iq as [Iq|[<-|[]]]; [now apply B1|now apply N].
    - right. exists p0. repeat (split; [first [assumption|apply in_or_app; left; assumption]|]).
      intros q Iq Sq Cq. apply in_app_or in Iq. destruct Iq as [Iq|[<-|[]]]; [now apply B6|]. exfalso. now apply (N Sq). }
  unfold paint. destruct (Z.eqb_spec (mphase p) (-1)) as [E|E].
  { apply SKIP; try reflexivity. intros (S1 & _). contradiction. }
  specialize (Hb E). pose proof (shown_iff p Hb) as SI. pose proof (nearness_eq p Hb) as NE. pose proof (cell_of_marker p Hb) as CM.
  cbv zeta. destruct (rockb (own_flag m tag p)) eqn:RK; cbn [andb].
  2:{ apply SKIP; try reflexivity. intros Sh. apply SI in Sh. destruct Sh. congruence. }
  assert (Sh : shown m tag p) by (apply SI; split; [exact E|reflexivity]).
  destruct (Z.eq_dec k (jpart m r p + ipart m r p * cols m r)) as [EK|EK].
  - (* this cell *)
    assert (IJ : i = ipart m r p /\ j = jpart m r p).
    { apply number_inj; [exact Hj|exact (proj1 (proj1 CM))|exact EK]. }
    destruct IJ as [-> ->]. fold k. rewrite NE. pose proof (closeness_pos p _ _ CM) as [CP _].
    destruct (Rltb_spec (wm s k) (closeness m r (ipart m r p) (jpart m r p) p)) as [G|G].
    + right. exists p. cbn [wm node]. unfold zset. rewrite Z.eqb_refl.
      split; [apply in_or_app; right; left; reflexivity|]. split; [exact Sh|]. split; [exact CM|]. split; [reflexivity|]. split; [reflexivity|].
      intros q Iq Sq Cq. apply in_app_or in Iq. destruct Iq as [Iq|[<-|[]]]; [|lra].
      destruct B as [(B1 & _)|(p0 & B1 & B2 & B3 & B4 & B5 & B6)]; [exfalso; now apply (B1 q)|]. specialize (B6 q Iq Sq Cq). lra.
    + destruct B as [(B1 & B2 & B3)|(p0 & B1 & B2 & B3 & B4 & B5 & B6)]; [lra|]. right. exists p0.
      repeat (split; [first [assumption|apply in_or_app; left; assumption]|]).
      intros q Iq Sq Cq. apply in_app_or in Iq. destruct Iq as [Iq|[<-|[]]]; [now apply B6|]. lra.
  - assert (N : shown m tag p -> ~ in_cell m r i j p).
    { intros _ C. destruct (in_cell_unique p _ _ _ _ C CM) as [-> ->]. now apply EK. }
    destruct (Rltb _ _); [|apply SKIP; [exact N|reflexivity|reflexivity]].
    apply SKIP; [exact N| |]; cbn [wm node]; unfold zset; destruct (Z.eqb_spec k (jpart m r p + ipart m r p * cols m r)); congruence.
Qed.
Lemma paint_all : forall field ps done s, (forall p, In p ps -> mphase p <> (-1)%Z -> in_box m p) ->
  best field done s -> best field (done ++ ps) (fold_left (paint m tag r field) ps s).
Proof.
  induction ps as [|p ps IH]; intros done s Hb B; cbn [fold_left]; [now rewrite app_nil_r|].
  replace (done ++ p :: ps) with ((done ++ [p]) ++ ps) by (rewrite <- app_assoc; reflexivity).
  apply IH; [intros q Iq; apply Hb; now right|]. apply paint_best; [apply Hb; now left|exact B].
Qed.
End Map.

(** ** C87 *)
(** Each picture cell shows the marker of that cell closest to its centre; a cell
    without markers shows -1. *)
Theorem C87_nearest_marker : forall m tag r max field ps img, (2 <= NX m)%Z -> (2 <= NZ m)%Z -> 0 < DX m -> 0 < DZ m ->
  (forall p, In p ps -> mphase p <> (-1)%Z -> in_box m p) ->
  phase_map m tag r max field ps = Done img ->
  forall i j, (0 <= i < Zpos r * (NZ m - 1))%Z -> (0 <= j < Zpos r * (NX m - 1))%Z ->
  let shows := img (j + i * (Zpos r * (NX m - 1)))%Z in
  ((forall p, In p ps -> shown m tag p -> ~ in_cell m r i j p) /\ shows = (-1)%Z) \/
  (exists p, In p ps /\ shown m tag p /\ in_cell m r i j p /\ shows = as_char (field p) /\
   forall p', In p' ps -> shown m tag p' -> in_cell m r i j p' -> closeness m r i j p' <= closeness m r i j p).
Proof.
  intros m tag r max field ps img H1 H2 H3 H4 Hb E i j Hi Hj. unfold phase_map in E. destruct (max <=? _)%Z; [discriminate|]. injection E as <-.
  assert (B : best m tag r field ([] ++ ps) (fold_left (paint m tag r field) ps (Pict (fun _ => 0) (fun _ => (-1)%Z)))).
  { apply paint_all; try assumption. intros i' j' _ _. left. split; [intros p []|]. split; reflexivity. }
  cbn [app] in B. specialize (B i j Hi Hj). cbv zeta in *. fold (cols m r).
  destruct B as [(B1 & B2 & B3)|(p & B1 & B2 & B3 & B4 & B5 & B6)]; [left|right]; [split; assumption|].
  exists p. repeat (split; [assumption|]). assumption.
Qed.
Print Assumptions C87_nearest_marker.

(** Where all the markers of a picture cell carry the same number, it is shown. *)
Theorem C87_pure_cell : forall m tag r max field ps img i j v, (2 <= NX m)%Z -> (2 <= NZ m)%Z -> 0 < DX m -> 0 < DZ m ->
  (forall p, In p ps -> mphase p <> (-1)%Z -> in_box m p) ->
  phase_map m tag r max field ps = Done img ->
  (0 <= i < Zpos r * (NZ m - 1))%Z -> (0 <= j < Zpos r * (NX m - 1))%Z -> (-128 <= v <= 127)%Z ->
  (forall p, In p ps -> shown m tag p -> in_cell m r i j p -> field p = v) ->
  (exists p, In p ps /\ shown m tag p /\ in_cell m r i j p) ->
  img (j + i * (Zpos r * (NX m - 1)))%Z = v.
Proof.
  intros m tag r max field ps img i j v H1 H2 H3 H4 Hb E Hi Hj Hv HA (p0 & I0 & S0 & C0).
  destruct (C87_nearest_marker m tag r max field ps img H1 H2 H3 H4 Hb E i j Hi Hj) as [(N & _)|(p & Ip & Sp & Cp & V & _)].
  - exfalso. now apply (N p0).
  - cbv zeta in V. rewrite V, (HA p Ip Sp Cp). unfold as_char. rewrite Z.mod_small; lia.
Qed.
Print Assumptions C87_pure_cell.

Definition ex_m : mesh := Mesh 3 3 0 0 1 1.
Definition ex_tag (k : Z) : Z := if (k =? 3)%Z then 30%Z else (-1)%Z.
Definition ex_ps : list mark := [Mark (/ 4) (/ 4) 0 2; Mark (/ 2) (/ 2) 1 5; Mark (3 / 2) (3 / 2) 1 1; Mark (1 / 8) (1 / 8) (-1) 4].
Example C87_ex : (forall p, In p ex_ps -> mphase p <> (-1)%Z -> in_box ex_m p) /\
  (exists img, phase_map ex_m ex_tag 1 100 mphase ex_ps = Done img) /\
  shown ex_m ex_tag (Mark (/ 4) (/ 4) 0 2) /\ in_cell ex_m 1 0 0 (Mark (/ 4) (/ 4) 0 2) /\ in_cell ex_m 1 0 0 (Mark (/ 2) (/ 2) 1 5).
Proof.
  split.
  { intros p Hp Ha. unfold in_box, ex_m. cbn [X0 Z0 DX DZ NX NZ].
    destruct Hp as [<-|[<-|[<-|[<-|[]]]]]; cbn [mx mz mphase] in *; [| | |lia]; change (IZR (3 - 1)) with 2; lra. }
  split; [eexists; reflexivity|].
  unfold shown, in_cell, in_range, wx, wz, ex_m. cbn [X0 Z0 DX DZ NX NZ mx mz mphase]. repeat split; try lia; try lra; try (left; lra).
  exists 0%Z, 0%Z. change (IZR 0) with 0. repeat split; try lia; try lra; left; lra.
Qed.

(** The map at normal resolution does not show the phases: it shows the auxiliary
    ("dual") phase, which the map at double resolution has under its own name. *)
Theorem C87_normal_map_refuted : exists m tag max ps img img',
  compo m tag max ps = Done img /\ compo_hr m tag max ps = Done img' /\
  (forall p, In p ps -> mphase p = 1%Z) /\ img 0%Z = 7%Z /\ img' 0%Z = 1%Z.
Proof.
  exists (Mesh 2 2 0 0 1 1), (fun _ => (-1)%Z), 10%Z, [Mark (/ 4) (/ 4) 1 7].
  set (M := Mesh 2 2 0 0 1 1).
  assert (B : forall p, In p [Mark (/ 4) (/ 4) 1 7] -> mphase p <> (-1)%Z -> in_box M p).
  { intros p [<-|[]] _. unfold in_box, M. cbn [X0 Z0 DX DZ NX NZ mx mz]. change (IZR (2 - 1)) with 1. lra. }
  assert (Sh : shown M (fun _ => (-1)%Z) (Mark (/ 4) (/ 4) 1 7)).
  { split; [cbn; lia|]. exists 0%Z, 0%Z. unfold in_range, M. cbn [X0 Z0 DX DZ NX NZ mx mz]. change (IZR 0) with 0.
    repeat split; try lia; try lra; left; lra. }
  assert (C : forall r, (Zpos r <= 2)%Z -> in_cell M r 0 0 (Mark (/ 4) (/ 4) 1 7)).
  { intros r Hr. unfold in_cell, in_range, wx, wz, M. cbn [X0 Z0 DX DZ NX NZ mx mz]. change (IZR 0) with 0.
    assert (P : 1 <= IZR (Zpos r) <= 2) by (split; [apply (IZR_le 1)|apply (IZR_le _ 2)]; lia).
    assert (/ 2 <= 1 / IZR (Zpos r)).
    { unfold Rdiv. rewrite Rmult_1_l. apply Rinv_le_contravar; lra. }
    repeat split; try lia; try lra; left; lra. }
  eexists. eexists. split; [reflexivity|]. split; [reflexivity|]. split; [intros p [<-|[]]; reflexivity|]. split.
  - apply (C87_pure_cell M (fun _ => (-1)%Z) 1 10 mdual [Mark (/ 4) (/ 4) 1 7] _ 0 0 7); try assumption; try reflexivity; try (cbn; lia); try (cbn; lra).
    + intros p [<-|[]] _ _. reflexivity.
    + exists (Mark (/ 4) (/ 4) 1 7). split; [now left|]. split; [exact Sh|]. apply C. lia.
  - apply (C87_pure_cell M (fun _ => (-1)%Z) 2 10 mphase [Mark (/ 4) (/ 4) 1 7] _ 0 0 1); try assumption; try reflexivity; try (cbn; lia); try (cbn; lra).
    + intros p [<-|[]] _ _. reflexivity.
    + exists (Mark (/ 4) (/ 4) 1 7). split; [now left|]. split; [exact Sh|]. apply C. lia.
Qed.
Print Assumptions C87_normal_map_refuted.

(** The marker read after the first loop exists for all but the smallest set-ups. *)
Theorem C87_stray_read : forall m tag perx perz field ps, (2 <= NX m)%Z -> (2 <= NZ m)%Z -> (1 <= perx)%Z -> (1 <= perz)%Z ->
  (2 <= perx * perz)%Z \/ (10 <= (NX m - 1) * (NZ m - 1))%Z ->
  phase_map m tag 1 (marker_room m perx perz) field ps <> UB /\ phase_map m tag 2 (marker_room m perx perz) field ps <> UB.
Proof.
  intros m tag perx perz field ps H1 H2 H3 H4 H5. unfold phase_map, cols, rows, marker_room.
  set (n := ((NX m - 1) * (NZ m - 1))%Z) in *. assert (N : (1 <= n)%Z) by (unfold n; nia).
  assert (K : (4 * n < 41 * (n * perx * perz) / 10)%Z).
  { assert (4 * n + 1 <= 41 * (n * perx * perz) / 10)%Z; [|lia]. apply Z.div_le_lower_bound; [lia|].
    assert (1 <= perx * perz)%Z by nia. replace (n * perx * perz)%Z with (n * (perx * perz))%Z by ring. set (q := (perx * perz)%Z) in *. nia. }
  split; match goal with |- context [(?a <=? ?b)%Z] => destruct (Z.leb_spec a b) as [L|L]; [|discriminate] end; exfalso; nia.
Qed.
Print Assumptions C87_stray_read.
Example C87_stray_read_ex : (2 <= 4 * 4)%Z /\ marker_room ex_m 4 4 = 262%Z. Proof. split; [lia|reflexivity]. Qed.
(** With one marker per cell and fewer than ten cells it is outside the array. *)
Theorem C87_stray_read_refuted : forall m tag field ps, (2 <= NX m)%Z -> (2 <= NZ m)%Z -> ((NX m - 1) * (NZ m - 1) < 10)%Z ->
  phase_map m tag 2 (marker_room m 1 1) field ps = UB.
Proof.
  intros m tag field ps H1 H2 H3. unfold phase_map, cols, rows, marker_room. set (n := ((NX m - 1) * (NZ m - 1))%Z) in *.
  assert (41 * (n * 1 * 1) / 10 <= 4 * n)%Z by (assert (41 * (n * 1 * 1) / 10 < 4 * n + 1)%Z; [apply Z.div_lt_upper_bound; lia|lia]).
  match goal with |- context [(?a <=? ?b)%Z] => destruct (Z.leb_spec a b) as [L|L]; [reflexivity|] end. exfalso. nia.
Qed.
Print Assumptions C87_stray_read_refuted.
