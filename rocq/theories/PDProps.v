(** * C112, C113: density tables *)
From Coq Require Import List ZArith Reals Bool Lia Lra Psatz.
Import ListNotations.
From Verif Require Import GridModel GridProofs RheoModel MatGridModel TableProps PDModel.
Local Open Scope R_scope.

(** ** C112: phase diagrams and the density of a phase *)

(** Specification: a diagram with an increasing range on both axes and at least two entries per axis; the
    entries of a file in the order of the diagram. *)
Definition diagram_ok (d : diagram) : Prop := (2 <= d_nT d)%Z /\ (2 <= d_nP d)%Z /\ d_Tmin d < d_Tmax d /\ d_Pmin d < d_Pmax d.
Definition entries (d : diagram) : Z := (d_nT d * d_nP d)%Z.

Lemma diagrams_ok : Forall diagram_ok (kinetic_diagram :: diagrams).
Proof. repeat (apply Forall_cons; [unfold diagram_ok; cbn [d_nT d_nP d_Tmin d_Tmax d_Pmin d_Pmax kinetic_diagram]; repeat split; try lia; lra|]). constructor. Qed.

Lemma rltb_scale a b s : 0 < s -> Rltb (a / s) (b / s) = Rltb a b.
Proof.
  intros S. assert (I : 0 < / s) by now apply Rinv_0_lt_compat. unfold Rltb.
  destruct (Rlt_dec (a / s) (b / s)) as [L|L]; destruct (Rlt_dec a b) as [M|M]; try reflexivity; exfalso; unfold Rdiv in *.
  - apply M. apply Rmult_lt_reg_r with (/ s); assumption.
  - apply L. now apply Rmult_lt_compat_r.
Qed.
Lemma into_scale x mn mx d s : 0 < s -> into (x / s) (mn / s) (mx / s) (d / s) = into x mn mx d / s.
Proof.
  intros S. unfold into. cbv zeta. rewrite rltb_scale by exact S.
  destruct (Rltb x mn).
  - replace (mn / s + / 100 * (d / s)) with ((mn + / 100 * d) / s) by (field; lra). rewrite rltb_scale by exact S.
    destruct (Rltb mx (mn + / 100 * d)); [field; lra|reflexivity].
  - rewrite rltb_scale by exact S. destruct (Rltb mx x); [field; lra|reflexivity].
Qed.
Lemma west_scale x mn d s : 0 < s -> 0 < d -> west (x / s) (mn / s) (d / s) = west x mn d.
Proof. intros S D. unfold west. replace ((x / s - mn / s) / (d / s)) with ((x - mn) / d) by (field; lra). reflexivity. Qed.
Lemma weight_scale x mn d s : 0 < s -> 0 < d -> weight (x / s) (mn / s) (d / s) = weight x mn d.
Proof. intros S D. unfold weight. rewrite west_scale by assumption. field. lra. Qed.

Lemma step_gt mn mx n : mn < mx -> (2 <= n)%Z -> 0 < (mx - mn) / (IZR n - 1).
Proof. intros H N. destruct (step_pos mn mx n H N) as (S & E & _). now rewrite <- E. Qed.

(** The density does not depend on the units the run is computed in: looking up scaled temperature and
    pressure in the scaled diagram and rescaling is the look-up in Kelvin, Pascal and kg/m3. *)
Theorem C112_units : forall d file sT sS rho a b T P, diagram_ok d -> 0 < sT -> 0 < sS -> 0 < rho ->
  read_bin file (entries d) rho = Table a -> read_bin file (entries d) 1 = Table b ->
  match lookup2 (T / sT) (P / sS) (in_units sT sS d) a with Some r => Some (r * rho) | None => None end = lookup2 T P d b.
Proof.
  intros d file sT sS rho a b T P (N1 & N2 & O1 & O2) HT HS HR A B. unfold lookup2, in_units. cbn [d_nT d_nP d_Tmin d_Tmax d_Pmin d_Pmax]. cbv zeta.
  set (dT := (d_Tmax d - d_Tmin d) / (IZR (d_nT d) - 1)). set (dP := (d_Pmax d - d_Pmin d) / (IZR (d_nP d) - 1)).
  assert (PT : 0 < dT) by now apply step_gt. assert (PP : 0 < dP) by now apply step_gt.
  replace ((d_Tmax d / sT - d_Tmin d / sT) / (IZR (d_nT d) - 1)) with (dT / sT).
  2:{ unfold dT. apply IZR_le in N1. field. lra. }
  replace ((d_Pmax d / sS - d_Pmin d / sS) / (IZR (d_nP d) - 1)) with (dP / sS).
  2:{ unfold dP. apply IZR_le in N2. field. lra. }
  rewrite !into_scale, !west_scale, !weight_scale by assumption. clearbody dT dP.
  assert (E : forall i, b i = match a i with Some v => Some (v * rho) | None => None end).
  { intros i. destruct file as [f|]; [|discriminate]. cbn [read_bin] in A, B. injection A as <-. injection B as <-.
    destruct ((0 <=? i)%Z && (i <? entries d)%Z); [|reflexivity]. destruct (nth_error f (Z.to_nat i)); [|reflexivity]. f_equal. field. lra. }
  set (i1 := (_ + _ * _ + 1)%Z). set (i2 := (_ + _ * _)%Z). set (i3 := (_ + _ * _ + 1)%Z). set (i4 := (_ + _ * _)%Z). rewrite !E.
  destruct (a i1); [|reflexivity]. destruct (a i2); [|reflexivity]. destruct (a i3); [|reflexivity]. destruct (a i4); [|reflexivity].
  cbn [obind]. f_equal. ring.
Qed.
Print Assumptions C112_units.

Lemma read_bin_full f n scale a : (0 <= n <= Z.of_nat (length f))%Z -> read_bin (Some f) n scale = Table a ->
  forall i, (0 <= i < n)%Z -> a i = Some (nth (Z.to_nat i) f 0 * (1 / scale)).
Proof.
  intros N H i I. injection H as <-. replace (0 <=? i)%Z with true by lia. replace (i <? n)%Z with true by lia. cbn [andb].
  rewrite (nth_error_nth' f 0); [reflexivity|]. lia.
Qed.

(** With a complete file the density of every diagram lies between the smallest and the largest entry, at any
    temperature and pressure except exactly the lower ends. *)
Theorem C112_between : forall d f rho a T P lo hi, diagram_ok d -> 0 < rho -> (entries d <= Z.of_nat (length f))%Z ->
  (forall v, In v f -> lo <= v <= hi) -> read_bin (Some f) (entries d) rho = Table a -> T <> d_Tmin d -> P <> d_Pmin d ->
  exists r, lookup2 T P d a = Some r /\ lo <= r * rho <= hi.
Proof.
  intros d f rho a T P lo hi (N1 & N2 & O1 & O2) HR L V A NT NP.
  assert (N0 : (0 <= entries d)%Z) by (unfold entries; nia).
  assert (F := read_bin_full f (entries d) rho a ltac:(lia) A).
  destruct (C63_table2_between T P (d_Tmin d) (d_Tmax d) (d_Pmin d) (d_Pmax d) (d_nT d) (d_nP d) (fun i => nth (Z.to_nat i) f 0 * (1 / rho)) (lo / rho) (hi / rho) O1 O2 N1 N2 NT NP) as (r & E & B).
  { intros k K. assert (X : lo <= nth (Z.to_nat k) f 0 <= hi) by (apply V, nth_In; fold (entries d) in K; lia).
    assert (0 < / rho) by now apply Rinv_0_lt_compat. unfold Rdiv. rewrite Rmult_1_l. split; apply Rmult_le_compat_r; lra. }
  exists r. split.
  - rewrite <- E. unfold table2 in E. unfold lookup2, table2. cbv zeta in *.
    assert (Q : forall i, read (d_nT d * d_nP d) (fun i => nth (Z.to_nat i) f 0 * (1 / rho)) i = if (0 <=? i)%Z && (i <? entries d)%Z then a i else None).
    { intros i. unfold read. change (d_nT d * d_nP d)%Z with (entries d). destruct (Z.leb_spec 0 i); destruct (Z.ltb_spec i (entries d)); cbn [andb]; auto. now rewrite F by lia. }
    assert (Q2 : forall i, (if (0 <=? i)%Z && (i <? entries d)%Z then a i else None) = a i).
    { intros i. injection A as <-. destruct ((0 <=? i)%Z && (i <? entries d)%Z); reflexivity. }
    rewrite !Q, !Q2. reflexivity.
  - assert (X : forall x, x / rho * rho = x) by (intros; field; lra). rewrite <- (X lo), <- (X hi). split; apply Rmult_le_compat_r; lra.
Qed.
Print Assumptions C112_between.

(** Refuted: a table that is too short is noticed. It is loaded without a message, and for every diagram the
    density at the highest temperature and pressure is then read from memory that was never written. *)
Theorem C112_short_file_refuted : forall d f rho, diagram_ok d -> (Z.of_nat (length f) < entries d)%Z ->
  exists a, read_bin (Some f) (entries d) rho = Table a /\ lookup2 (d_Tmax d) (d_Pmax d) d a = None.
Proof.
  intros d f rho (N1 & N2 & O1 & O2) L. eexists. split; [reflexivity|]. unfold lookup2. cbv zeta.
  assert (BT : between_nodes (d_Tmin d) (d_Tmax d) (d_nT d) (d_nT d - 2) (d_Tmax d)).
  { destruct (step_pos _ _ _ O1 N1) as (S1 & S2 & S3 & S4). split; [lia|]. unfold node. replace (d_nT d - 2 + 1)%Z with (d_nT d - 1)%Z by lia. rewrite !minus_IZR.
    set (s := step (d_Tmin d) (d_Tmax d) (d_nT d)) in *. nra. }
  assert (BP : between_nodes (d_Pmin d) (d_Pmax d) (d_nP d) (d_nP d - 2) (d_Pmax d)).
  { destruct (step_pos _ _ _ O2 N2) as (S1 & S2 & S3 & S4). split; [lia|]. unfold node. replace (d_nP d - 2 + 1)%Z with (d_nP d - 1)%Z by lia. rewrite !minus_IZR.
    set (s := step (d_Pmin d) (d_Pmax d) (d_nP d)) in *. nra. }
  assert (FT : frac (d_Tmin d) (d_Tmax d) (d_nT d) (d_nT d - 2) (d_Tmax d) <> 0).
  { destruct (step_pos _ _ _ O1 N1) as (S1 & S2 & S3 & S4). unfold frac, node. rewrite minus_IZR. set (s := step (d_Tmin d) (d_Tmax d) (d_nT d)) in *.
    replace ((d_Tmax d - (d_Tmin d + (IZR (d_nT d) - 2) * s)) / s) with 1; [lra|]. clearbody s. rewrite S3. field. lra. }
  assert (FP : frac (d_Pmin d) (d_Pmax d) (d_nP d) (d_nP d - 2) (d_Pmax d) <> 0).
  { destruct (step_pos _ _ _ O2 N2) as (S1 & S2 & S3 & S4). unfold frac, node. rewrite minus_IZR. set (s := step (d_Pmin d) (d_Pmax d) (d_nP d)) in *.
    replace ((d_Pmax d - (d_Pmin d + (IZR (d_nP d) - 2) * s)) / s) with 1; [lra|]. clearbody s. rewrite S3. field. lra. }
  destruct (west_weight _ _ _ _ _ O1 N1 BT ltac:(lra)) as [-> [[WT _]|(_ & _ & Z & _)]]; [|contradiction].
  destruct (west_weight _ _ _ _ _ O2 N2 BP ltac:(lra)) as [-> [[WP _]|(_ & _ & Z & _)]]; [|contradiction].
  rewrite WT, WP. replace (d_nT d - 2 + (d_nP d - 2 + 1) * d_nT d + 1)%Z with (entries d - 1)%Z by (unfold entries; ring).
  assert (0 < entries d)%Z by (unfold entries; nia).
  replace (0 <=? entries d - 1)%Z with true by lia. replace (entries d - 1 <? entries d)%Z with true by lia. cbn [andb].
  destruct (nth_error f (Z.to_nat (entries d - 1))) eqn:Q; [|reflexivity]. exfalso.
  assert (X : nth_error f (Z.to_nat (entries d - 1)) <> None) by congruence. apply nth_error_Some in X. lia.
Qed.
Print Assumptions C112_short_file_refuted.

Definition full (d : diagram) (f : list R) : Prop := (entries d <= Z.of_nat (length f))%Z.
Definition plausible (lo hi : R) (f : list R) : Prop := forall v, In v f -> lo <= v <= hi.

Lemma nth_combine {A B} (l : list A) (r : list B) i a b : nth_error l i = Some a -> nth_error r i = Some b -> nth_error (combine l r) i = Some (a, b).
Proof. revert r i. induction l as [|x l IH]; intros [|y r] [|i]; cbn; try discriminate; [congruence|]. apply IH. Qed.

(** A run with ten complete files: a phase that names one of the ten diagrams has a density between the
    entries of that diagram's file, in the units of the run, at every temperature and pressure except the
    lower ends. *)
Theorem C112_phase_density : forall files sT sS rho variations d1 m T P X phi lo hi, 0 < sT -> 0 < sS -> 0 < rho -> length files = 10%nat ->
  Forall (fun o => o <> None) files -> dm_model m = 2%Z -> (0 <= dm_pd m < 10)%Z ->
  exists d f, nth_error diagrams (Z.to_nat (dm_pd m)) = Some d /\ nth_error files (Z.to_nat (dm_pd m)) = Some (Some f) /\
  (full d f -> plausible lo hi f -> T * sT <> d_Tmin d -> P * sS <> d_Pmin d ->
   exists tables r, all_tables files sT sS rho = Some tables /\ evaluate_density variations tables d1 m T P X phi = Some r /\ lo <= r * rho <= hi).
Proof.
  intros files sT sS rho variations d1 m T P X phi lo hi HT HS HR LF FF M I.
  set (k := Z.to_nat (dm_pd m)). assert (K : (k < 10)%nat) by lia.
  destruct (nth_error diagrams k) as [d|] eqn:D; [|apply nth_error_None in D; cbn in D; lia].
  destruct (nth_error files k) as [[f|]|] eqn:Fk.
  2:{ exfalso. apply nth_error_In in Fk. rewrite Forall_forall in FF. now apply (FF _ Fk). }
  2:{ apply nth_error_None in Fk. lia. }
  exists d, f. split; [reflexivity|]. split; [reflexivity|]. intros FU PL NT NP.
  unfold all_tables. set (ts := map _ (combine diagrams files)).
  assert (AL : forallb (fun t : diagram * loaded => match snd t with NoFile => false | Table _ => true end) ts = true).
  { apply forallb_forall. intros t Ht. unfold ts in Ht. apply in_map_iff in Ht. destruct Ht as ([dd ff] & <- & Ht).
    apply in_combine_r in Ht. rewrite Forall_forall in FF. specialize (FF _ Ht). cbn [fst snd]. destruct ff; [reflexivity|contradiction]. }
  rewrite AL. eexists. 
  assert (NE : nth_error ts k = Some (in_units sT sS d, read_bin (Some f) (d_nT d * d_nP d) rho)).
  { unfold ts. rewrite nth_error_map. rewrite (nth_combine _ _ _ _ _ D Fk). reflexivity. }
  assert (OK : diagram_ok d).
  { pose proof diagrams_ok as Q. apply Forall_inv_tail in Q. rewrite Forall_forall in Q. apply Q. now apply nth_error_In in D. }
  assert (OKs : diagram_ok (in_units sT sS d)).
  { destruct OK as (A1 & A2 & A3 & A4). unfold diagram_ok, in_units. cbn. repeat split; try assumption; unfold Rdiv; (apply Rmult_lt_compat_r; [now apply Rinv_0_lt_compat|assumption]). }
  destruct (C112_between (in_units sT sS d) f rho _ T P lo hi OKs HR FU PL eq_refl) as (r & R & B).
  { cbn. intros E. apply NT. rewrite E. field. lra. } { cbn. intros E. apply NP. rewrite E. field. lra. }
  exists r. split; [reflexivity|]. split; [|exact B]. unfold evaluate_density. rewrite M. cbn [Z.eqb].
  change (2 =? 0)%Z with false. change (2 =? 1)%Z with false. change (2 =? 2)%Z with true. cbv iota.
  replace (dm_pd m <? 0)%Z with false by lia. fold k. rewrite NE. cbn [read_bin]. exact R.
Qed.
Print Assumptions C112_phase_density.

Lemma tables_outside files sT sS rho tables pd : all_tables files sT sS rho = Some tables -> (pd < 0 \/ 10 <= pd)%Z -> tables pd = None.
Proof.
  unfold all_tables. set (ts := map _ (combine diagrams files)). assert (L : (length ts <= 10)%nat).
  { unfold ts. rewrite map_length, combine_length. change (length diagrams) with 10%nat. lia. }
  clearbody ts. cbv zeta. destruct (forallb _ _); [|discriminate]. intros H I. injection H as <-. destruct (Z.ltb_spec pd 0); [reflexivity|].
  destruct (nth_error ts (Z.to_nat pd)) eqn:E; [|reflexivity]. assert (X : nth_error ts (Z.to_nat pd) <> None) by congruence. apply nth_error_Some in X. lia.
Qed.
(** Refuted: the diagram of a phase is checked when the input is read. Only -1 is refused; every other index
    outside 0..9 passes and the density is then read outside the tables. *)
Theorem C112_index_refuted : forall m, dm_model m = 2%Z -> (dm_pd m < -1 \/ 10 <= dm_pd m)%Z ->
  checked [m] = true /\ forall files sT sS rho tables variations d1 T P X phi, all_tables files sT sS rho = Some tables ->
  evaluate_density variations tables d1 m T P X phi = None.
Proof.
  intros m M I. split.
  - unfold checked. cbn [forallb]. rewrite M. replace (dm_pd m =? -1)%Z with false by lia. reflexivity.
  - intros files sT sS rho tables variations d1 T P X phi H. unfold evaluate_density. rewrite M. change (2 =? 0)%Z with false. change (2 =? 1)%Z with false. change (2 =? 2)%Z with true. cbv iota.
    now rewrite (tables_outside _ _ _ _ _ _ H) by lia.
Qed.
Print Assumptions C112_index_refuted.
(** The one index that is refused, and phases without tables. *)
Theorem C112_checked : forall l, checked l = true <-> forall m, In m l -> dm_model m = 2%Z -> dm_pd m <> (-1)%Z.
Proof.
  intros l. unfold checked. rewrite forallb_forall. split; intros H m Hm.
  - intros M E. specialize (H m Hm). rewrite M, E in H. discriminate.
  - specialize (H m Hm). destruct (Z.eqb_spec (dm_model m) 2) as [M|M]; [|reflexivity]. specialize (H M).
    destruct (Z.eqb_spec (dm_pd m) (-1)); [contradiction|reflexivity].
Qed.
Print Assumptions C112_checked.

(** The models without tables. Constant: the given density at any state. Models 3 and 5 are positive; with
    reactions or melt the density lies between those of the two end members; the equation of state of model 1
    gives the reference density in the reference state. *)
Theorem C112_closed_models : forall v t d1 m T P X phi,
  let e := exp (dm_bet m * P - dm_alp m * T) in
  (dm_model m = 0%Z -> evaluate_density v t d1 m T P X phi = Some (dm_rho m)) /\
  (dm_model m = 1%Z -> exists r, evaluate_density v t d1 m T P X phi = Some r /\
     (T = dm_T0 m -> P = dm_P0 m -> r = dm_rho m + X * dm_drho m)) /\
  (dm_model m = 3%Z -> v = 0%Z -> 0 < dm_rho m -> exists r, evaluate_density v t d1 m T P X phi = Some r /\ r = dm_rho m * e /\ 0 < r) /\
  (dm_model m = 3%Z -> v = 1%Z -> 0 <= X <= 1 -> exists r, evaluate_density v t d1 m T P X phi = Some r /\
     Rmin (dm_rho m) (dm_rho2 m) * e <= r <= Rmax (dm_rho m) (dm_rho2 m) * e) /\
  (dm_model m = 5%Z -> 0 <= phi <= 1 -> exists r, evaluate_density v t d1 m T P X phi = Some r /\
     Rmin (dm_rho m) (dm_rho m + dm_drho m) * e <= r <= Rmax (dm_rho m) (dm_rho m + dm_drho m) * e) /\
  (dm_model m = 4%Z -> evaluate_density v t d1 m T P X phi = d1 P).
Proof.
  intros v t d1 m T P X phi e. pose proof (exp_pos (dm_bet m * P - dm_alp m * T)) as EP. fold e in EP.
  unfold evaluate_density. fold e. clearbody e.
  assert (MX : forall a b s, 0 <= s <= 1 -> Rmin a b <= (1 - s) * a + s * b <= Rmax a b).
  { intros a b s S. pose proof (Rmin_l a b). pose proof (Rmin_r a b). pose proof (Rmax_l a b). pose proof (Rmax_r a b). nra. }
  repeat split; intros M; rewrite M; cbn [Z.eqb Pos.eqb]; try reflexivity.
  - eexists. split; [reflexivity|]. intros -> ->. ring.
  - intros -> R. cbn [Z.eqb]. eexists. split; [reflexivity|]. split; [reflexivity|]. now apply Rmult_lt_0_compat.
  - intros -> HX. cbn [Z.eqb Pos.eqb]. eexists. split; [reflexivity|]. destruct (MX (dm_rho m) (dm_rho2 m) X HX). split; apply Rmult_le_compat_r; lra.
  - intros HP. eexists. split; [reflexivity|]. destruct (MX (dm_rho m) (dm_rho m + dm_drho m) phi HP).
    replace ((1 - phi) * (dm_rho m * e) + phi * ((dm_rho m + dm_drho m) * e)) with (((1 - phi) * dm_rho m + phi * (dm_rho m + dm_drho m)) * e) by ring.
    split; apply Rmult_le_compat_r; lra.
Qed.
Print Assumptions C112_closed_models.

(** Refuted: every accepted density_model gives a density. Numbers other than 0 to 5, and model 3 with
    density_variations other than 0 and 1, return an uninitialised variable. *)
Theorem C112_unknown_model_refuted : forall v t d1 m T P X phi,
  (dm_model m < 0 \/ 5 < dm_model m \/ dm_model m = 3 /\ v <> 0 /\ v <> 1)%Z ->
  (dm_model m <> 2%Z -> checked [m] = true) /\ evaluate_density v t d1 m T P X phi = None.
Proof.
  intros v t d1 m T P X phi H. split.
  - intros N. unfold checked. cbn [forallb]. replace (dm_model m =? 2)%Z with false by lia. reflexivity.
  - unfold evaluate_density. destruct H as [H|[H|(-> & H0 & H1)]];
      [replace (dm_model m =? 0)%Z with false by lia; replace (dm_model m =? 1)%Z with false by lia; replace (dm_model m =? 2)%Z with false by lia;
       replace (dm_model m =? 3)%Z with false by lia; replace (dm_model m =? 4)%Z with false by lia; replace (dm_model m =? 5)%Z with false by lia; reflexivity..|].
    cbn [Z.eqb Pos.eqb]. replace (v =? 0)%Z with false by lia. replace (v =? 1)%Z with false by lia. reflexivity.
Qed.
Print Assumptions C112_unknown_model_refuted.

(** A table of 2 x 2 entries 1 2 3 4 in units of 2 at the centre: 5/2 in file units, 5/4 in the run; one entry short: undefined. *)
Example C112_ex : let d := Diagram 2 2 0 2 0 2 in
  (exists a, read_bin (Some [1; 2; 3; 4]) 4 2 = Table a /\ lookup2 1 1 d a = Some (5 / 4)) /\
  (exists a, read_bin (Some [1; 2; 3]) 4 2 = Table a /\ lookup2 2 2 d a = None) /\ read_bin None 4 2 = NoFile /\
  nth_error diagrams 9 = Some kinetic_diagram.
Proof.
  cbv zeta. split; [|split; [|split; reflexivity]].
  - eexists. split; [reflexivity|]. unfold lookup2. cbn [d_nT d_nP d_Tmin d_Tmax d_Pmin d_Pmax]. cbv zeta.
    assert (B : between_nodes 0 2 2 0 1) by (split; [lia|]; unfold node, step; cbn; lra).
    destruct (west_weight 0 2 2 0 1 ltac:(lra) ltac:(lia) B ltac:(lra)) as [I [[W1 W2]|(_ & Z & _)]]; [|lia].
    rewrite I, W1, W2. unfold frac, node, step. cbn. change (Pos.to_nat 3) with 3%nat. change (Pos.to_nat 2) with 2%nat. change (Pos.to_nat 1) with 1%nat. cbn [nth_error obind]. f_equal. field.
  - apply (C112_short_file_refuted (Diagram 2 2 0 2 0 2) [1; 2; 3] 2); [unfold diagram_ok; cbn; repeat split; try lia; lra|reflexivity].
Qed.

(** ** C113: the smoothed quartz-coesite table *)

Lemma smooth_at n dP a : dP <> 0 -> forall i,
  smooth_step n dP a i = if Nat.leb 1 i && Nat.ltb (i + 1) n then a i + 10 / 21 * (a (i + 1)%nat - 2 * a i + a (i - 1)%nat) else a i.
Proof.
  intros D. unfold smooth_step. cbv zeta.
  assert (G : forall m b i, loop 1 m (fun b ix => upd b ix (a ix - dP * dP / 1 / (21 / 10) * (- (1) * (a (ix + 1)%nat - a ix) / dP - - (1) * (a ix - a (ix - 1)%nat) / dP) / dP)) b i =
    if Nat.leb 1 i && Nat.leb i m then a i + 10 / 21 * (a (i + 1)%nat - 2 * a i + a (i - 1)%nat) else b i).
  { induction m as [|m IH]; intros b i.
    - cbn [loop]. destruct i; reflexivity.
    - rewrite loop_S. destruct (Nat.eq_dec i (1 + m)) as [->|N].
      + rewrite upd_same. replace (Nat.leb 1 (1 + m) && Nat.leb (1 + m) (S m)) with true by (symmetry; apply andb_true_intro; split; apply Nat.leb_le; lia). field. exact D.
      + rewrite upd_other by congruence. rewrite IH. destruct (Nat.leb_spec 1 i); destruct (Nat.leb_spec i m); destruct (Nat.leb_spec i (S m)); cbn [andb]; try reflexivity; lia. }
  intros i. rewrite G. destruct (Nat.leb_spec 1 i); cbn [andb]; [|reflexivity]. destruct (Nat.leb_spec i (n - 2)); destruct (Nat.ltb_spec (i + 1) n); try reflexivity; lia.
Qed.

Lemma smooth_table_ind (Q : (nat -> R) -> Prop) n dP a : (forall b, Q b -> Q (smooth_step n dP b)) -> Q a -> forall steps, Q (smooth_table steps n dP a).
Proof. intros S H. induction steps as [|k IH]; [exact H|]. unfold smooth_table in *. rewrite loop_S. now apply S. Qed.

(** The densities at the two ends of the table are those of the file; every other one stays between the
    smallest and the largest density of the file. *)
Theorem C113_bounds : forall steps n dP a lo hi, dP <> 0 -> (2 <= n)%nat -> (forall i, (i < n)%nat -> lo <= a i <= hi) ->
  let b := smooth_table steps n dP a in
  b 0%nat = a 0%nat /\ b (n - 1)%nat = a (n - 1)%nat /\ (forall i, (i < n)%nat -> lo <= b i <= hi) /\ (forall i, (n <= i)%nat -> b i = a i).
Proof.
  intros steps n dP a lo hi D N H b.
  apply (smooth_table_ind (fun b => b 0%nat = a 0%nat /\ b (n - 1)%nat = a (n - 1)%nat /\ (forall i, (i < n)%nat -> lo <= b i <= hi) /\ (forall i, (n <= i)%nat -> b i = a i))); [|auto].
  clear b. intros b (E0 & E1 & B & O). split; [|split; [|split]].
  - rewrite smooth_at by exact D. exact E0.
  - rewrite smooth_at by exact D. replace (Nat.ltb (n - 1 + 1) n) with false by (symmetry; apply Nat.ltb_ge; lia). rewrite andb_false_r. exact E1.
  - intros i I. rewrite smooth_at by exact D. destruct (Nat.leb_spec 1 i); cbn [andb]; [|now apply B]. destruct (Nat.ltb_spec (i + 1) n); [|now apply B].
    pose proof (B i I). pose proof (B (i + 1)%nat ltac:(lia)). pose proof (B (i - 1)%nat ltac:(lia)). lra.
  - intros i I. rewrite smooth_at by exact D. replace (Nat.ltb (i + 1) n) with false by (symmetry; apply Nat.ltb_ge; lia). rewrite andb_false_r. now apply O.
Qed.
Print Assumptions C113_bounds.

(** A table whose density increases with pressure still does after smoothing. *)
Theorem C113_monotone : forall steps n dP a, dP <> 0 -> (forall i, (i + 1 < n)%nat -> a i <= a (i + 1)%nat) ->
  forall i, (i + 1 < n)%nat -> smooth_table steps n dP a i <= smooth_table steps n dP a (i + 1)%nat.
Proof.
  intros steps n dP a D H. apply (smooth_table_ind (fun b => forall i, (i + 1 < n)%nat -> b i <= b (i + 1)%nat)); [|exact H].
  intros b B i I. rewrite !smooth_at by exact D. pose proof (B i I) as Bi.
  replace (Nat.leb 1 (i + 1)) with true by (symmetry; apply Nat.leb_le; lia). replace (Nat.ltb (i + 1) n) with true by (symmetry; apply Nat.ltb_lt; lia).
  replace (i + 1 - 1)%nat with i by lia. rewrite andb_true_r. cbn [andb].
  destruct (Nat.leb_spec 1 i) as [L|L].
  - pose proof (B (i - 1)%nat ltac:(lia)) as Bm. replace (i - 1 + 1)%nat with i in Bm by lia.
    destruct (Nat.ltb_spec (i + 1 + 1) n) as [K|K]; [pose proof (B (i + 1)%nat ltac:(lia))|]; lra.
  - destruct (Nat.ltb_spec (i + 1 + 1) n) as [K|K]; [pose proof (B (i + 1)%nat ltac:(lia))|]; lra.
Qed.
Print Assumptions C113_monotone.

(** A table that is a straight line in pressure is left as it is. *)
Theorem C113_linear : forall steps n dP p q, dP <> 0 -> forall i, smooth_table steps n dP (fun i => p + q * INR i) i = p + q * INR i.
Proof.
  intros steps n dP p q D. apply (smooth_table_ind (fun b => forall i, b i = p + q * INR i)); [|reflexivity].
  intros b B i. rewrite smooth_at by exact D. destruct (Nat.leb_spec 1 i); cbn [andb]; [|apply B]. destruct (Nat.ltb_spec (i + 1) n); [|apply B].
  rewrite !B, plus_INR, minus_INR by lia. cbn. ring.
Qed.
Print Assumptions C113_linear.

(** Smoothing never steepens: the steepest step between neighbouring pressures does not grow. *)
Theorem C113_gradient : forall steps n dP a g, dP <> 0 -> (forall i, (i + 1 < n)%nat -> Rabs (a (i + 1)%nat - a i) <= g) ->
  forall i, (i + 1 < n)%nat -> Rabs (smooth_table steps n dP a (i + 1)%nat - smooth_table steps n dP a i) <= g.
Proof.
  intros steps n dP a g D H. apply (smooth_table_ind (fun b => forall i, (i + 1 < n)%nat -> Rabs (b (i + 1)%nat - b i) <= g)); [|exact H].
  intros b B.
  assert (B' : forall i, (i + 1 < n)%nat -> - g <= b (i + 1)%nat - b i <= g). { intros i I. specialize (B i I). revert B. unfold Rabs. destruct (Rcase_abs _); lra. }
  intros i I. apply Rabs_le. rewrite !smooth_at by exact D. pose proof (B' i I) as Bi.
  replace (Nat.leb 1 (i + 1)) with true by (symmetry; apply Nat.leb_le; lia). replace (Nat.ltb (i + 1) n) with true by (symmetry; apply Nat.ltb_lt; lia).
  replace (i + 1 - 1)%nat with i by lia. rewrite andb_true_r. cbn [andb].
  destruct (Nat.leb_spec 1 i) as [L|L].
  - pose proof (B' (i - 1)%nat ltac:(lia)) as Bm. replace (i - 1 + 1)%nat with i in Bm by lia.
    destruct (Nat.ltb_spec (i + 1 + 1) n) as [K|K]; [pose proof (B' (i + 1)%nat ltac:(lia))|]; lra.
  - destruct (Nat.ltb_spec (i + 1 + 1) n) as [K|K]; [pose proof (B' (i + 1)%nat ltac:(lia))|]; lra.
Qed.
Print Assumptions C113_gradient.

Lemma n_1d_ge : (2 <= n_1d)%nat. Proof. apply Nat.leb_le. vm_compute. reflexivity. Qed.
Global Opaque n_1d steps_1d.
Lemma step_1d_pos sS : 0 < sS -> 0 < step_1d sS.
Proof.
  intros S. unfold step_1d, pmax_1d, pmin_1d. pose proof n_1d_ge as N. generalize dependent n_1d. intros n N.
  assert (1 < INR n) by (apply le_INR in N; cbn [INR] in N; lra).
  assert (0 < / sS) by now apply Rinv_0_lt_compat. apply Rmult_lt_0_compat; [|apply Rinv_0_lt_compat; lra].
  unfold Rdiv. rewrite <- Rmult_minus_distr_r. apply Rmult_lt_0_compat; [|assumption]. cbn [pow]. lra.
Qed.
Lemma smooth_units f rho rho' n D D' k : 0 < rho -> 0 < rho' -> D <> 0 -> D' <> 0 -> forall i,
  smooth_table k n D (read_1d f rho) i * rho = smooth_table k n D' (read_1d f rho') i * rho'.
Proof.
  intros HR HR' HD HD'. unfold smooth_table. induction k as [|k IH]; intros i.
  - change (read_1d f rho i * rho = read_1d f rho' i * rho'). unfold read_1d. destruct (nth_error f i) as [v|]; [|lra]. transitivity v; field; lra.
  - rewrite !loop_S. rewrite !smooth_at by assumption. set (u := loop 0 k _ (read_1d f rho)) in *. set (v := loop 0 k _ (read_1d f rho')) in *. clearbody u v.
    pose proof (IH i) as I0. pose proof (IH (i + 1)%nat) as I1. pose proof (IH (i - 1)%nat) as I2. destruct (Nat.leb 1 i && Nat.ltb (i + 1) n); [|exact I0].
    rewrite !Rmult_plus_distr_r. rewrite I0. f_equal. rewrite !Rmult_assoc, !Rmult_plus_distr_r. unfold Rminus. rewrite !Rmult_plus_distr_r, I1, I2. f_equal. f_equal. f_equal.
    replace (- (2 * u i) * rho) with (- 2 * (u i * rho)) by ring. rewrite I0. ring.
Qed.

(** The table of a run, in kg/m3, does not depend on the units the run is computed in. *)
Theorem C113_units : forall f rho sS rho' sS', 0 < rho -> 0 < sS -> 0 < rho' -> 0 < sS' ->
  exists a b, table_1d (Some f) rho sS = Some a /\ table_1d (Some f) rho' sS' = Some b /\ forall i, a i * rho = b i * rho'.
Proof.
  intros f rho sS rho' sS' HR HS HR' HS'. pose proof (step_1d_pos sS HS) as D. pose proof (step_1d_pos sS' HS') as D'.
  eexists. eexists. split; [reflexivity|]. split; [reflexivity|]. apply smooth_units; lra.
Qed.
Print Assumptions C113_units.

Lemma some_inj {A} (x y : A) : Some x = Some y -> x = y. Proof. congruence. Qed.
Lemma C113_aux P mn mx n data lo hi : mn < mx -> (2 <= n)%Z -> P <> mn -> (forall k, (0 <= k < n)%Z -> lo <= data k <= hi) ->
  exists r, table1 P mn mx n data = Some r /\ lo <= r <= hi.
Proof.
  intros H N NP D. destruct (C63_outside_clamped P P mn mx mn mx n n data H H N N NP NP) as (_ & _ & E).
  destruct (clamped_in mn mx n P H N NP) as [C _]. rewrite E. set (Q := clamped mn mx n P) in *. clearbody Q.
  destruct (located mn mx n Q H N ltac:(lra)) as [i B]. rewrite (C63_table1_linear Q mn mx n data i H N B ltac:(lra)).
  eexists. split; [reflexivity|]. destruct B as [Hi [B1 B2]]. destruct (step_pos mn mx n H N) as [S1 _].
  assert (F : 0 <= frac mn mx n i Q <= 1).
  { unfold frac, node in *. rewrite plus_IZR in B2. set (s := step mn mx n) in *. split.
    - apply Rmult_le_pos; [lra|left; apply Rinv_0_lt_compat; lra].
    - apply Rmult_le_reg_r with s; [lra|]. unfold Rdiv. rewrite Rmult_assoc, Rinv_l by lra. lra. }
  set (w := frac mn mx n i Q) in *. clearbody w. pose proof (D i ltac:(lia)). pose proof (D (i + 1)%Z ltac:(lia)). split; nra.
Qed.
(** A complete table: at every pressure except exactly the lower end the density of the run is between the
    smallest and largest density of the file; the reader stops exactly when the file is missing. *)
Theorem C113_between : forall file rho sS, 0 < rho -> 0 < sS ->
  (table_1d file rho sS = None <-> file = None) /\
  forall f a lo hi P, file = Some f -> (n_1d <= length f)%nat -> plausible lo hi f -> table_1d file rho sS = Some a -> P <> pmin_1d sS ->
  exists r, table1 P (pmin_1d sS) (pmax_1d sS) (Z.of_nat n_1d) (fun i => a (Z.to_nat i)) = Some r /\ lo <= r * rho <= hi.
Proof.
  intros file rho sS HR HS. split; [destruct file; cbn; split; congruence|].
  intros f a lo hi P -> L V A NP. pose proof n_1d_ge as N. pose proof (step_1d_pos sS HS) as D.
  assert (I : 0 < / rho) by now apply Rinv_0_lt_compat.
  assert (B : forall i, (i < n_1d)%nat -> lo / rho <= a i <= hi / rho).
  { unfold table_1d in A. apply some_inj in A. rewrite <- A. refine (proj1 (proj2 (proj2 (C113_bounds steps_1d n_1d (step_1d sS) (read_1d f rho) (lo / rho) (hi / rho) _ N _)))); [lra|].
    intros i K. unfold read_1d. destruct (nth_error f i) as [v|] eqn:E; [|apply nth_error_None in E; lia]. destruct (V v (nth_error_In _ _ E)). unfold Rdiv. split; apply Rmult_le_compat_r; lra. }
  clear A.
  assert (O : pmin_1d sS < pmax_1d sS).
  { unfold pmin_1d, pmax_1d, Rdiv. apply Rmult_lt_compat_r; [now apply Rinv_0_lt_compat|]. cbn [pow]. lra. }
  generalize dependent n_1d. intros n L N B.
  destruct (C113_aux P (pmin_1d sS) (pmax_1d sS) (Z.of_nat n) (fun i => a (Z.to_nat i)) (lo / rho) (hi / rho) O ltac:(lia) NP) as (r & E & X).
  { intros k K. apply B. lia. }
  exists r. split; [exact E|]. assert (Y : forall x, x / rho * rho = x) by (intros; field; lra). rewrite <- (Y lo), <- (Y hi). split; apply Rmult_le_compat_r; lra.
Qed.
Print Assumptions C113_between.

(** Refuted: a short file is refused here. The missing densities are zero, so the density at the highest
    pressure is zero. *)
Theorem C113_short_file_refuted : forall f rho sS, (length f < n_1d)%nat -> 0 < sS ->
  exists a, table_1d (Some f) rho sS = Some a /\ a (n_1d - 1)%nat = 0 /\
  table1 (pmax_1d sS) (pmin_1d sS) (pmax_1d sS) (Z.of_nat n_1d) (fun i => a (Z.to_nat i)) = Some 0.
Proof.
  intros f rho sS L HS. pose proof (step_1d_pos sS HS) as D. pose proof n_1d_ge as N.
  assert (O : pmin_1d sS < pmax_1d sS).
  { unfold pmin_1d, pmax_1d, Rdiv. apply Rmult_lt_compat_r; [now apply Rinv_0_lt_compat|]. cbn [pow]. lra. }
  eexists. split; [reflexivity|]. set (a := smooth_table _ _ _ _).
  assert (A : a (n_1d - 1)%nat = 0).
  { assert (X : exists M, forall i, (i < n_1d)%nat -> - M <= read_1d f rho i <= M).
    { generalize n_1d as n. intros n. induction n as [|n (M & HM)]; [exists 0; intros; lia|].
      exists (Rmax M (Rabs (read_1d f rho n))). intros i I. pose proof (Rmax_l M (Rabs (read_1d f rho n))). pose proof (Rmax_r M (Rabs (read_1d f rho n))).
      destruct (Nat.eq_dec i n) as [->|K]; [|specialize (HM i ltac:(lia)); lra].
      pose proof (Rle_abs (read_1d f rho n)). pose proof (Rle_abs (- read_1d f rho n)). rewrite Rabs_Ropp in *. lra. }
    destruct X as (M & HM). destruct (C113_bounds steps_1d n_1d (step_1d sS) (read_1d f rho) (- M) M ltac:(lra) N HM) as (_ & E & _). unfold a. rewrite E.
    unfold read_1d. replace (nth_error f (n_1d - 1)) with (@None R); [reflexivity|]. symmetry. apply nth_error_None. lia. }
  clearbody a. split; [exact A|]. generalize dependent n_1d. intros n L N A.
  destruct (step_pos (pmin_1d sS) (pmax_1d sS) (Z.of_nat n) O ltac:(lia)) as (S1 & S2 & S3 & S4).
  assert (BP : between_nodes (pmin_1d sS) (pmax_1d sS) (Z.of_nat n) (Z.of_nat n - 2) (pmax_1d sS)).
  { split; [lia|]. unfold node. replace (Z.of_nat n - 2 + 1)%Z with (Z.of_nat n - 1)%Z by lia. rewrite !minus_IZR. set (s := step _ _ _) in *. nra. }
  rewrite (C63_table1_linear _ (pmin_1d sS) (pmax_1d sS) (Z.of_nat n) _ (Z.of_nat n - 2) O ltac:(lia) BP ltac:(lra)). f_equal.
  replace (frac (pmin_1d sS) (pmax_1d sS) (Z.of_nat n) (Z.of_nat n - 2) (pmax_1d sS)) with 1.
  - replace (Z.to_nat (Z.of_nat n - 2 + 1)) with (n - 1)%nat by lia. rewrite A. ring.
  - unfold frac, node. rewrite minus_IZR. set (s := step _ _ _) in *. clearbody s. rewrite S3. field. lra.
Qed.
Print Assumptions C113_short_file_refuted.

(** One step on the jump 0 0 1 1 gives 0, 10/21, 11/21, 1; a second one 120/441 at the second entry. *)
Example C113_ex : let a := fun i => if Nat.leb 2 i then 1 else 0 in let b := smooth_table 1 4 7 a in
  b 0%nat = 0 /\ b 1%nat = 10 / 21 /\ b 2%nat = 11 / 21 /\ b 3%nat = 1 /\ smooth_table 2 4 7 a 1%nat = 120 / 441.
Proof.
  cbv zeta. set (a := fun i => _). change (smooth_table 1 4 7 a) with (smooth_step 4 7 a). change (smooth_table 2 4 7 a) with (smooth_step 4 7 (smooth_step 4 7 a)).
  unfold a. repeat split; repeat (rewrite !smooth_at by lra; cbn [Nat.leb Nat.ltb andb Nat.add Nat.sub]); lra.
Qed.
