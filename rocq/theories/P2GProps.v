(** C50: interpolation from markers to the grid. *)
From Coq Require Import ZArith Reals List Bool Lia Lra Psatz.
Import ListNotations.
From Verif Require Import P2GModel P2GProofs.
Local Open Scope R_scope.

Section Grid.
Variables (f : family) (Nx Nz : Z) (xmin zmin dx dz : R).
Hypotheses (HNx : (2 <= Nx)%Z) (HNz : (2 <= Nz)%Z) (Hdx : 0 < dx) (Hdz : 0 < dz).
Let g := family_nodes f Nx Nz xmin zmin dx dz.
Let xmax := xmin + (IZR Nx - 1) * dx.
Let zmax := zmin + (IZR Nz - 1) * dz.

(** The reach of a marker in node (i,j) as an independent formula: product of hat
    functions of half width dx/2 (1-cell) or 3dx/2 (9-cell); with lateral
    periodicity the images one period away (number of columns times dx) count. *)
Definition spec_weight (s : stencil) (per : bool) (i j : Z) (m : marker) : R :=
  if (mph m =? -1)%Z then 0
  else let hx := half_width s dx in let hz := half_width s dz in
       if per then hat_weight_periodic (IZR (gNx g) * dx) hx hz (gX g i) (gZ g j) (mx m) (mz m)
       else hat_weight hx hz (gX g i) (gZ g j) (mx m) (mz m).

Definition markers_inside (ms : list marker) : Prop :=
  forall m, In m ms -> active m -> in_domain xmin xmax zmin zmax m.

Lemma weight_spec : forall s per i j m, (active m -> in_domain xmin xmax zmin zmax m) ->
  (0 <= i < gNx g)%Z -> (0 <= j < gNz g)%Z ->
  marker_weight s per g (i + j * gNx g)%Z m = spec_weight s per i j m.
Proof.
  intros s per i j m D Hi Hj. unfold spec_weight.
  destruct (Z.eqb_spec (mph m) (-1)) as [E|E].
  - unfold marker_weight. now rewrite E.
  - rewrite (marker_weight_hat s per g m i j); auto.
    + destruct f; reflexivity.
    + now apply family_uniform.
    + apply family_covers; auto.
Qed.

Theorem C50_weights_are_hat_functions : forall s per ms i j, markers_inside ms ->
  (0 <= i < gNx g)%Z -> (0 <= j < gNz g)%Z ->
  WM s per g ms (i + j * gNx g)%Z = sumR (spec_weight s per i j) ms /\
  forall a, BMWM a s per g ms (i + j * gNx g)%Z = sumR (fun m => fwd a (mval m) * spec_weight s per i j m) ms.
Proof.
  intros s per ms i j D Hi Hj. split; [|intros a]; apply sumR_ext; intros m Hm; rewrite weight_spec; auto.
Qed.

Lemma spec_nonneg : forall s per i j m, 0 <= spec_weight s per i j m.
Proof.
  intros s per i j m. unfold spec_weight. destruct (_ =? _)%Z; [lra|]. cbv zeta.
  destruct per; unfold hat_weight, hat_weight_periodic;
    repeat apply Rmult_le_pos || apply Rplus_le_le_0_compat || apply hat_nonneg.
Qed.

(** Every updated value lies between the extreme values of the markers that reach
    the node, for the three kinds of averaging (the last two for positive values). *)
Theorem C50_value_between_reaching_markers : forall a s per ms i j tag old lo hi, markers_inside ms ->
  (0 <= i < gNx g)%Z -> (0 <= j < gNz g)%Z -> tag <> 30%Z -> tag <> 31%Z ->
  / 10 ^ 30 <= sumR (spec_weight s per i j) ms ->
  a = Arithmetic \/ 0 < lo ->
  (forall m, In m ms -> 0 < spec_weight s per i j m -> lo <= mval m <= hi) ->
  lo <= node_value a s per g ms tag old (i + j * gNx g)%Z <= hi.
Proof.
  intros a s per ms i j tag old lo hi D Hi Hj T1 T2 Big Pos B.
  destruct (C50_weights_are_hat_functions s per ms i j D Hi Hj) as (EW & EB).
  unfold node_value. rewrite EB, EW. set (w := spec_weight s per i j) in *.
  assert (tp : 0 < tiny) by (unfold tiny; apply Rinv_0_lt_compat, pow_lt; lra).
  change (/ 10 ^ 30) with tiny in Big.
  destruct (Rlt_dec _ tiny) as [L|_]; [rewrite Rabs_right in L by lra; lra|].
  replace (tag =? 30)%Z with false by (symmetry; now apply Z.eqb_neq).
  replace (tag =? 31)%Z with false by (symmetry; now apply Z.eqb_neq). cbn [orb].
  assert (Wn : forall x, In x ms -> 0 <= w x) by (intros; apply spec_nonneg).
  assert (S : 0 < sumR w ms) by lra.
  destruct a; cbn [bwd].
  - apply mean_between; assumption.
  - destruct Pos as [Pos|Pos]; [discriminate|].
    assert (hp : 0 < hi).
    { destruct (Rlt_le_dec 0 hi) as [|hl]; [assumption|].
      assert (Z0 : sumR w ms <= 0); [|lra].
      clear - hl Pos B Wn. induction ms as [|x l IH]; [cbn; lra|]. rewrite sumR_cons.
      destruct (Rle_lt_or_eq_dec 0 (w x) (Wn x (or_introl eq_refl))) as [Q|Q].
      + assert (Bx := B x (or_introl eq_refl) Q). lra.
      + rewrite <- Q. assert (sumR w l <= 0) by (apply IH; intros; [apply B|apply Wn]; try assumption; now right). lra. }
    assert (K : / hi <= sumR (fun m => fwd Harmonic (mval m) * w m) ms / sumR w ms <= / lo).
    { apply mean_between; try assumption. intros x Hx Wx. destruct (B x Hx Wx). cbn. unfold Rdiv. rewrite Rmult_1_l.
      split; apply Rinv_le_contravar; lra. }
    set (q := _ / _) in *. assert (0 < / hi) by now apply Rinv_0_lt_compat.
    unfold Rdiv. rewrite Rmult_1_l. rewrite <- (Rinv_inv lo), <- (Rinv_inv hi).
    split; apply Rinv_le_contravar; lra.
  - destruct Pos as [Pos|Pos]; [discriminate|].
    assert (hp : lo <= hi).
    { destruct (Rle_lt_dec lo hi) as [|hl]; [assumption|].
      assert (Z0 : sumR w ms <= 0); [|lra].
      clear - hl Pos B Wn. induction ms as [|x l IH]; [cbn; lra|]. rewrite sumR_cons.
      destruct (Rle_lt_or_eq_dec 0 (w x) (Wn x (or_introl eq_refl))) as [Q|Q].
      + assert (Bx := B x (or_introl eq_refl) Q). lra.
      + rewrite <- Q. assert (sumR w l <= 0) by (apply IH; intros; [apply B|apply Wn]; try assumption; now right). lra. }
    assert (K : ln lo <= sumR (fun m => fwd Geometric (mval m) * w m) ms / sumR w ms <= ln hi).
    { apply mean_between; try assumption. intros x Hx Wx. destruct (B x Hx Wx) as (B1 & B2). cbn.
      split; destruct (Rle_lt_or_eq_dec _ _ B1), (Rle_lt_or_eq_dec _ _ B2);
      try (left; apply ln_increasing; lra); try (right; congruence); try (right; f_equal; congruence). }
    set (q := _ / _) in *. rewrite <- (exp_ln lo), <- (exp_ln hi) by lra.
    destruct K as (K1 & K2). split;
    [destruct (Rle_lt_or_eq_dec _ _ K1) as [Q|Q]|destruct (Rle_lt_or_eq_dec _ _ K2) as [Q|Q]];
    solve [left; now apply exp_increasing | right; now rewrite Q].
Qed.

(** A node that no marker reaches, or an air node, keeps its value. *)
Theorem C50_unreached_node_unchanged : forall a s per ms i j tag old, markers_inside ms ->
  (0 <= i < gNx g)%Z -> (0 <= j < gNz g)%Z ->
  (forall m, In m ms -> spec_weight s per i j m = 0) \/ tag = 30%Z \/ tag = 31%Z ->
  node_value a s per g ms tag old (i + j * gNx g)%Z = old.
Proof.
  intros a s per ms i j tag old D Hi Hj H. unfold node_value.
  destruct (Rlt_dec _ _) as [|N]; [reflexivity|]. destruct H as [H|[-> | ->]]; [|reflexivity..].
  elim N. destruct (C50_weights_are_hat_functions s per ms i j D Hi Hj) as (EW & _). rewrite EW.
  rewrite (sumR_ext _ _ (fun _ => 0)) by exact H. rewrite sumR_zero, Rabs_R0.
  unfold tiny. apply Rinv_0_lt_compat, pow_lt. lra.
Qed.

(** Phase proportions are fractions of one. *)
Theorem C50_phase_fractions_sum_to_one : forall s per ms i j tag (nph : nat), markers_inside ms ->
  (0 <= i < gNx g)%Z -> (0 <= j < gNz g)%Z -> tag <> 30%Z -> tag <> 31%Z ->
  / 10 ^ 30 <= sumR (spec_weight s per i j) ms ->
  (forall m, In m ms -> active m -> (0 <= mph m < Z.of_nat nph)%Z) ->
  (forall p, 0 <= phase_fraction s per g ms tag p (i + j * gNx g)%Z <= 1) /\
  sumR (fun p => phase_fraction s per g ms tag (Z.of_nat p) (i + j * gNx g)%Z) (seq 0 nph) = 1.
Proof.
  intros s per ms i j tag nph D Hi Hj T1 T2 Big Ph.
  destruct (C50_weights_are_hat_functions s per ms i j D Hi Hj) as (EW & _).
  set (k := (i + j * gNx g)%Z) in *. set (w := spec_weight s per i j) in *.
  assert (tp : 0 < tiny) by (unfold tiny; apply Rinv_0_lt_compat, pow_lt; lra).
  change (/ 10 ^ 30) with tiny in Big.
  assert (S : 0 < sumR w ms) by lra.
  assert (PW : forall p, phase_weight s per g ms p k = sumR (fun m => if (mph m =? p)%Z then w m else 0) ms).
  { intros p. apply sumR_ext. intros m Hm. destruct (_ =? _)%Z; [|reflexivity]. unfold k. rewrite weight_spec; auto. }
  assert (PF : forall p, phase_fraction s per g ms tag p k = sumR (fun m => if (mph m =? p)%Z then w m else 0) ms / sumR w ms).
  { intros p. unfold phase_fraction. rewrite EW, PW. destruct (Rlt_dec _ tiny) as [L|_]; [rewrite Rabs_right in L by lra; lra|].
    replace (tag =? 30)%Z with false by (symmetry; now apply Z.eqb_neq).
    replace (tag =? 31)%Z with false by (symmetry; now apply Z.eqb_neq). reflexivity. }
  assert (Wn : forall x, 0 <= w x) by (intros; apply spec_nonneg).
  split.
  - intros p. rewrite PF.
    assert (0 <= sumR (fun m => if (mph m =? p)%Z then w m else 0) ms <= sumR w ms).
    { split.
      - apply sumR_nonneg. intros x _. destruct (_ =? _)%Z; [apply Wn|lra].
      - assert (E : sumR w ms = sumR (fun m => if (mph m =? p)%Z then w m else 0) ms + sumR (fun m => if (mph m =? p)%Z then 0 else w m) ms).
        { rewrite <- sumR_plus. apply sumR_ext. intros x _. destruct (_ =? _)%Z; lra. }
        rewrite E. assert (0 <= sumR (fun m => if (mph m =? p)%Z then 0 else w m) ms); [|lra].
        apply sumR_nonneg. intros x _. destruct (_ =? _)%Z; [lra|apply Wn]. }
    split; apply Rmult_le_reg_r with (sumR w ms); try exact S;
      replace (_ / _ * _) with (sumR (fun m => if (mph m =? p)%Z then w m else 0) ms) by (field; lra); lra.
  - rewrite (sumR_ext _ _ (fun p => sumR (fun m => if (mph m =? Z.of_nat p)%Z then w m * / sumR w ms else 0) ms)).
    + rewrite sumR_swap. rewrite (sumR_ext _ _ (fun m => w m * / sumR w ms)).
      * clear -S. set (q := sumR w ms) in *.
        assert (K : forall l, sumR (fun m => w m * / q) l = sumR w l * / q).
        { induction l as [|x l IH]; [cbn; lra|]. rewrite !sumR_cons, IH. ring. }
        rewrite K. unfold q. field. fold q. lra.
      * intros m Hm. destruct (Z.eq_dec (mph m) (-1)) as [E|E].
        { assert (Z0 : w m = 0) by (unfold w, spec_weight; now rewrite E).
          rewrite Z0, Rmult_0_l. rewrite (sumR_ext _ _ (fun _ => 0)); [apply sumR_zero|].
          intros x _. destruct (_ =? _)%Z; lra. }
        assert (R := Ph m Hm E). set (c := w m * / sumR w ms). clearbody c.
        assert (K : forall n st, sumR (fun p => if (mph m =? Z.of_nat p)%Z then c else 0) (seq st n) =
           if (Z.of_nat st <=? mph m)%Z && (mph m <? Z.of_nat (st + n))%Z then c else 0).
        { induction n as [|n IH]; intros st; cbn [seq].
          - destruct (Z.leb_spec (Z.of_nat st) (mph m)), (Z.ltb_spec (mph m) (Z.of_nat (st + 0))); cbn; try lia; reflexivity.
          - rewrite sumR_cons, IH.
            destruct (Z.eqb_spec (mph m) (Z.of_nat st)), (Z.leb_spec (Z.of_nat (Datatypes.S st)) (mph m)),
              (Z.ltb_spec (mph m) (Z.of_nat (Datatypes.S st + n))), (Z.leb_spec (Z.of_nat st) (mph m)),
              (Z.ltb_spec (mph m) (Z.of_nat (st + Datatypes.S n))); cbn; try lia; lra. }
        rewrite K. destruct (Z.leb_spec (Z.of_nat 0) (mph m)), (Z.ltb_spec (mph m) (Z.of_nat (0 + nph))); cbn; try lia; reflexivity.
    + intros p _. rewrite PF. unfold Rdiv.
      assert (K : forall l, sumR (fun m => if (mph m =? Z.of_nat p)%Z then w m else 0) l * / sumR w ms =
        sumR (fun m => if (mph m =? Z.of_nat p)%Z then w m * / sumR w ms else 0) l).
      { induction l as [|x l IH]; [cbn; lra|]. rewrite !sumR_cons, <- IH. destruct (_ =? _)%Z; lra. }
      apply K.
Qed.
End Grid.
Print Assumptions C50_weights_are_hat_functions.
Print Assumptions C50_value_between_reaching_markers.
Print Assumptions C50_unreached_node_unchanged.
Print Assumptions C50_phase_fractions_sum_to_one.

(** The result does not depend on how many threads share the markers. *)
Theorem C50_thread_count_irrelevant : forall s per g ms nthreads k,
  (forall p, In p ms -> (fst p < nthreads)%nat) ->
  WM_threads s per g ms nthreads k = WM s per g (map snd ms) k.
Proof.
  intros s per g ms n k H. unfold WM_threads, WM. rewrite sumR_swap.
  induction ms as [|[t m] ms IH]; [reflexivity|]. cbn [map]. rewrite !sumR_cons. f_equal.
  - cbn [fst snd]. assert (T := H _ (or_introl eq_refl)). cbn [fst] in T. set (c := marker_weight _ _ _ _ _). clearbody c.
    assert (K : forall n st, sumR (fun u => if Nat.eqb t u then c else 0) (seq st n) =
        if Nat.leb st t && Nat.ltb t (st + n) then c else 0).
    { clear. induction n as [|n IH]; intros st; cbn [seq].
      - destruct (Nat.leb_spec st t), (Nat.ltb_spec t (st + 0)); cbn; try lia; reflexivity.
      - rewrite sumR_cons, IH. destruct (Nat.eqb_spec t st), (Nat.leb_spec (S st) t), (Nat.ltb_spec t (S st + n)),
          (Nat.leb_spec st t), (Nat.ltb_spec t (st + S n)); cbn; try lia; lra. }
    rewrite K. destruct (Nat.leb_spec 0 t), (Nat.ltb_spec t (0 + n)); cbn; try lia; reflexivity.
  - apply IH. intros; apply H; now right.
Qed.
Print Assumptions C50_thread_count_irrelevant.

(** With periodic sides both lateral vertex columns receive their mean, so the two
    copies of the same place agree; nothing else changes, nor anything at cells. *)
Theorem C50_lateral_vertex_columns_agree : forall Nx field, (2 <= Nx)%Z -> let p := make_periodic Vertices true Nx field in
  (forall j, p 0%Z j = p (Nx - 1)%Z j /\ p 0%Z j = (field 0%Z j + field (Nx - 1)%Z j) / 2) /\
  (forall i j, (0 < i < Nx - 1)%Z -> p i j = field i j) /\
  (forall i j, make_periodic Vertices false Nx field i j = field i j /\ forall per, make_periodic Centroids per Nx field i j = field i j).
Proof.
  intros Nx field N p. subst p. cbn [make_periodic]. repeat split; intros.
  - cbn [Z.eqb orb]. rewrite Z.eqb_refl, orb_true_r. reflexivity.
  - cbn [Z.eqb orb]. lra.
  - destruct (Z.eqb_spec i 0); [lia|]. destruct (Z.eqb_spec i (Nx - 1)); [lia|]. reflexivity.
Qed.
Print Assumptions C50_lateral_vertex_columns_agree.

(** Periodic vertices: the column at xmax is the same place as the column at xmin,
    one period being (Nx-1) dx; the code wraps by Nx columns. A marker a quarter
    cell from the western side gives the eastern column the weight 1/6 instead of
    5/6, and misses the next column. *)
Theorem C50_periodic_vertices_refuted : exists Nx Nz dx dz m, (2 <= Nx)%Z /\ (2 <= Nz)%Z /\ 0 < dx /\ 0 < dz /\
  active m /\ in_domain 0 ((IZR Nx - 1) * dx) 0 ((IZR Nz - 1) * dz) m /\
  let g := family_nodes Vertices Nx Nz 0 0 dx dz in
  let right := fun i j => hat_weight_periodic ((IZR Nx - 1) * dx) (3 * dx / 2) (3 * dz / 2) (gX g i) (gZ g j) (mx m) (mz m) in
  marker_weight NineCell true g (Nx - 1 + 1 * gNx g)%Z m = 1 / 6 /\ right (Nx - 1)%Z 1%Z = 5 / 6 /\
  marker_weight NineCell true g (Nx - 2 + 1 * gNx g)%Z m = 0 /\ right (Nx - 2)%Z 1%Z = 1 / 6.
Proof.
  exists 5%Z, 3%Z, 1, 1, (Marker (1 / 4) 1 0 0).
  repeat split; try lia; try lra; try discriminate; try (cbn; lra).
  all: try rewrite (marker_weight_hat NineCell true) by
    first [apply family_uniform; (lia || lra) | discriminate | apply family_covers; try lia; try lra; split; cbn; lra | cbn; lia].
  all: cbn [gNx gX gZ gdx gdz family_nodes half_width mx mz]; unfold hat_weight_periodic, hat;
    repeat match goal with |- context [Rabs ?a] => unfold Rabs at 1; destruct (Rcase_abs a); try lra end;
    cbn in *; try lra;
    repeat match goal with |- context [Rmax ?a ?b] => unfold Rmax at 1; destruct (Rle_dec a b); try lra end.
Qed.
Print Assumptions C50_periodic_vertices_refuted.

(** *** A node reached by two markers of different phases *)
Ltac absmax :=
  repeat match goal with |- context [Rabs ?a] => first [rewrite (Rabs_right a) by lra | rewrite (Rabs_left a) by lra] end;
  repeat match goal with |- context [Rmax ?a ?b] => first [rewrite (Rmax_right a b) by lra | rewrite (Rmax_left a b) by lra] end.
Definition ms_ex := [Marker (3 / 10) (4 / 10) 0 10; Marker (12 / 10) (9 / 10) 1 20; Marker 5 5 (-1) 7].
Example C50_ex : markers_inside 4 4 0 0 1 1 ms_ex /\
  / 10 ^ 30 <= sumR (spec_weight Centroids 4 4 0 0 1 1 NineCell false 0 0) ms_ex /\
  (forall m, In m ms_ex -> 0 < spec_weight Centroids 4 4 0 0 1 1 NineCell false 0 0 m -> 10 <= mval m <= 20) /\
  (forall m, In m ms_ex -> active m -> (0 <= mph m < Z.of_nat 2)%Z).
Proof.
  repeat split.
  all: try (destruct H as [<-|[<-|[<-|[]]]]; cbn in *; try lia; try lra; try (elim H0; reflexivity)).
  unfold ms_ex, sumR, spec_weight, hat_weight, hat. cbn [fold_right mph Z.eqb gX gZ family_nodes mx mz half_width].
  absmax. cbn [Pos.eqb].
  apply Rle_trans with (/ 10 ^ 1); [apply Rinv_le_contravar; [lra|apply Rle_pow; [lra|lia]]|]. cbn [pow]. lra.
Qed.
