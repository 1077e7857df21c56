(** C105: the surface at the start of a run. *)
From Coq Require Import List ZArith Reals Bool Arith Lia Lra.
Import ListNotations.
From Verif Require Import GridModel GridProofs P2GModel P2GProofs AdvModel AdvProofs FlagModel SurfModel SurfProofs SurfProps InitModel InitProofs.
Local Open Scope R_scope.

(** Every column gets 23 evenly spaced markers, none on a side of a column, all inside
    the storage. *)
Theorem C105_chain_covers_every_column : forall ncx xmin dx, dx > 0 ->
  let c := chain_start ncx xmin dx in
  nb c = (23 * ncx)%nat /\ (nb c <= chain_capacity (ncx + 1))%nat /\
  (forall i j, (i < ncx)%nat -> (j < 23)%nat ->
     chx c (i * 23 + j) = xmin + INR i * dx + (INR j + / 2) * (dx / 23) /\
     xmin + INR i * dx < chx c (i * 23 + j) < xmin + INR (i + 1) * dx) /\
  (forall k, chz c k = 0 /\ chz0 c k = 0 /\ chp c k = 0%Z).
Proof.
  intros ncx xmin dx D c. unfold c. split; [cbn [nb chain_start]; lia|]. split; [cbn [nb chain_start]; unfold chain_capacity; lia|]. split; [|auto].
  intros i j I J. rewrite chain_x. rewrite plus_INR. cbn [INR].
  assert (J1 : 0 <= INR j <= 22) by (split; [apply pos_INR|replace 22 with (INR 22) by (cbn; lra); apply le_INR; lia]).
  split; [field|]. assert (F : 0 < (INR j + / 2) / 23 < 1) by lra. set (f := _ / 23) in *. clearbody f. nra.
Qed.
Print Assumptions C105_chain_covers_every_column.
Example C105_chain_covers_every_column_ex : chx (chain_start 4 0 23) (2 * 23 + 11) = 57.5.
Proof. rewrite chain_x. cbn [INR]. lra. Qed.

(** Weight of marker [j] of column [i] in its own column. *)
Lemma start_weight ncx xmin dx zf pf L i j : dx > 0 -> (i < ncx)%nat -> (j < 23)%nat ->
  (forall f x, pf = Some f -> f x <> (-1)%Z) ->
  let c := build_topography zf pf L (chain_start ncx xmin dx) in
  let m := CM (chx c (i * 23 + j)) (chz c (i * 23 + j)) (chz0 c (i * 23 + j)) (chp c (i * 23 + j)) in
  on_chain m = true /\
  forall k, weight (xmin + dx / 2) dx k m = if Nat.eqb k i then 1 - 2 * Rabs (INR j - 11) / 23 else 0.
Proof.
  intros D I J P c m.
  assert (O : on_chain m = true).
  { unfold on_chain, m, c, build_topography. cbn [cph chp nb chain_start chx].
    destruct (Nat.ltb_spec (i * 23 + j) (ncx * 23)); [|lia]. destruct pf as [f|]; [|reflexivity].
    specialize (P f (xmin + dx / 23 / 2 + INR (i * 23 + j) * (dx / 23)) eq_refl). apply negb_true_iff, Z.eqb_neq. exact P. }
  split; [exact O|]. intros k. unfold weight. rewrite O. unfold m at 1 2. unfold c. cbn [cx build_topography chx andb].
  change (chx (build_topography zf pf L (chain_start ncx xmin dx))) with (chx (chain_start ncx xmin dx)).
  rewrite chain_column by assumption.
  destruct (Nat.eqb_spec k i) as [->|N].
  - rewrite Z.eqb_refl. rewrite chain_x.
    replace (xmin + dx / 2 + INR i * dx - (xmin + (INR i + (INR j + / 2) / 23) * dx)) with (- ((INR j - 11) * (dx / 23))) by field.
    rewrite Rabs_Ropp, Rabs_mult, (Rabs_right (dx / 23)) by lra. field. lra.
  - destruct (Z.eqb_spec (Z.of_nat i) (Z.of_nat k)); [lia|reflexivity].
Qed.

Lemma column_sum ncx xmin dx zf pf L (g : cmark -> R) k : dx > 0 -> (k < ncx)%nat ->
  (forall f x, pf = Some f -> f x <> (-1)%Z) ->
  let c := build_topography zf pf L (chain_start ncx xmin dx) in
  let m j := CM (chx c j) (chz c j) (chz0 c j) (chp c j) in
  sum (map (fun m => g m * weight (xmin + dx / 2) dx k m) (marks c)) =
  sum (map (fun j => g (m (k * 23 + j)%nat) * (1 - 2 * Rabs (INR j - 11) / 23)) (seq 0 23)).
Proof.
  intros D K P c m. unfold marks. rewrite map_map. change (nb c) with (ncx * 23)%nat.
  rewrite sum_blocks.
  rewrite (sum_single _ k ncx K).
  - f_equal. apply map_ext_in. intros j J. apply in_seq in J. f_equal.
    destruct (start_weight ncx xmin dx zf pf L k j D K ltac:(lia) P) as [_ W]. specialize (W k). rewrite Nat.eqb_refl in W. exact W.
  - intros i N. destruct (Nat.lt_ge_cases i ncx) as [I|I].
    + transitivity (sum (map (fun _ : nat => 0) (seq 0 23))).
      * f_equal. apply map_ext_in. intros j J. apply in_seq in J.
        destruct (start_weight ncx xmin dx zf pf L i j D I ltac:(lia) P) as [_ W]. specialize (W k).
        destruct (Nat.eqb_spec k i) as [E|_] in W; [lia|]. cbv zeta in W. unfold c. rewrite W. ring.
      * cbn. lra.
    + (* beyond the chain: not reached by [sum_single], but the statement is for all i *)
      transitivity (sum (map (fun _ : nat => 0) (seq 0 23))); [|cbn; lra].
      f_equal. apply map_ext_in. intros j J. apply in_seq in J. unfold weight.
      cbn [cx]. change (chx c) with (chx (chain_start ncx xmin dx)). rewrite chain_column by (auto; lia).
      destruct (Z.eqb_spec (Z.of_nat i) (Z.of_nat k)); [lia|]. rewrite andb_false_r. ring.
Qed.

Lemma abs11 n : Rabs (INR n - 11) = IZR (Z.abs (Z.of_nat n - 11)).
Proof. rewrite INR_IZR_INZ. replace 11 with (IZR 11) by reflexivity. rewrite <- minus_IZR, abs_IZR. reflexivity. Qed.

Lemma start_total ncx xmin dx zf pf L k : dx > 0 -> (k < ncx)%nat ->
  (forall f x, pf = Some f -> f x <> (-1)%Z) ->
  Wm (xmin + dx / 2) dx (marks (build_topography zf pf L (chain_start ncx xmin dx))) k = 265 / 23.
Proof.
  intros D K P. unfold Wm.
  rewrite (map_ext (weight (xmin + dx / 2) dx k) (fun m => (fun _ => 1) m * weight (xmin + dx / 2) dx k m)) by (intros; ring).
  rewrite (column_sum ncx xmin dx zf pf L (fun _ => 1) k D K P).
  rewrite (map_ext _ (fun j => 1 - 2 * IZR (Z.abs (Z.of_nat j - 11)) / 23)) by (intros; rewrite abs11; ring).
  cbn [seq map sum fold_right]. cbn -[IZR]. lra.
Qed.

Lemma covered ncx xmin dx zf pf L k : dx > 0 -> (k < ncx)%nat -> (forall f x, pf = Some f -> f x <> (-1)%Z) ->
  tiny <= Wm (xmin + dx / 2) dx (marks (build_topography zf pf L (chain_start ncx xmin dx))) k.
Proof.
  intros D K P. rewrite start_total by assumption. unfold tiny. apply Rle_trans with 1; [|lra].
  rewrite <- Rinv_1. apply Rinv_le_contravar; [lra|]. apply pow_R1_Rle. lra.
Qed.

(** Whatever the user's surface, the heights of the vertices at the start lie within
    its range, with either way of updating the surface ([height0] starts at 0). *)
Theorem C105_heights_within_given_surface : forall nx update xmin dx zf pf L lo hi k,
  (3 <= nx)%nat -> dx > 0 -> (k < nx)%nat ->
  (forall f x, pf = Some f -> f x <> (-1)%Z) ->
  (forall x, xmin < x < xmin + INR (nx - 1) * dx -> lo <= match zf with Some f => f x | None => 1000 / L end <= hi) ->
  lo <= topo_height nx update (xmin + dx / 2) dx
          (marks (build_topography zf pf L (chain_start (nx - 1) xmin dx))) (fun _ => 0) k <= hi.
Proof.
  intros nx update xmin dx zf pf L lo hi k N D K P B.
  pose proof (C53_heights_within_chain nx update xmin dx (marks (build_topography zf pf L (chain_start (nx - 1) xmin dx)))
    (fun _ => 0) lo hi k N D K) as H. cbv zeta in H.
  cbv beta iota in H. assert (Z0 : (if update then 0 else 0) = 0) by (now destruct update). rewrite Z0, !Rplus_0_l in H. apply H; clear H Z0.
  - intros c C. now apply covered.
  - intros m I _. unfold marks in I. apply in_map_iff in I. destruct I as (j & <- & J). apply in_seq in J.
    change (nb (build_topography zf pf L (chain_start (nx - 1) xmin dx))) with ((nx - 1) * 23)%nat in J.
    cbn [cz cz0]. unfold build_topography. cbn [chz chz0 chx nb chain_start].
    destruct (Nat.ltb_spec j ((nx - 1) * 23)); [|lia].
    assert (X : xmin < xmin + dx / 23 / 2 + INR j * (dx / 23) < xmin + INR (nx - 1) * dx).
    { assert (J1 : 0 <= INR j) by apply pos_INR. assert (J2 : INR j + 1 <= INR (nx - 1) * 23).
      { replace 23 with (INR 23) by (cbn; lra). rewrite <- mult_INR, <- S_INR. apply le_INR. lia. }
      set (q := dx / 23) in *. assert (Q : dx = 23 * q) by (unfold q; field). assert (0 < q) by (unfold q; lra).
      rewrite Q. clearbody q. nra. }
    specialize (B _ X). destruct update; destruct zf; lra.
Qed.
Print Assumptions C105_heights_within_given_surface.

(** A plane surface of any slope is reproduced at the inner vertices. *)
Theorem C105_plane_surface_reproduced : forall nx update xmin dx a b pf L k,
  (3 <= nx)%nat -> dx > 0 -> (1 <= k < nx - 1)%nat ->
  (forall f x, pf = Some f -> f x <> (-1)%Z) ->
  topo_height nx update (xmin + dx / 2) dx
    (marks (build_topography (Some (fun x => a + b * x)) pf L (chain_start (nx - 1) xmin dx))) (fun _ => 0) k
  = a + b * (xmin + INR k * dx).
Proof.
  intros nx update xmin dx a b pf L k N D K P.
  assert (A : forall c, (c < nx - 1)%nat -> delta update (xmin + dx / 2) dx
      (marks (build_topography (Some (fun x => a + b * x)) pf L (chain_start (nx - 1) xmin dx))) c = a + b * (xmin + (INR c + / 2) * dx)).
  { intros c C. unfold delta. assert (T := covered (nx - 1) xmin dx (Some (fun x => a + b * x)) pf L c D C P).
    unfold Rltb. destruct (Rlt_dec _ tiny); [lra|]. rewrite start_total by assumption. unfold BmWm.
    rewrite (column_sum (nx - 1) xmin dx (Some (fun x => a + b * x)) pf L (mark_val update) c D C P).
    rewrite (map_ext_in _ (fun j => (a + b * (xmin + (INR c + / 2) * dx) + b * dx / 23 * (IZR (Z.of_nat j - 11))) * (1 - 2 * IZR (Z.abs (Z.of_nat j - 11)) / 23))).
    - cbn [seq map sum fold_right]. cbn -[IZR]. field.
    - intros j J. apply in_seq in J. rewrite abs11. f_equal. unfold mark_val. cbn [cz cz0].
      unfold build_topography. cbn [chz chz0 nb chain_start]. destruct (Nat.ltb_spec (c * 23 + j) ((nx - 1) * 23)); [|lia].
      change (xmin + dx / 23 / 2 + INR (c * 23 + j) * (dx / 23)) with (chx (chain_start (nx - 1) xmin dx) (c * 23 + j)).
      rewrite chain_x, minus_IZR, <- INR_IZR_INZ. destruct update; field. }
  unfold topo_height. destruct (Nat.eqb_spec k (nx - 1)); [lia|]. destruct (Nat.eqb_spec k 0); [lia|]. unfold inner_height.
  rewrite !A by lia. rewrite minus_INR by lia. cbn [INR]. destruct update; field.
Qed.
Print Assumptions C105_plane_surface_reproduced.
Example C105_plane_surface_reproduced_ex :
  topo_height 5 true (0 + 2 / 2) 2 (marks (build_topography (Some (fun x => 10 + 3 * x)) None 1 (chain_start 4 0 2))) (fun _ => 0) 3 = 28.
Proof. rewrite C105_plane_surface_reproduced by (try lia; try lra; discriminate). cbn [INR]. lra. Qed.

(** At the two sides the height of the neighbouring vertex is used: a slope is cut off
    there from the start. *)
Theorem C105_sides_of_a_slope_refuted : exists nx xmin dx a b,
  (3 <= nx)%nat /\ dx > 0 /\
  topo_height nx false (xmin + dx / 2) dx
    (marks (build_topography (Some (fun x => a + b * x)) None 1 (chain_start (nx - 1) xmin dx))) (fun _ => 0) 0 <> a + b * xmin.
Proof.
  exists 4%nat, 0, 1, 0, 1. split; [lia|]. split; [lra|].
  change (topo_height 4 false ?x ?d ?l ?h 0) with (inner_height false x d l h 1).
  change (inner_height false ?x ?d ?l ?h 1) with (topo_height 4 false x d l h 1).
  rewrite C105_plane_surface_reproduced by (try lia; try lra; discriminate). cbn [INR]. lra.
Qed.
Print Assumptions C105_sides_of_a_slope_refuted.

(** Without a surface function the surface starts one kilometre above the zero level. *)
Theorem C105_default_surface : forall nx update xmin dx L k,
  (3 <= nx)%nat -> dx > 0 -> (k < nx)%nat ->
  topo_height nx update (xmin + dx / 2) dx
    (marks (build_topography None None L (chain_start (nx - 1) xmin dx))) (fun _ => 0) k = 1000 / L.
Proof.
  intros nx update xmin dx L k N D K.
  pose proof (C105_heights_within_given_surface nx update xmin dx None None L (1000 / L) (1000 / L) k N D K ltac:(discriminate) ltac:(intros; lra)). lra.
Qed.
Print Assumptions C105_default_surface.

(** Phases of the markers of the chain: the user's choice at their position, else 0. *)
Theorem C105_markers_ask_the_user_at_their_position : forall ncx xmin dx zf pf L k, (k < 23 * ncx)%nat ->
  let c := build_topography zf pf L (chain_start ncx xmin dx) in
  let x := xmin + (INR k + / 2) * (dx / 23) in
  chx c k = x /\ chz0 c k = 0 /\
  chz c k = match zf with Some f => f x | None => 1000 / L end /\
  chp c k = match pf with Some f => f x | None => 0%Z end.
Proof.
  intros ncx xmin dx zf pf L k K c x.
  assert (X : chx c k = x) by (unfold c, x; cbn [chx build_topography chain_start]; field).
  split; [exact X|]. split; [reflexivity|]. rewrite <- X. unfold c. cbn [chz chp build_topography nb chain_start].
  destruct (Nat.ltb_spec k (ncx * 23)); [auto|lia].
Qed.
Print Assumptions C105_markers_ask_the_user_at_their_position.
