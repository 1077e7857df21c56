(** * C53-C57: the surface chain, its remeshing, surface processes, clean-up *)
From Coq Require Import ZArith Reals List Bool Arith Lia Lra.
Import ListNotations.
From Verif Require Import GridModel GridProofs TimeStepModel P2GModel P2GProofs AdvModel FlagModel FlagProps SurfModel SurfProofs.
Local Open Scope R_scope.

(** ** C53: from the chain to the heights of the vertices *)

(** A marker strictly east of the western side and not beyond the eastern one
    belongs to an existing column, at most half a spacing from its centre. *)
Theorem C53_column_exists : forall ncx xmin dx x, dx > 0 -> xmin < x <= xmin + INR ncx * dx ->
  let c := column_raw (xmin + dx / 2) dx x in
  (0 <= c < Z.of_nat ncx)%Z /\ Rabs (xmin + dx / 2 + IZR c * dx - x) <= dx / 2.
Proof.
  intros ncx xmin dx x D X c. pose proof (column_raw_spec (xmin + dx / 2) dx x D) as S. cbv zeta in S. fold c in S.
  replace (xmin + dx / 2 - dx / 2) with xmin in S by lra.
  split; [split|apply Rabs_le; lra].
  - apply IZR_le_lt_1. apply Rmult_lt_reg_r with dx; lra.
  - apply lt_IZR. rewrite <- INR_IZR_INZ. apply Rmult_lt_reg_r with dx; lra.
Qed.
Print Assumptions C53_column_exists.
Example C53_column_exists_ex : 0 < 1 / 2 <= 0 + INR 3 * 1.
Proof. cbn [INR]. lra. Qed.

(** A marker exactly on the western side is inside the box for the remesher but
    belongs to column -1 here. *)
Theorem C53_west_side_refuted : forall xmin xmax dx, dx > 0 -> xmin <= xmax ->
  out_of_box xmin xmax xmin = false /\ column_raw (xmin + dx / 2) dx xmin = (-1)%Z.
Proof.
  intros xmin xmax dx D X. split.
  - unfold out_of_box. apply orb_false_iff. split; apply Rltb_false; lra.
  - pose proof (column_raw_spec (xmin + dx / 2) dx xmin D) as S. cbv zeta in S.
    set (c := column_raw _ _ _) in *. replace (xmin + dx / 2 - dx / 2) with xmin in S by lra.
    assert (c < 0)%Z by (apply lt_IZR; apply Rmult_lt_reg_r with dx; lra).
    assert (-1 <= c)%Z; [|lia]. apply IZR_le_lt_1.
    replace (IZR (-1)) with (-1) by reflexivity.
    apply Rmult_lt_reg_r with dx; [lra|]. nra.
Qed.
Print Assumptions C53_west_side_refuted.
Example C53_west_side_refuted_ex : 1 > 0 /\ 0 <= 3.
Proof. lra. Qed.

(** Every column covered: the heights stay within the range of the chain (total
    update) or move by an amount within the range of the moves (incremental). *)
Theorem C53_heights_within_chain : forall nx (update : bool) xmin dx l height0 lo hi k,
  (3 <= nx)%nat -> dx > 0 -> (k < nx)%nat ->
  (forall c, (c < nx - 1)%nat -> tiny <= Wm (xmin + dx / 2) dx l c) ->
  (forall m, In m l -> on_chain m = true -> lo <= (if update then cz m - cz0 m else cz m) <= hi) ->
  let k' := Nat.min (nx - 2) (Nat.max 1 k) in
  let base := if update then height0 k' else 0 in
  base + lo <= topo_height nx update (xmin + dx / 2) dx l height0 k <= base + hi.
Proof.
  intros nx update xmin dx l height0 lo hi k N D K W B k' base.
  assert (E : topo_height nx update (xmin + dx / 2) dx l height0 k = inner_height update (xmin + dx / 2) dx l height0 k').
  { unfold topo_height, k'. destruct (Nat.eqb_spec k (nx - 1)); [f_equal; lia|].
    destruct (Nat.eqb_spec k 0); f_equal; lia. }
  rewrite E. unfold inner_height.
  assert (A : forall c, (c < nx - 1)%nat -> lo <= delta update (xmin + dx / 2) dx l c <= hi).
  { intros c C. apply delta_bounds; auto. }
  assert (k' < nx - 1 /\ k' - 1 < nx - 1)%nat by (unfold k'; lia).
  pose proof (A k' ltac:(lia)). pose proof (A (k' - 1)%nat ltac:(lia)).
  unfold base. destruct update; lra.
Qed.
Print Assumptions C53_heights_within_chain.

(** A horizontal chain gives a horizontal surface; a uniform uplift of the chain
    uplifts every inner vertex by the same amount. *)
Theorem C53_uniform_motion : forall nx (update : bool) xmin dx l height0 v k,
  (3 <= nx)%nat -> dx > 0 -> (1 <= k < nx - 1)%nat ->
  (forall c, (c < nx - 1)%nat -> tiny <= Wm (xmin + dx / 2) dx l c) ->
  (forall m, In m l -> on_chain m = true -> (if update then cz m - cz0 m else cz m) = v) ->
  topo_height nx update (xmin + dx / 2) dx l height0 k = (if update then height0 k else 0) + v.
Proof.
  intros nx update xmin dx l height0 v k N D K W B.
  pose proof (C53_heights_within_chain nx update xmin dx l height0 v v k N D ltac:(lia) W) as H.
  cbv zeta in H. replace (Nat.min (nx - 2) (Nat.max 1 k)) with k in H by lia.
  assert (H' := H ltac:(intros m I C; rewrite (B m I C); lra)). lra.
Qed.
Print Assumptions C53_uniform_motion.

Lemma column_at_centre dx k : dx > 0 -> column_raw (0 + dx / 2) dx (dx / 2 + INR k * dx) = Z.of_nat k.
Proof.
  intro D. pose proof (column_raw_spec (0 + dx / 2) dx (dx / 2 + INR k * dx) D) as S. cbv zeta in S.
  set (c := column_raw _ _ _) in *.
  assert (c <= Z.of_nat k)%Z.
  { apply IZR_le_lt_1. rewrite <- INR_IZR_INZ. apply Rmult_lt_reg_r with dx; nra. }
  assert (Z.of_nat k <= c)%Z; [|lia].
  apply IZR_le_lt_1. rewrite <- INR_IZR_INZ. apply Rmult_lt_reg_r with dx; nra.
Qed.

(** Three columns with one marker at each centre, all at height 5. *)
Definition flat3 : list cmark := map (fun k => CM (1 / 2 + INR k * 1) 5 0 0) [0; 1; 2]%nat.
Lemma flat3_weight c : (c < 3)%nat -> Wm (0 + 1 / 2) 1 flat3 c = 1.
Proof.
  intro C. unfold Wm, flat3. cbn [map]. unfold weight, on_chain. cbn [cx cph Z.eqb negb andb].
  rewrite !column_at_centre by lra. destruct c as [|[|[|c]]]; [| | |lia]; cbn [Z.of_nat Pos.of_succ_nat Pos.succ Z.eqb Pos.eqb sum fold_right INR];
  match goal with |- context [Rabs ?a] => replace a with 0 by lra end; rewrite Rabs_R0; unfold Rdiv; lra.
Qed.
Example C53_heights_within_chain_ex :
  (forall c, (c < 4 - 1)%nat -> tiny <= Wm (0 + 1 / 2) 1 flat3 c) /\
  (forall m, In m flat3 -> on_chain m = true -> (if (false : bool) then cz m - cz0 m else cz m) = 5).
Proof.
  split.
  - intros c C. rewrite flat3_weight by lia. unfold tiny. apply Rmult_le_reg_r with (10 ^ 30).
    + apply pow_lt; lra.
    + rewrite Rinv_l by (apply pow_nonzero; lra). rewrite Rmult_1_l. rewrite <- (pow1 30) at 1. apply pow_incr. lra.
  - intros m I _. unfold flat3 in I. cbn [map In] in I. destruct I as [<-|[<-|[<-|[]]]]; reflexivity.
Qed.

(** Without a marker in the two columns next to a vertex the vertex drops to height
    zero, wherever the chain is (total update). *)
Theorem C53_empty_columns_refuted : forall nx xmin dx l height0 k, (3 <= nx)%nat -> (1 <= k < nx - 1)%nat ->
  (forall m, In m l -> column_raw (xmin + dx / 2) dx (cx m) <> Z.of_nat k /\
                       column_raw (xmin + dx / 2) dx (cx m) <> Z.of_nat (k - 1)) ->
  topo_height nx false (xmin + dx / 2) dx l height0 k = 0.
Proof.
  intros nx xmin dx l height0 k N K E. unfold topo_height.
  destruct (Nat.eqb_spec k (nx - 1)); [lia|]. destruct (Nat.eqb_spec k 0); [lia|]. unfold inner_height.
  assert (Z0 : forall c, (forall m, In m l -> column_raw (xmin + dx / 2) dx (cx m) <> Z.of_nat c) ->
     delta false (xmin + dx / 2) dx l c = 0).
  { intros c H. unfold delta. replace (Wm (xmin + dx / 2) dx l c) with 0.
    - replace (Rltb 0 tiny) with true; [reflexivity|]. symmetry. apply Rltb_true, tiny_pos.
    - unfold Wm. induction l as [|a l IH]; [reflexivity|]. cbn [map sum fold_right].
      unfold weight at 1. destruct (Z.eqb_spec (column_raw (xmin + dx / 2) dx (cx a)) (Z.of_nat c)) as [Q|Q].
      + exfalso. apply (H a (or_introl eq_refl) Q).
      + rewrite andb_false_r. rewrite Rplus_0_l. apply IH.
        * intros m I. apply E. right. exact I.
        * intros m I. apply H. right. exact I. }
  rewrite !Z0; [lra|intros m I; apply E, I|intros m I; apply E, I].
Qed.
Print Assumptions C53_empty_columns_refuted.
Example C53_empty_columns_refuted_ex :
  topo_height 5 false (0 + 1 / 2) 1 [CM (1 / 2) 5 0 0] (fun _ => 5) 2 = 0.
Proof.
  apply C53_empty_columns_refuted; try lia.
  intros m [<-|[]]. cbn [cx]. pose proof (column_at_centre 1 0 ltac:(lra)) as C. cbn [INR] in C.
  replace (1 / 2 + 0 * 1) with (1 / 2) in C by lra. rewrite C. split; discriminate.
Qed.

(** The coefficients kept for each column describe one continuous surface: the
    broken line through the heights of the vertices. *)
Theorem C53_surface_is_the_broken_line : forall ncx xmin dx xg h x z,
  (1 <= ncx)%nat -> dx > 0 -> (forall i, xg i = xmin + INR i * dx) -> xmin <= x <= xmin + INR ncx * dx ->
  z = grid_topo ncx xmin dx (fit_a dx h) (fit_b dx xg h) x <-> polyline ncx xmin dx h x z.
Proof.
  intros ncx xmin dx xg h x z N D G X.
  pose proof (grid_topo_polyline ncx xmin dx xg h x N D G X) as P. split.
  - intros ->. exact P.
  - intro Q. apply (polyline_unique ncx xmin dx h x); auto.
Qed.
Print Assumptions C53_surface_is_the_broken_line.
Example C53_surface_ex : polyline 2 0 1 (fun k => INR k) 1.5 1.5.
Proof. exists 1%nat, 0.5. cbn [INR Nat.add]. repeat split; try lra; lia. Qed.

(** ** C54: remeshing of the chain *)

(** After remeshing: markers inside the box are untouched; every half column that
    had fewer than four markers owns two new ones at its quarter points, on the
    surface; the chain does not outgrow its storage. *)
Theorem C54_remesh : forall ncx nmax xmin xmax dx surf surf0 c c',
  remesh1 ncx nmax xmin xmax dx surf surf0 c = Some c' ->
  let inside k := (k < nb c)%nat /\ xmin <= chx c k <= xmax in
  let number f := length (filter (fun k => negb (out_of_box xmin xmax (chx c k)) &&
                                   Nat.eqb (fine_column ncx xmin dx (chx c k)) f) (seq 0 (nb c))) in
  (nb c <= nb c')%nat /\ (nb c' = nb c \/ nb c' < nmax)%nat /\
  (forall k, inside k -> chx c' k = chx c k /\ chz c' k = chz c k /\ chz0 c' k = chz0 c k /\ chp c' k = 0%Z) /\
  (forall f, (f < 2 * ncx)%nat -> (number f < 4)%nat ->
     exists k1 k2, k1 <> k2 /\ (k1 < nb c')%nat /\ (k2 < nb c')%nat /\
       chx c' k1 = xmin + (INR f + 1 / 4) * (dx / 2) /\ chz c' k1 = surf (chx c' k1) /\ chz0 c' k1 = surf0 (chx c' k1) /\
       chx c' k2 = xmin + (INR f + 3 / 4) * (dx / 2) /\ chz c' k2 = surf (chx c' k2) /\ chz0 c' k2 = surf0 (chx c' k2)).
Proof.
  intros ncx nmax xmin xmax dx surf surf0 c c' H inside number.
  unfold remesh1 in H. cbv zeta in H. set (c1 := repase xmin xmax c) in *.
  destruct (loop 0 (2 * ncx) _ (Some (c1, reusable c1))) as [[u r]|] eqn:L; [|discriminate].
  cbn in H. injection H as ->.
  pose proof (fill_all _ _ _ _ _ _ _ _ _ _ (start_filled xmin dx surf surf0 (num_mark ncx xmin dx c1) nmax c1) L) as F.
  destruct F as (G & R1 & N1 & N2 & PH & KP & DN). cbn [fst snd] in *.
  assert (OB : forall k, (k < nb c)%nat -> chp c1 k = if out_of_box xmin xmax (chx c k) then (-1)%Z else 0%Z).
  { intros k K. unfold c1, repase. cbn [chp]. apply Nat.ltb_lt in K. rewrite K. reflexivity. }
  split; [exact N1|]. split; [exact N2|]. split.
  - intros k [K X].
    assert (O : out_of_box xmin xmax (chx c k) = false).
    { unfold out_of_box. apply orb_false_iff. split; apply Rltb_false; lra. }
    destruct (KP k K) as (A1 & A2 & A3). { rewrite OB by exact K. rewrite O. discriminate. }
    rewrite PH, OB by exact K. rewrite O. auto.
  - intros f Fl Fn. destruct (DN f Fl) as (k1 & k2 & D & K1 & K2 & _ & _ & V).
    { unfold num_mark. unfold number in Fn.
      replace (filter (in_fine ncx xmin dx c1 f) (seq 0 (nb c1))) with
        (filter (fun k => negb (out_of_box xmin xmax (chx c k)) && Nat.eqb (fine_column ncx xmin dx (chx c k)) f) (seq 0 (nb c))); [exact Fn|].
      change (nb c1) with (nb c). apply filter_ext_in. intros k K. apply in_seq in K. unfold in_fine.
      rewrite OB by lia. change (chx c1 k) with (chx c k). destruct (out_of_box xmin xmax (chx c k)); reflexivity. }
    exists k1, k2. destruct V as (V1 & V2 & V3 & V4 & V5 & V6).
    split; [exact D|]. split; [exact K1|]. split; [exact K2|].
    split; [rewrite V1; field|]. split; [exact V2|]. split; [exact V3|].
    split; [rewrite V4; field|]. split; [exact V5|exact V6].
Qed.
Print Assumptions C54_remesh.

(** It succeeds whenever four more markers per column fit. *)
Theorem C54_room_suffices : forall ncx nmax xmin xmax dx surf surf0 c,
  (nb c + 4 * ncx + 2 < nmax)%nat -> exists c', remesh1 ncx nmax xmin xmax dx surf surf0 c = Some c'.
Proof.
  intros ncx nmax xmin xmax dx surf surf0 c R. unfold remesh1. cbv zeta. set (c1 := repase xmin xmax c).
  assert (Q : forall n, (n <= 2 * ncx)%nat -> exists s,
    loop 0 n (fill_column nmax xmin dx surf surf0 (num_mark ncx xmin dx c1)) (Some (c1, reusable c1)) = Some s /\
    good s /\ (nb (fst s) <= nb c + 2 * n)%nat).
  { induction n as [|n IH]; intro Hn.
    - exists (c1, reusable c1). split; [reflexivity|]. split; [apply (start_filled 0 0 (fun _ => 0) (fun _ => 0) (fun _ => 0%nat) 0 c1)|].
      cbn. lia.
    - destruct (IH ltac:(lia)) as ([u r] & L & G & B). change (S n) with (1 + n)%nat. rewrite loop_S, L. cbn [Nat.add].
      unfold fill_column. cbn [fst] in B. destruct (num_mark ncx xmin dx c1 n <? 4)%nat.
      + replace ((nb u + 1 <? nmax)%nat && (nb u + 2 <? nmax)%nat) with true
          by (symmetry; apply andb_true_intro; split; apply Nat.ltb_lt; lia).
        cbv zeta. eexists; split; [reflexivity|].
        destruct (add_one_spec surf surf0 (xmin + INR n * dx / 2 + dx / 4 / 2) u r G) as (k1 & A). cbv zeta in A.
        destruct (add_one surf surf0 (xmin + INR n * dx / 2 + dx / 4 / 2) (u, r)) as [ca ra]. cbn [fst snd] in A.
        destruct A as (Ga & _ & _ & _ & _ & NBa & _).
        destruct (add_one_spec surf surf0 (xmin + INR n * dx / 2 + 3 * dx / 4 / 2) ca ra Ga) as (k2 & Bb). cbv zeta in Bb.
        destruct Bb as (Gb & _ & _ & _ & _ & NBb & _). split; [exact Gb|]. lia.
      + exists (u, r). split; [reflexivity|]. split; [exact G|]. cbn. lia. }
  destruct (Q (2 * ncx)%nat ltac:(lia)) as (s & L & _). rewrite L. eexists. reflexivity.
Qed.
Print Assumptions C54_room_suffices.
Definition two_out : chain := Chain 2 (fun _ => 5) (fun _ => 0) (fun _ => 0) (fun _ => 0%Z).
Example C54_remesh_ex : exists c', remesh1 1 100 0 1 1 (fun _ => 0) (fun _ => 0) two_out = Some c'.
Proof. apply C54_room_suffices. cbn. lia. Qed.

(** A new marker that reuses the slot of a marker that left keeps the mark "left":
    the projection ignores it, so a refilled column may still look empty. *)
Theorem C54_recycled_markers_ignored_refuted : exists ncx nmax xmin xmax dx surf surf0 c c' f,
  remesh1 ncx nmax xmin xmax dx surf surf0 c = Some c' /\ (f < 2 * ncx)%nat /\
  forall k, (k < nb c')%nat -> fine_column ncx xmin dx (chx c' k) = f -> chp c' k = (-1)%Z.
Proof.
  exists 1%nat, 100%nat, 0, 1, 1, (fun _ => 0), (fun _ => 0), two_out.
  unfold remesh1. cbv zeta. set (c1 := repase 0 1 two_out).
  assert (O : out_of_box 0 1 5 = true).
  { unfold out_of_box. replace (Rltb 1 5) with true by (symmetry; apply Rltb_true; lra). reflexivity. }
  assert (P : forall k, chp c1 k = if (k <? 2)%nat then (-1)%Z else 0%Z).
  { intro k. unfold c1, repase. cbn [chp two_out nb chx]. rewrite O. reflexivity. }
  assert (Ru : reusable c1 = [0; 1]%nat).
  { unfold reusable. change (nb c1) with 2%nat. cbn [seq filter]. rewrite !P. reflexivity. }
  assert (Nm : forall f, num_mark 1 0 1 c1 f = 0%nat).
  { intro f. unfold num_mark. change (nb c1) with 2%nat. cbn [seq filter]. unfold in_fine. rewrite !P. reflexivity. }
  rewrite Ru. unfold loop. cbn [Nat.mul Nat.add seq fold_left].
  do 2 (unfold fill_column at 1; rewrite Nm; change (nb c1) with 2%nat;
    cbn [Nat.add Nat.ltb Nat.leb andb add_one put nb chx chz chz0 chp option_map fst]).
  eexists. exists 0%nat. split; [reflexivity|]. split; [lia|].
  intros k K F. change (nb c1) with 2%nat in *. cbn [fst put nb chx chp] in *.
  destruct k as [|[|[|[|k]]]]; [rewrite P; reflexivity|rewrite P; reflexivity| | |cbn in K; lia]; exfalso; revert F;
    unfold upd; cbn [Nat.eqb]; unfold fine_column;
    match goal with |- context [Zceil ?e] => destruct (Zceil_spec e) as [Z1 Z2]; assert (Zq : Zceil e = 2%Z) end.
  - cbn [INR] in *. assert (1 < Zceil _)%Z by (apply lt_IZR; eapply Rlt_le_trans; [|exact Z1]; lra).
    match goal with |- ?z = _ => assert (z <= 2)%Z by (apply IZR_le_lt_1; eapply Rlt_le_trans; [exact Z2|]; lra) end. lia.
  - rewrite Zq. discriminate.
  - cbn [INR] in *. assert (1 < Zceil _)%Z by (apply lt_IZR; eapply Rlt_le_trans; [|exact Z1]; lra).
    match goal with |- ?z = _ => assert (z <= 2)%Z by (apply IZR_le_lt_1; eapply Rlt_le_trans; [exact Z2|]; lra) end. lia.
  - rewrite Zq. discriminate.
Qed.
Print Assumptions C54_recycled_markers_ignored_refuted.

(** At the end of a sub-step every chain marker of the box lies on the surface, its
    saved height included. *)
Theorem C54_chain_on_surface : forall ncx xmin dx xg h c k,
  (1 <= ncx)%nat -> dx > 0 -> (forall i, xg i = xmin + INR i * dx) ->
  (k < nb c)%nat -> xmin <= chx c k <= xmin + INR ncx * dx ->
  let c' := remesh2 (grid_topo ncx xmin dx (fit_a dx h) (fit_b dx xg h)) c in
  nb c' = nb c /\ chx c' k = chx c k /\ polyline ncx xmin dx h (chx c' k) (chz c' k) /\ chz0 c' k = chz c' k.
Proof.
  intros ncx xmin dx xg h c k N D G K X. cbn [remesh2 nb chx chz chz0].
  apply Nat.ltb_lt in K. rewrite K. split; [reflexivity|]. split; [reflexivity|]. split; [|reflexivity].
  apply grid_topo_polyline; auto.
Qed.
Print Assumptions C54_chain_on_surface.
Example C54_chain_on_surface_ex : let c := Chain 2 INR (fun _ => 0) (fun _ => 0) (fun _ => 0%Z) in
  (1 < nb c)%nat /\ 0 <= chx c 1 <= 0 + INR 3 * 1.
Proof. cbn [nb chx INR]. split; [lia|lra]. Qed.

(** ** C55: surface processes *)

(** One explicit step of the diffusion equation with diffusivity [D], fixed ends and
    a source [src]. *)
Definition heat_step (D : R) (src : R -> R) (dx dt : R) (size : nat) (h : nat -> R) (i : nat) : R :=
  if Nat.eqb i 0 || (size - 1 <=? i)%nat then h i
  else h i + D * dt * ((h (i - 1)%nat - 2 * h i + h (i + 1)%nat) / (dx * dx)) + dt * src (h i).
Definition below (base rate : R) (z : R) : R := if Rlt_dec z base then rate else 0.

Lemma diff_step_heat size p dx dtr xg h i : (4 <= size)%nat -> dx > 0 -> sp_mode p = 1%Z ->
  diff_step size p dx dtr xg h i = heat_step (sp_diff p / 2) (below (sp_base p) (sp_rate p)) dx dtr size h i.
Proof.
  intros S X M. unfold diff_step, heat_step. rewrite M. cbn [Z.eqb Pos.eqb andb].
  destruct (Nat.eqb_spec i 0) as [E|E].
  - subst i. reflexivity.
  - cbn [orb]. replace (1 <=? i)%nat with true by (symmetry; apply Nat.leb_le; lia). cbn [andb].
    destruct (Nat.leb_spec (size - 1) i) as [L|L].
    + replace (i <? size - 1)%nat with false by (symmetry; apply Nat.ltb_ge; lia). reflexivity.
    + replace (i <? size - 1)%nat with true by (symmetry; apply Nat.ltb_lt; lia).
      unfold correction. replace (Nat.eqb (size - 2) 1) with false by (symmetry; apply Nat.eqb_neq; lia). cbn [andb].
      unfold half_term, below, Rltb. destruct (Rlt_dec (h i) (sp_base p)); field; lra.
Qed.

Lemma iter_ext {A} (f g : (nat -> A) -> nat -> A) n :
  (forall u v, (forall i, u i = v i) -> forall i, f u i = g v i) ->
  forall u v, (forall i, u i = v i) -> forall i, Nat.iter n f u i = Nat.iter n g v i.
Proof. intros E. induction n as [|n IH]; intros u v H i; [apply H|]. cbn. apply E. intro j. apply IH, H. Qed.

Lemma heat_step_ext D src dx dt size u v : (forall i : nat, u i = v i) -> forall i,
  heat_step D src dx dt size u i = heat_step D src dx dt size v i.
Proof. intros E i. unfold heat_step. rewrite !E. reflexivity. Qed.

(** Hillslope diffusion is a sequence of stable explicit steps that add up to the
    time step - with half the diffusivity that was asked for. *)
Theorem C55_diffusion_steps : forall size p dx T xg h,
  (4 <= size)%nat -> dx > 0 -> T > 0 -> sp_diff p > 0 -> sp_mode p = 1%Z ->
  exists n dt, (1 <= n)%nat /\ INR n * dt = T /\ 0 < dt /\ sp_diff p * dt <= 4 / 10 * (dx * dx) /\
  forall i, diffuse size p dx T xg h i =
    Nat.iter n (heat_step (sp_diff p / 2) (below (sp_base p) (sp_rate p)) dx dt size) h i.
Proof.
  intros size p dx T xg h S X P D M.
  destruct (n_sub_spec p dx T D X P) as (A & _). destruct (dt_sub_spec p dx T D X P) as (B & C).
  exists (Z.to_nat (n_sub p dx T)), (dt_sub p dx T).
  split; [lia|]. split; [rewrite INR_IZR_INZ, Z2Nat.id by lia; exact B|]. split; [lra|]. split.
  - destruct (diff_number p dx (dt_sub p dx T) D X C) as [_ U].
    set (r := dt_sub p dx T) in *. apply Rmult_le_compat_r with (r := 2 * (dx * dx)) in U; [|nra].
    replace (1 / 2 * r / dx / dx * sp_diff p * (2 * (dx * dx))) with (r * sp_diff p) in U by (field; lra). lra.
  - intro i. unfold diffuse. rewrite M. cbn [Z.eqb Pos.eqb orb].
    apply iter_ext; [|reflexivity]. intros u v E j. rewrite diff_step_heat by assumption. apply heat_step_ext, E.
Qed.
Print Assumptions C55_diffusion_steps.
Definition proc1 (rate : R) : sproc := SProc 1 1 0 rate 0 0.
Example C55_diffusion_steps_ex : sp_diff (proc1 0) > 0 /\ sp_mode (proc1 0) = 1%Z.
Proof. cbn. split; [lra|reflexivity]. Qed.

Lemma one_step T : 0 < T < 4 / 10 -> n_sub (proc1 0) 1 T = 1%Z /\ dt_sub (proc1 0) 1 T = T.
Proof.
  intro H. assert (E : dt_expl (proc1 0) 1 = 4 / 10) by (unfold dt_expl; cbn [sp_diff proc1]; lra). split.
  - destruct (n_sub_spec (proc1 0) 1 T) as (A & _ & B); try (cbn; lra). rewrite E in B.
    assert (n_sub (proc1 0) 1 T < 2)%Z; [|lia]. apply lt_IZR. lra.
  - unfold dt_sub. rewrite E. unfold Rltb. destruct (Rlt_dec T (4 / 10)); lra.
Qed.

(** With the diffusivity asked for, the result would differ. *)
Theorem C55_diffusivity_refuted : exists size p dx T xg h i, (4 <= size)%nat /\ sp_mode p = 1%Z /\
  0 < sp_diff p /\ 0 < T /\ sp_diff p * T <= 4 / 10 * (dx * dx) /\
  diffuse size p dx T xg h i <> heat_step (sp_diff p) (below (sp_base p) (sp_rate p)) dx T size h i.
Proof.
  exists 4%nat, (proc1 0), 1, (1 / 10), INR, (fun i => if Nat.eqb i 1 then 1 else 0), 1%nat.
  cbn [sp_mode sp_diff sp_base sp_rate proc1]. repeat split; try lia; try lra.
  unfold diffuse. cbn [sp_mode proc1 Z.eqb Pos.eqb orb].
  destruct (one_step (1 / 10)) as [-> ->]; [lra|]. change (Nat.iter (Z.to_nat 1) ?f ?x) with (f x).
  rewrite diff_step_heat by (try lia; try lra; reflexivity).
  unfold heat_step. cbn [Nat.eqb Nat.sub Nat.add Nat.leb orb sp_diff proc1 sp_base sp_rate].
  unfold below. destruct (Rlt_dec 1 0); lra.
Qed.
Print Assumptions C55_diffusivity_refuted.

(** Without a source, diffusion creates no new highs and lows, keeps the ends, and
    leaves an even slope alone. *)
Theorem C55_diffusion_stable : forall size p dx T xg h lo hi,
  (3 <= size)%nat -> dx > 0 -> T > 0 -> sp_diff p > 0 -> sp_mode p = 1%Z -> sp_rate p = 0 ->
  (forall i, (i < size)%nat -> lo <= h i <= hi) ->
  (forall i, (i < size)%nat -> lo <= diffuse size p dx T xg h i <= hi) /\
  diffuse size p dx T xg h 0%nat = h 0%nat /\ diffuse size p dx T xg h (size - 1)%nat = h (size - 1)%nat /\
  (forall s b, (forall i, (i < size)%nat -> h i = b + s * INR i) ->
     forall i, (i < size)%nat -> diffuse size p dx T xg h i = h i).
Proof.
  intros size p dx T xg h lo hi Sz X P D M Rt B.
  destruct (dt_sub_spec p dx T D X P) as (_ & C). pose proof (diff_number p dx (dt_sub p dx T) D X C) as U.
  assert (E : diffuse size p dx T xg h = Nat.iter (Z.to_nat (n_sub p dx T)) (diff_step size p dx (dt_sub p dx T) xg) h).
  { unfold diffuse. rewrite M. reflexivity. }
  rewrite E. set (dtr := dt_sub p dx T) in *. set (n := Z.to_nat (n_sub p dx T)).
  set (r := 1 / 2 * dtr / dx / dx * sp_diff p) in *.
  assert (ST : forall u i, (1 <= i)%nat -> (i < size - 1)%nat -> exists q, 0 <= q <= 2 / 5 /\
     diff_step size p dx dtr xg u i = u i + q * (u (i - 1)%nat + u (i + 1)%nat - 2 * u i)).
  { intros u i I1 I2. unfold diff_step. rewrite M, Rt. apply Nat.leb_le in I1. apply Nat.ltb_lt in I2. rewrite I1, I2.
    cbn [Z.eqb Pos.eqb andb]. unfold correction, half_term. fold r.
    destruct (Nat.eqb (size - 2) 1 && Nat.eqb i 1); [exists (2 * r)|exists r]; (split; [lra|]);
      destruct (Rltb (u i) (sp_base p)); ring. }
  assert (EN : forall u i, (i = 0 \/ size - 1 <= i)%nat -> diff_step size p dx dtr xg u i = u i).
  { intros u i [ -> |I]; unfold diff_step; [reflexivity|].
    replace (i <? size - 1)%nat with false by (symmetry; apply Nat.ltb_ge; lia). rewrite andb_false_r. reflexivity. }
  split; [|split; [|split]].
  - apply (iter_inv (fun u => forall i, (i < size)%nat -> lo <= u i <= hi)); [exact B|].
    intros u Q i I. destruct (Nat.eq_dec i 0) as [Z0|Z0]; [rewrite EN by lia; apply Q, I|].
    destruct (Nat.eq_dec i (size - 1)) as [Z1|Z1]; [rewrite EN by lia; apply Q, I|].
    destruct (ST u i ltac:(lia) ltac:(lia)) as (q & q1 & ->).
    pose proof (Q i I). pose proof (Q (i - 1)%nat ltac:(lia)). pose proof (Q (i + 1)%nat ltac:(lia)).
    split; nra.
  - apply (iter_inv (fun u => u 0%nat = h 0%nat)); [reflexivity|]. intros u Q. rewrite EN by lia. exact Q.
  - apply (iter_inv (fun u => u (size - 1)%nat = h (size - 1)%nat)); [reflexivity|]. intros u Q. rewrite EN by lia. exact Q.
  - intros s b L. apply (iter_inv (fun u => forall i, (i < size)%nat -> u i = h i)); [reflexivity|].
    intros u Q i I. destruct (Nat.eq_dec i 0) as [Z0|Z0]; [rewrite EN by lia; apply Q, I|].
    destruct (Nat.eq_dec i (size - 1)) as [Z1|Z1]; [rewrite EN by lia; apply Q, I|].
    destruct (ST u i ltac:(lia) ltac:(lia)) as (q & q1 & ->).
    rewrite !Q, !L by lia. destruct i as [|i]; [lia|].
    replace (S i - 1)%nat with i by lia. replace (S i + 1)%nat with (S (S i)) by lia. rewrite !S_INR. ring.
Qed.
Print Assumptions C55_diffusion_stable.
Example C55_diffusion_stable_ex : sp_diff (proc1 0) > 0 /\ sp_rate (proc1 0) = 0 /\ forall i, (i < 5)%nat -> 0 <= INR i <= 4.
Proof. cbn. split; [lra|split; [reflexivity|]]. intros i I. split; [apply pos_INR|]. replace 4 with (INR 4) by (cbn; lra). apply le_INR. lia. Qed.

(** Constant-rate sedimentation: every vertex below base level, the ends included,
    rises by the rate times the time step; the others do not move. *)
Theorem C55_sedimentation : forall size p dx T xg h i, sp_mode p = 2%Z -> (i < size)%nat ->
  (h i < sp_base p -> diffuse size p dx T xg h i = h i + sp_rate p * T) /\
  (sp_base p <= h i -> diffuse size p dx T xg h i = h i).
Proof.
  intros size p dx T xg h i M I. unfold diffuse. rewrite M. cbn [Z.eqb Pos.eqb orb].
  apply Nat.ltb_lt in I. rewrite I. cbn [andb]. unfold Rltb.
  destruct (Rlt_dec (h i) (sp_base p)); split; intro; try lra; reflexivity.
Qed.
Print Assumptions C55_sedimentation.
(** It can fill a basin above base level. *)
Theorem C55_overfill_refuted : exists size p dx T xg h i, sp_mode p = 2%Z /\ 0 < sp_rate p /\ 0 < T /\
  h i < sp_base p /\ diffuse size p dx T xg h i > sp_base p.
Proof.
  exists 1%nat, (SProc 2 1 0 10 0 0), 1, 1, INR, (fun _ => -1), 0%nat. cbn [sp_mode sp_rate sp_base].
  repeat split; try lra. rewrite (proj1 (C55_sedimentation 1 (SProc 2 1 0 10 0 0) 1 1 INR (fun _ => -1) 0%nat eq_refl ltac:(lia))); cbn; lra.
Qed.
Print Assumptions C55_overfill_refuted.

(** Valley incision: compared with plain diffusion, one step removes a section of
    area valley width x incision rate x step, spread evenly over the vertices of the
    valley, whatever their number (as long as there is one). *)
Theorem C55_valley_incision : forall size p dx dtr xg h, (3 <= size)%nat -> dx > 0 -> sp_diff p > 0 -> sp_mode p = 5%Z ->
  (1 <= n_valley size p xg)%nat ->
  let q := SProc 1 (sp_diff p) (sp_base p) (sp_rate p) (sp_W p) (sp_V p) in
  sum (map (fun i => (diff_step size p dx dtr xg h i - diff_step size q dx dtr xg h i) * dx) (seq 0 size))
    = - (sp_W p * sp_V p * dtr) /\
  (forall i, 1 / 2 * sp_W p <= Rabs (xg i) -> diff_step size p dx dtr xg h i = diff_step size q dx dtr xg h i).
Proof.
  intros size p dx dtr xg h Sz X D M N q.
  set (e := dtr * v_num size p dx xg).
  assert (A : forall i, diff_step size p dx dtr xg h i - diff_step size q dx dtr xg h i =
     if (1 <=? i)%nat && (i <? size - 1)%nat && in_valley p xg i then e else 0).
  { intro i. unfold diff_step. rewrite M. cbn [sp_mode q Z.eqb Pos.eqb andb].
    destruct ((1 <=? i)%nat && (i <? size - 1)%nat); cbn [andb]; [|lra].
    change (correction size q dx dtr h i) with (correction size p dx dtr h i).
    cbn [sp_base sp_rate q]. fold e. destruct (in_valley p xg i); lra. }
  split.
  - assert (G : forall l, sum (map (fun i => (diff_step size p dx dtr xg h i - diff_step size q dx dtr xg h i) * dx) l) =
       INR (length (filter (fun i => (1 <=? i)%nat && (i <? size - 1)%nat && in_valley p xg i) l)) * (e * dx)).
    { induction l as [|i l IH]; [cbn; lra|]. cbn [map filter].
      match goal with |- sum (?a :: ?t) = _ => change (sum (a :: t)) with (a + sum t) end. rewrite IH, A.
      destruct ((1 <=? i)%nat && (i <? size - 1)%nat && in_valley p xg i); cbn [length]; [rewrite S_INR|]; ring. }
    rewrite G.
    replace (length (filter _ (seq 0 size))) with (n_valley size p xg).
    + assert (0 < INR (n_valley size p xg)) by (apply lt_0_INR; lia).
      unfold e, v_num, dt_expl. field. repeat split; lra.
    + unfold n_valley.
      assert (E : seq 0 size = 0%nat :: seq 1 (size - 2) ++ [(size - 1)%nat]).
      { replace size with (1 + (size - 2) + 1)%nat at 1 by lia. rewrite !seq_app. cbn [seq app Nat.add].
        do 3 f_equal. lia. }
      rewrite E. cbn [filter Nat.leb andb]. rewrite filter_app. cbn [filter].
      rewrite Nat.ltb_irrefl, andb_false_r. cbn [andb]. rewrite app_nil_r. f_equal.
      apply filter_ext_in. intros i I. apply in_seq in I. destruct i as [|i]; [lia|].
      replace (S i <? size - 1)%nat with true by (symmetry; apply Nat.ltb_lt; lia). reflexivity.
  - intros i I. pose proof (A i) as Ai. unfold in_valley at 1 in Ai.
    replace (Rltb (Rabs (xg i)) (1 / 2 * sp_W p)) with false in Ai by (symmetry; apply Rltb_false; exact I).
    rewrite andb_false_r in Ai. lra.
Qed.
Print Assumptions C55_valley_incision.
Example C55_valley_incision_ex : (1 <= n_valley 3 (SProc 5 1 0 0 1 1) (fun i => (INR i - 1)%R))%nat.
Proof.
  unfold n_valley. cbn [Nat.sub seq filter]. unfold in_valley. cbn [sp_W INR].
  replace (Rltb (Rabs (1 - 1)) (1 / 2 * 1)) with true; [cbn; lia|].
  symmetry. apply Rltb_true. replace (1 - 1) with 0 by lra. rewrite Rabs_R0. lra.
Qed.

(** ** C56: markers above the surface, sediments *)

(** After the clean-up a marker of the box is active exactly if it was and does not
    lie above the surface; nothing else about it changes. *)
Theorem C56_cleanup : forall ncx xmin dx xg h p zs,
  (1 <= ncx)%nat -> dx > 0 -> (forall i, xg i = xmin + INR i * dx) -> xmin <= px p <= xmin + INR ncx * dx ->
  polyline ncx xmin dx h (px p) zs ->
  let p' := cleanup ncx (xmin + dx / 2) dx (fit_a dx h) (fit_b dx xg h) p in
  px p' = px p /\ pz p' = pz p /\ pvx p' = pvx p /\ pvz p' = pvz p /\
  (pz p <= zs -> pph p' = pph p) /\ (zs < pz p -> pph p' = (-1)%Z).
Proof.
  intros ncx xmin dx xg h p zs N D G X P p'. unfold p', cleanup.
  pose proof (grid_topo_polyline ncx xmin dx xg h (px p) N D G X) as Q.
  rewrite (polyline_unique _ _ _ _ _ _ _ D P Q). clear P Q zs p'.
  rewrite cleanup_column_inside by assumption.
  change (fit_b dx xg h (column ncx (xmin + dx / 2) dx (px p)) + fit_a dx h (column ncx (xmin + dx / 2) dx (px p)) * px p)
    with (grid_topo ncx xmin dx (fit_a dx h) (fit_b dx xg h) (px p)).
  set (s := grid_topo _ _ _ _ _ _).
  destruct (Z.eqb_spec (pph p) (-1)) as [E|E].
  - repeat split; auto.
  - unfold Rltb. destruct (Rlt_dec s (pz p)); cbn [px pz pph pvx pvz]; repeat split; auto; intro; lra.
Qed.
Print Assumptions C56_cleanup.
Example C56_cleanup_ex : polyline 2 0 1 (fun _ => 1) 0.5 1.
Proof. exists 0%nat, 0.5. cbn [INR]. repeat split; try lra; lia. Qed.

(** New sediment markers: strictly inside the box, strictly between the surface
    before and after deposition, at most four per column, and one at every eighth
    point of a column where the surface rose. *)
Theorem C56_sediments : forall ncx xmin dx surf surf0 ph, dx > 0 ->
  let l := sed_list ncx xmin dx surf surf0 ph in
  (length l <= 4 * ncx)%nat /\
  (forall m, In m l -> xmin < nx_ m < xmin + INR ncx * dx /\ surf0 (nx_ m) < nz_ m < surf (nx_ m) /\ nph m = ph) /\
  (forall c q, (c < ncx)%nat -> (q < 4)%nat -> let x := xmin + (INR c + (2 * INR q + 1) / 8) * dx in
     surf0 x < surf x -> exists m, In m l /\ nx_ m = x).
Proof.
  intros ncx xmin dx surf surf0 ph D l. split; [|split].
  - unfold l, sed_list. set (F := fun k : nat => _).
    assert (H : forall s, (length (flat_map F s) <= 2 * length s)%nat).
    { induction s as [|k s IH]; [cbn; lia|]. cbn [flat_map]. rewrite app_length. cbn [length].
      assert (length (F k) <= 2)%nat; [|lia]. unfold F. cbn [flat_map]. rewrite app_nil_r, app_length.
      destruct (Rltb _ _), (Rltb _ _); cbn; lia. }
    specialize (H (seq 0 (2 * ncx))). rewrite seq_length in H. lia.
  - intros m I. unfold l, sed_list in I. apply in_flat_map in I. destruct I as (k & K & I).
    apply in_flat_map in I. destruct I as (ip & IP & I). apply in_seq in K. cbv zeta in I.
    set (x := sed_x xmin dx k ip) in *. unfold Rltb in I.
    destruct (Rlt_dec (surf0 x) (surf x)) as [L|]; [|destruct I]. destruct I as [<-|[]]. cbn [new_sed nx_ nz_ nph].
    assert (KB : INR k + 1 <= 2 * INR ncx).
    { rewrite <- S_INR. replace 2 with (INR 2) by reflexivity. rewrite <- mult_INR. apply le_INR. lia. }
    pose proof (pos_INR k) as K0. split; [|split; [lra|reflexivity]].
    unfold x, sed_x. destruct (Nat.eqb ip 0); nra.
  - intros c q C Q x L.
    set (k := (2 * c + q / 2)%nat). set (ip := (q mod 2)%nat).
    assert (X : sed_x xmin dx k ip = x).
    { unfold x, sed_x, k, ip. destruct q as [|[|[|[|q]]]]; [| | | |lia];
      cbn [Nat.div Nat.modulo Nat.divmod fst snd Nat.sub Nat.eqb]; rewrite plus_INR, mult_INR; cbn [INR]; field. }
    exists (new_sed x (1 / 2 * (surf x + surf0 x)) ph). split; [|reflexivity].
    unfold l, sed_list. apply in_flat_map. exists k. split.
    + apply in_seq. unfold k. assert (q / 2 <= 1)%nat by (destruct q as [|[|[|[|q]]]]; cbn; lia). lia.
    + apply in_flat_map. exists ip. split.
      * unfold ip. destruct q as [|[|[|[|q]]]]; cbn; auto; lia.
      * cbv zeta. rewrite X. unfold Rltb. destruct (Rlt_dec (surf0 x) (surf x)); [left; reflexivity|contradiction].
Qed.
Print Assumptions C56_sediments.
Example C56_sediments_ex : In (new_sed (1 / 8) 1 7) (sed_list 1 0 1 (fun _ => 2) (fun _ => 0) 7).
Proof.
  destruct (C56_sediments 1 0 1 (fun _ => 2) (fun _ => 0) 7 ltac:(lra)) as (_ & _ & H).
  unfold sed_list. apply in_flat_map. exists 0%nat. split; [cbn; auto|]. apply in_flat_map. exists 0%nat. split; [cbn; auto|].
  cbv beta zeta. unfold Rltb. destruct (Rlt_dec 0 2); [|lra]. left. unfold sed_x. cbn [Nat.eqb INR]. f_equal; lra.
Qed.

(** Odd millions of years get the first sediment phase, even ones the second. *)
Theorem C56_sediment_phase : forall t a b, (0 <= t)%Z ->
  (Z.odd t = true -> sed_phase t a b = a) /\ (Z.even t = true -> sed_phase t a b = b).
Proof.
  intros t a b T. unfold sed_phase. rewrite Z.rem_mod_nonneg by lia. rewrite Zmod_odd. rewrite <- Z.negb_odd.
  destruct (Z.odd t); split; intro; try reflexivity; discriminate.
Qed.
Print Assumptions C56_sediment_phase.
Example C56_sediment_phase_ex : sed_phase 3 5 6 = 5%Z /\ sed_phase 4 5 6 = 6%Z.
Proof. split; reflexivity. Qed.

(** New markers start from a singular deformation gradient instead of the identity. *)
Theorem C56_deformation_refuted : forall ncx xmin dx surf surf0 ph m, In m (sed_list ncx xmin dx surf surf0 ph) ->
  let '(xx, xz, zx, zz) := nF m in xx * zz - xz * zx = 0.
Proof.
  intros ncx xmin dx surf surf0 ph m I. unfold sed_list in I. apply in_flat_map in I. destruct I as (k & K & I).
  apply in_flat_map in I. destruct I as (ip & IP & I). cbv zeta in I.
  destruct (Rltb _ _); [|destruct I]. destruct I as [<-|[]]. cbn. lra.
Qed.
Print Assumptions C56_deformation_refuted.

(** They are written past the end of the marker arrays when those are nearly full. *)
Theorem C56_capacity_refuted : exists nmax nb_part ncx xmin dx surf surf0 ph k, (nb_part <= nmax)%nat /\
  In k (sed_indices nb_part (sed_list ncx xmin dx surf surf0 ph)) /\ (nmax <= k)%nat.
Proof.
  exists 3%nat, 3%nat, 1%nat, 0, 1, (fun _ => 2), (fun _ => 0), 7%Z, 3%nat. split; [lia|]. split; [|lia].
  unfold sed_indices. apply in_seq. pose proof C56_sediments_ex as E.
  destruct (sed_list 1 0 1 (fun _ => 2) (fun _ => 0) 7); [destruct E|cbn; lia].
Qed.
Print Assumptions C56_capacity_refuted.

(** ** C57: surface motion over a time step *)

(** Every column of the chain is covered. *)
Definition covered (nx : nat) (xmin dx : R) (c : chain) : Prop :=
  forall k, (k < nx - 1)%nat -> tiny <= Wm (xmin + dx / 2) dx (marks c) k.
(** Uplift of the whole chain by [v]. *)
Definition uplift (v : R) (c : chain) : chain := Chain (nb c) (chx c) (fun k => chz c k + v) (chz0 c) (chp c).

Lemma Wm_marks c c' x0 dx k : nb c' = nb c -> chx c' = chx c -> chp c' = chp c -> Wm x0 dx (marks c') k = Wm x0 dx (marks c) k.
Proof.
  intros A B C. unfold Wm, marks. rewrite A, !map_map. f_equal. apply map_ext. intro a.
  unfold weight, on_chain. cbn [cph cx]. rewrite B, C. reflexivity.
Qed.
Lemma covered_same nx xmin dx c c' : nb c' = nb c -> chx c' = chx c -> chp c' = chp c -> covered nx xmin dx c -> covered nx xmin dx c'.
Proof. intros A B C H k K. rewrite (Wm_marks c c') by assumption. apply H, K. Qed.

(** Total update: a flat chain uplifted [n] times by [v] rises by [n v], on the grid
    and on the chain. *)
Theorem C57_total_update : forall nx xmin dx xg height0 c z v n,
  (3 <= nx)%nat -> dx > 0 -> covered nx xmin dx c -> (forall k, (k < nb c)%nat -> chz c k = z) ->
  let s := Nat.iter (S n) (sub_step nx false xmin dx xg height0 (uplift v)) (c, height0) in
  (forall k, (k < nx)%nat -> snd s k = z + INR (S n) * v) /\
  (forall k, (k < nb c)%nat -> chz (fst s) k = z + INR (S n) * v).
Proof.
  intros nx xmin dx xg height0 c z v n N D C Z.
  assert (ST : forall s y, nb (fst s) = nb c -> chx (fst s) = chx c -> chp (fst s) = chp c ->
     (forall k, (k < nb c)%nat -> chz (fst s) k = y) ->
     let s' := sub_step nx false xmin dx xg height0 (uplift v) s in
     nb (fst s') = nb c /\ chx (fst s') = chx c /\ chp (fst s') = chp c /\
     (forall k, (k < nx)%nat -> snd s' k = y + v) /\ (forall k, (k < nb c)%nat -> chz (fst s') k = y + v)).
  { intros s y A1 A2 A3 A4 s'. split; [exact A1|]. split; [exact A2|]. split; [exact A3|].
    assert (H : forall k, (k < nx)%nat -> snd s' k = y + v).
    { intros k K. unfold s', sub_step. cbn [snd].
      pose proof (C53_heights_within_chain nx false xmin dx (marks (uplift v (fst s))) height0 (y + v) (y + v) k N D K) as Q.
      cbv zeta in Q. assert (Q' := Q (covered_same nx xmin dx c (uplift v (fst s)) A1 A2 A3 C)). clear Q.
      enough (Q2 : forall m, In m (marks (uplift v (fst s))) -> on_chain m = true -> y + v <= cz m <= y + v)
        by (specialize (Q' Q2); lra).
      intros m I _. unfold marks in I. apply in_map_iff in I. destruct I as (j & <- & J). apply in_seq in J.
      cbn [cz uplift chz nb] in *. rewrite A4 by lia. lra. }
    split; [exact H|]. intros k K. unfold s', sub_step. cbn [fst remesh2 chz uplift nb chx]. rewrite A1.
    apply Nat.ltb_lt in K. rewrite K. unfold grid_topo.
    set (h := topo_height nx false (xmin + dx / 2) dx (marks (uplift v (fst s))) height0).
    assert (Hh : forall k, (k < nx)%nat -> h k = y + v) by exact H.
    set (ic := column _ _ _ _). assert (ic < nx - 1)%nat by (apply column_lt; lia).
    unfold fit_b, fit_a. rewrite !Hh by lia. field. lra. }
  intro s. enough (E : nb (fst s) = nb c /\ chx (fst s) = chx c /\ chp (fst s) = chp c /\
     (forall k, (k < nx)%nat -> snd s k = z + INR (S n) * v) /\ (forall k, (k < nb c)%nat -> chz (fst s) k = z + INR (S n) * v)) by tauto.
  unfold s. clear s. induction n as [|n IH].
  - cbn [Nat.iter INR]. destruct (ST (c, height0) z eq_refl eq_refl eq_refl Z) as (B1 & B2 & B3 & B4 & B5).
    rewrite Rmult_1_l. auto.
  - change (Nat.iter (S (S n)) ?f ?x) with (f (Nat.iter (S n) f x)).
    destruct IH as (I1 & I2 & I3 & I4 & I5). destruct (ST _ _ I1 I2 I3 I5) as (B1 & B2 & B3 & B4 & B5).
    refine (conj B1 (conj B2 (conj B3 (conj _ _)))); intros k K; [rewrite B4 by exact K|rewrite B5 by exact K];
      rewrite (S_INR (S n)); ring.
Qed.
Print Assumptions C57_total_update.
Definition flat_chain : chain := Chain 3 (fun k => 1 / 2 + INR k * 1) (fun _ => 5) (fun _ => 5) (fun _ => 0%Z).
Lemma flat_chain_covered : covered 4 0 1 flat_chain.
Proof.
  intros k K. replace (Wm (0 + 1 / 2) 1 (marks flat_chain) k) with (Wm (0 + 1 / 2) 1 flat3 k) by reflexivity.
  apply (proj1 C53_heights_within_chain_ex), K.
Qed.
Example C57_total_update_ex : covered 4 0 1 flat_chain /\ forall k, (k < nb flat_chain)%nat -> chz flat_chain k = 5.
Proof. split; [exact flat_chain_covered|reflexivity]. Qed.

(** Incremental update (the default): a single sub-step is exact for any relief. *)
Theorem C57_incremental_one_sub_step : forall nx xmin dx xg height0 c v k,
  (3 <= nx)%nat -> dx > 0 -> covered nx xmin dx c -> (forall j, (j < nb c)%nat -> chz c j = chz0 c j) ->
  (1 <= k < nx - 1)%nat ->
  snd (sub_step nx true xmin dx xg height0 (uplift v) (c, height0)) k = height0 k + v.
Proof.
  intros nx xmin dx xg height0 c v k N D C Z K. unfold sub_step. cbn [fst snd].
  apply (C53_uniform_motion nx true xmin dx (marks (uplift v c)) height0 v k N D K).
  - apply (covered_same nx xmin dx c); auto.
  - intros m I _. unfold marks in I. apply in_map_iff in I. destruct I as (j & <- & J). apply in_seq in J.
    cbn [cz cz0 uplift chz chz0 nb] in *. rewrite Z by lia. lra.
Qed.
Print Assumptions C57_incremental_one_sub_step.

(** But however many sub-steps a time step is cut into, only the last increment is
    kept: [n] uplifts by [v] raise the surface by [v] instead of [n v]. *)
Theorem C57_increments_lost_refuted : forall nx xmin dx xg height0 c v n k,
  (3 <= nx)%nat -> dx > 0 -> covered nx xmin dx c -> (forall j, (j < nb c)%nat -> chz c j = chz0 c j) ->
  (1 <= k < nx - 1)%nat ->
  snd (Nat.iter (S n) (sub_step nx true xmin dx xg height0 (uplift v)) (c, height0)) k = height0 k + v.
Proof.
  intros nx xmin dx xg height0 c v n k N D C Z K.
  change (Nat.iter (S n) ?f ?x) with (f (Nat.iter n f x)).
  set (s := Nat.iter n _ _).
  assert (I : covered nx xmin dx (fst s) /\ forall j, (j < nb (fst s))%nat -> chz (fst s) j = chz0 (fst s) j).
  { unfold s. apply (iter_inv (fun s => covered nx xmin dx (fst s) /\ forall j, (j < nb (fst s))%nat -> chz (fst s) j = chz0 (fst s) j)).
    - split; assumption.
    - intros t [T1 T2]. split.
      + apply (covered_same nx xmin dx (fst t)); auto.
      + intros j J. unfold sub_step in *. cbn [fst remesh2 chz chz0 nb] in *. apply Nat.ltb_lt in J. rewrite J. reflexivity. }
  destruct s as [d g]. cbn [fst] in I.
  apply (C57_incremental_one_sub_step nx xmin dx xg height0 d v k N D (proj1 I) (proj2 I) K).
Qed.
Print Assumptions C57_increments_lost_refuted.
Example C57_incremental_ex : covered 4 0 1 flat_chain /\ forall j, (j < nb flat_chain)%nat -> chz flat_chain j = chz0 flat_chain j.
Proof. split; [exact flat_chain_covered|reflexivity]. Qed.

(** Zero-mean option: the heights then average to zero, their differences kept. *)
Theorem C57_zero_mean : forall nx h, (1 <= nx)%nat ->
  sum (map (zero_mean nx h) (seq 0 nx)) = 0 /\
  forall i j, (i < nx)%nat -> (j < nx)%nat -> zero_mean nx h i - zero_mean nx h j = h i - h j.
Proof.
  intros nx h N. split.
  - assert (G : forall l m, sum (map (fun i => h i - m) l) = sum (map h l) - INR (length l) * m).
    { induction l as [|a l IH]; intro m; [cbn; lra|]. cbn [map length].
      match goal with |- sum (?a :: ?t) = _ => change (sum (a :: t)) with (a + sum t) end.
      change (sum (h a :: map h l)) with (h a + sum (map h l)). rewrite IH, S_INR. ring. }
    rewrite (map_ext_in (zero_mean nx h) (fun i => h i - mean_height nx h)).
    + rewrite G, seq_length. unfold mean_height. assert (0 < INR nx) by (apply lt_0_INR; lia). field. lra.
    + intros i I. apply in_seq in I. unfold zero_mean. replace (i <? nx)%nat with true; [reflexivity|].
      symmetry. apply Nat.ltb_lt. lia.
  - intros i j I J. unfold zero_mean. apply Nat.ltb_lt in I, J. rewrite I, J. ring.
Qed.
Print Assumptions C57_zero_mean.
Example C57_zero_mean_ex : zero_mean 2 INR 1 = 1 / 2.
Proof. unfold zero_mean, mean_height. cbn. lra. Qed.

(** The same option reads chain entries that were never written. *)
Theorem C57_zero_mean_reads_refuted : exists nmax c k, (nb c <= k < nmax)%nat /\ In k (zero_mean_reads nmax c).
Proof.
  exists 5%nat, flat_chain, 4%nat. split; [cbn; lia|]. unfold zero_mean_reads. cbn. auto 10.
Qed.
Print Assumptions C57_zero_mean_reads_refuted.
