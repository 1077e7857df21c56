(** C21-C23: node numbering, averaging, coordinates. *)
From Coq Require Import List ZArith Reals Bool Arith Lia Lra.
Import ListNotations.
From Verif Require Import GridModel GridProofs.

(** ** C21 *)

(** Every pair of indices in range has a number in range, equal to that of no
    other pair; every number in range belongs to a pair; the tables built at
    start-up, whatever they held before, return the pair of every number; and
    no table entry beyond the number of nodes is written. *)
Theorem C21_numbering_is_bijective :
  forall (Nx Nz : nat) t0 g,
  let n1 := row_length Nx g in let n2 := row_count Nz g in
  let tk := fst (grid_indices Nx Nz t0 g) in let tl := snd (grid_indices Nx Nz t0 g) in
  (forall k l, k < n1 -> l < n2 -> k + l * n1 < n1 * n2) /\
  (forall k l k' l', k < n1 -> l < n2 -> k' < n1 -> l' < n2 ->
     k + l * n1 = k' + l' * n1 -> k = k' /\ l = l') /\
  (forall c, c < n1 * n2 -> exists k l, k < n1 /\ l < n2 /\ c = k + l * n1 /\
     tk c = Z.of_nat k /\ tl c = Z.of_nat l) /\
  (forall c, n1 * n2 <= c -> tk c = fst (t0 g) c /\ tl c = snd (t0 g) c).
Proof.
  intros Nx Nz t0 g n1 n2 tk tl.
  destruct (fill_indices_spec n1 n2 (t0 g)) as [H1 H2].
  split; [intros k l Hk Hl; now apply flat_lt|]. split; [|split].
  - intros k l k' l' Hk Hl Hk' Hl' E. now apply (flat_inj n1).
  - intros c Hc. destruct (flat_surj n1 n2 c Hc) as (k & l & Hk & Hl & ->).
    exists k, l. destruct (H1 k l Hk Hl) as [Ha Hb]. repeat split; assumption.
  - exact H2.
Qed.
Print Assumptions C21_numbering_is_bijective.

(** The sizes of the four grids are those of a staggered grid. *)
Theorem C21_grid_sizes : forall Nx Nz, 1 <= Nx -> 1 <= Nz ->
  row_length Nx Vertices * row_count Nz Vertices = Nx * Nz /\
  row_length Nx VxNodes * row_count Nz VxNodes = Nx * (Nz + 1) /\
  row_length Nx VzNodes * row_count Nz VzNodes = (Nx + 1) * Nz /\
  row_length Nx Centres * row_count Nz Centres = (Nx - 1) * (Nz - 1).
Proof. intros. repeat split. Qed.
Print Assumptions C21_grid_sizes.

Example C21_ex :
  let t := grid_indices 4 3 (fun _ => (fun _ => -7, fun _ => -7)%Z) VzNodes in
  (fst t 13, snd t 13, fst t 15) = (3, 2, -7)%Z.
Proof. reflexivity. Qed.

(** ** C22 *)

Local Open Scope R_scope.

(** Every vertex gets the mean over its four touching cells (nearest cells at
    the boundary, wrapped laterally if periodic) with air cells counted as zero;
    air vertices get zero; nothing else is written; only existing cells are used. *)
Theorem C22_vertex_average :
  forall per Nx Nz C ptype gtype V, (2 <= Nx)%nat -> (2 <= Nz)%nat ->
  let V' := centres_to_vertices per Nx Nz C ptype gtype V in
  (forall k l, (k < Nx)%nat -> (l < Nz)%nat ->
     V' (k + l * Nx)%nat =
       (if Z.eqb (gtype (k + l * Nx)%nat) 30 then 0
        else Rsum (map (fun c => active ptype c * C c) (touching per Nx Nz k l)) / 4) /\
     (forall c, In c (touching per Nx Nz k l) -> (c < (Nx - 1) * (Nz - 1))%nat)) /\
  (forall c, (Nx * Nz <= c)%nat -> V' c = V c).
Proof.
  intros per Nx Nz C ptype gtype V HX HZ V'.
  destruct (centres_to_vertices_spec per Nx Nz C ptype gtype V) as [A B].
  split; [|exact B]. intros k l Hk Hl. split.
  - unfold V'. rewrite A by assumption. now apply vertex_value_spec.
  - intros c. now apply touching_lt.
Qed.
Print Assumptions C22_vertex_average.

(** Away from air: bounds, hence constants, are preserved. *)
Theorem C22_vertex_bounds :
  forall per Nx Nz C ptype gtype V k l lo hi,
  (2 <= Nx)%nat -> (2 <= Nz)%nat -> (k < Nx)%nat -> (l < Nz)%nat ->
  gtype (k + l * Nx)%nat <> 30%Z ->
  (forall c, In c (touching per Nx Nz k l) -> ptype c <> 30%Z /\ ptype c <> 31%Z /\ lo <= C c <= hi) ->
  lo <= centres_to_vertices per Nx Nz C ptype gtype V (k + l * Nx)%nat <= hi.
Proof.
  intros per Nx Nz C ptype gtype V k l lo hi HX HZ Hk Hl Hg Hc.
  destruct (C22_vertex_average per Nx Nz C ptype gtype V HX HZ) as [A _].
  destruct (A k l Hk Hl) as [-> _]. rewrite (proj2 (Z.eqb_neq _ _) Hg).
  assert (Q : forall c, In c (touching per Nx Nz k l) -> active ptype c = 1 /\ lo <= C c <= hi).
  { intros c I. destruct (Hc c I) as (H1 & H2 & H3). split; [|exact H3].
    unfold active, is_air. now rewrite (proj2 (Z.eqb_neq _ _) H1), (proj2 (Z.eqb_neq _ _) H2). }
  clear Hc. unfold touching in *. cbn [map Rsum fold_right In] in *.
  match goal with
  | |- lo <= (active ptype ?a * _ + (active ptype ?b * _ + (active ptype ?c * _ + (active ptype ?d * _ + 0)))) / 4 <= hi =>
    destruct (Q a ltac:(tauto)) as [E1 ?], (Q b ltac:(tauto)) as [E2 ?],
      (Q c ltac:(tauto)) as [E3 ?], (Q d ltac:(tauto)) as [E4 ?]
  end.
  rewrite E1, E2, E3, E4. lra.
Qed.
Print Assumptions C22_vertex_bounds.

(** Next to air a constant field is reduced by exactly the air fraction. *)
Theorem C22_air_deficit :
  forall per Nx Nz K ptype gtype V k l,
  (2 <= Nx)%nat -> (2 <= Nz)%nat -> (k < Nx)%nat -> (l < Nz)%nat ->
  gtype (k + l * Nx)%nat <> 30%Z ->
  let air := length (filter (fun c => is_air (ptype c)) (touching per Nx Nz k l)) in
  centres_to_vertices per Nx Nz (fun _ => K) ptype gtype V (k + l * Nx)%nat = K * (1 - INR air / 4).
Proof.
  intros per Nx Nz K ptype gtype V k l HX HZ Hk Hl Hg air.
  destruct (C22_vertex_average per Nx Nz (fun _ => K) ptype gtype V HX HZ) as [A _].
  destruct (A k l Hk Hl) as [-> _]. rewrite (proj2 (Z.eqb_neq _ _) Hg).
  unfold air, touching, active. cbn [map Rsum fold_right filter].
  repeat match goal with |- context [is_air ?t] => destruct (is_air t) end; cbn [length INR]; lra.
Qed.
Print Assumptions C22_air_deficit.

(** Inside the domain, away from air, the average of a field that is linear in
    the cell-centre position is exact at the vertex position. *)
Theorem C22_linear_fields_exact :
  forall per Nx Nz C ptype gtype V a b c k l,
  (1 <= k)%nat -> (k + 1 < Nx)%nat -> (1 <= l)%nat -> (l + 1 < Nz)%nat ->
  (forall i j, (i < Nx - 1)%nat -> (j < Nz - 1)%nat ->
     C (i + j * (Nx - 1))%nat = a + b * (INR i + 1/2) + c * (INR j + 1/2)) ->
  gtype (k + l * Nx)%nat <> 30%Z -> (forall q, is_air (ptype q) = false) ->
  centres_to_vertices per Nx Nz C ptype gtype V (k + l * Nx)%nat = a + b * INR k + c * INR l.
Proof.
  intros per Nx Nz C ptype gtype V a b c k l Hk Hk' Hl Hl' HC Hg Hp.
  destruct (C22_vertex_average per Nx Nz C ptype gtype V) as [A _]; [lia|lia|].
  destruct (A k l) as [-> _]; [lia|lia|]. rewrite (proj2 (Z.eqb_neq _ _) Hg).
  unfold touching, active. cbn [map Rsum fold_right]. rewrite !Hp.
  destruct k as [|k]; [lia|]. destruct l as [|l]; [lia|].
  cbn [west_cell south_cell]. unfold east_cell, north_cell.
  rewrite (proj2 (Nat.ltb_lt (S k) (Nx - 1))), (proj2 (Nat.ltb_lt (S l) (Nz - 1))) by lia.
  rewrite !HC by lia. rewrite !S_INR. lra.
Qed.
Print Assumptions C22_linear_fields_exact.

(** Vertices to centres: mean of the four corners for non-air cells; air cells
    and everything else untouched. *)
Theorem C22_centre_average :
  forall Nx Nz V ptype C,
  let C' := vertices_to_centres Nx Nz V ptype C in
  (forall k l, (k < Nx - 1)%nat -> (l < Nz - 1)%nat ->
     let c := (k + l * (Nx - 1))%nat in
     C' c = if is_air (ptype c) then C c else
       (V (k + l * Nx)%nat + V (k + 1 + l * Nx)%nat + V (k + (l + 1) * Nx)%nat + V (k + 1 + (l + 1) * Nx)%nat) / 4) /\
  (forall c, ((Nx - 1) * (Nz - 1) <= c)%nat -> C' c = C c).
Proof. exact vertices_to_centres_spec. Qed.
Print Assumptions C22_centre_average.

Theorem C22_centre_bounds :
  forall Nx Nz V ptype C k l lo hi, (k < Nx - 1)%nat -> (l < Nz - 1)%nat ->
  is_air (ptype (k + l * (Nx - 1))%nat) = false ->
  (forall i j, (k <= i <= k + 1)%nat -> (l <= j <= l + 1)%nat -> lo <= V (i + j * Nx)%nat <= hi) ->
  lo <= vertices_to_centres Nx Nz V ptype C (k + l * (Nx - 1))%nat <= hi.
Proof.
  intros Nx Nz V ptype C k l lo hi Hk Hl Ha Hb.
  destruct (vertices_to_centres_spec Nx Nz V ptype C) as [A _].
  specialize (A k l Hk Hl). cbv zeta in A. rewrite A, Ha.
  pose proof (Hb k l ltac:(lia) ltac:(lia)). pose proof (Hb (k + 1)%nat l ltac:(lia) ltac:(lia)).
  pose proof (Hb k (l + 1)%nat ltac:(lia) ltac:(lia)).
  pose proof (Hb (k + 1)%nat (l + 1)%nat ltac:(lia) ltac:(lia)). lra.
Qed.
Print Assumptions C22_centre_bounds.

(** Constants next to air are not preserved: a witness. *)
Theorem C22_constants_next_to_air_refuted :
  exists Nx Nz ptype gtype k l, (k < Nx)%nat /\ (l < Nz)%nat /\ gtype (k + l * Nx)%nat <> 30%Z /\
    centres_to_vertices false Nx Nz (fun _ => 1) ptype gtype (fun _ => 0) (k + l * Nx)%nat = 1/2.
Proof.
  exists 3%nat, 3%nat, (fun c => if (c <? 2)%nat then (-1)%Z else 31%Z), (fun _ => (-1)%Z), 1%nat, 1%nat.
  repeat split; try lia. rewrite C22_air_deficit by (lia || discriminate). cbn. lra.
Qed.
Print Assumptions C22_constants_next_to_air_refuted.

(** Instance: 3x3 vertices, cell values 1 2 / 3 4, all cells active. *)
Example C22_ex :
  let C := fun c => INR (c + 1) in let t := fun _ => (-1)%Z in
  let V := centres_to_vertices false 3 3 C t t (fun _ => 0) in
  V 4%nat = 10/4 /\ V 0%nat = 1 /\ V 1%nat = 3/2 /\
  centres_to_vertices true 3 3 C t t (fun _ => 0) 0%nat = 3/2.
Proof.
  cbv zeta. repeat split;
  match goal with |- centres_to_vertices ?p _ _ ?C ?t ?g ?V _ = _ =>
    destruct (C22_vertex_average p 3 3 C t g V) as [A _]; [lia|lia|] end.
  - destruct (A 1%nat 1%nat ltac:(lia) ltac:(lia)) as [B _]. change (1 + 1 * 3)%nat with 4%nat in B.
    rewrite B. unfold active. cbn. lra.
  - destruct (A 0%nat 0%nat ltac:(lia) ltac:(lia)) as [B _]. change (0 + 0 * 3)%nat with 0%nat in B.
    rewrite B. unfold active. cbn. lra.
  - destruct (A 1%nat 0%nat ltac:(lia) ltac:(lia)) as [B _]. change (1 + 0 * 3)%nat with 1%nat in B.
    rewrite B. unfold active. cbn. lra.
  - destruct (A 0%nat 0%nat ltac:(lia) ltac:(lia)) as [B _]. change (0 + 0 * 3)%nat with 0%nat in B.
    rewrite B. unfold active. cbn. lra.
Qed.

(** ** C23 *)

(** One direction of the grid; [old] holds the previous contents of the arrays. *)
Theorem C23_coordinates_tile_the_domain :
  forall lo hi lo0 hi0 n old, lo < hi -> (2 <= n)%nat ->
  let g := set_coordinates lo hi lo0 hi0 n old in
  (* vertices: from bound to bound, equally spaced, increasing *)
  cg g 0%nat = lo /\ cg g (n - 1)%nat = hi /\ 0 < sp g /\
  (forall i, (i + 1 < n)%nat -> cg g (i + 1)%nat - cg g i = sp g) /\
  (forall i j, (i < j)%nat -> (j < n)%nat -> cg g i < cg g j) /\
  (* centres midway between vertices *)
  (forall i, (i + 1 < n)%nat -> cc g i = (cg g i + cg g (i + 1)%nat) / 2) /\
  (* staggered nodes: centres inside, half a cell outside at both ends *)
  cv g 0%nat = lo - sp g / 2 /\ cv g n = hi + sp g / 2 /\
  (forall i, (i + 1 < n)%nat -> cv g (i + 1)%nat = cc g i) /\
  (* extended vertices: vertices inside, one cell outside at both ends *)
  cext g 0%nat = lo - sp g /\ cext g (n + 1)%nat = hi + sp g /\
  (forall i, (i < n)%nat -> cext g (i + 1)%nat = cg g i).
Proof.
  intros lo hi lo0 hi0 n old Hlt Hn g.
  pose proof (spacing_pos lo hi n Hlt Hn) as Hd. pose proof (spacing_total lo hi n Hn) as Ht.
  unfold g, set_coordinates. cbn [sp cg cc cv cext].
  set (d := spacing lo hi n) in *. clearbody d.
  destruct (ladder_spec lo d n (cg old)) as [G _]; [lia|].
  destruct (ladder_spec (lo + d / 2) d (n - 1) (cc old)) as [C _]; [lia|].
  destruct (ladder_spec (lo - d / 2) d (n + 1) (cv old)) as [V _]; [lia|].
  destruct (ladder_spec (lo - d) d (n + 2) (cext old)) as [E _]; [lia|].
  assert (Hnn : INR n = INR (n - 1) + 1) by (rewrite <- S_INR; f_equal; lia).
  split; [rewrite G by lia; cbn [INR]; lra|].
  split; [rewrite G by lia; exact Ht|].
  split; [exact Hd|].
  split; [intros i Hi; rewrite !G by lia; rewrite plus_INR; cbn [INR]; lra|].
  split; [intros i j Hij Hj; rewrite !G by lia; apply lt_INR in Hij; nra|].
  split; [intros i Hi; rewrite C, !G by lia; rewrite plus_INR; cbn [INR]; lra|].
  split; [rewrite V by lia; cbn [INR]; lra|].
  split; [rewrite V by lia; rewrite Hnn; lra|].
  split; [intros i Hi; rewrite V, C by lia; rewrite plus_INR; cbn [INR]; lra|].
  split; [rewrite E by lia; cbn [INR]; lra|].
  split; [rewrite E by lia; rewrite plus_INR, Hnn; cbn [INR]; lra|].
  intros i Hi. rewrite E, G by lia. rewrite plus_INR. cbn [INR]. lra.
Qed.
Print Assumptions C23_coordinates_tile_the_domain.

(** The coordinates of the initial mesh tile the initial domain. *)
Theorem C23_initial_coordinates :
  forall lo hi lo0 hi0 n old, lo0 < hi0 -> (2 <= n)%nat ->
  let g := set_coordinates lo hi lo0 hi0 n old in
  cg0 g 0%nat = lo0 /\ cg0 g (n - 1)%nat = hi0 /\
  (forall i, (i < n)%nat -> cg0 g i = lo0 + INR i * (hi0 - lo0) / INR (n - 1)).
Proof.
  intros lo hi lo0 hi0 n old Hlt Hn g. pose proof (spacing_total lo0 hi0 n Hn) as Ht.
  unfold g, set_coordinates. cbn [cg0].
  destruct (ladder_spec lo0 (spacing lo0 hi0 n) n (cg0 old)) as [G _]; [lia|].
  split; [rewrite G by lia; cbn [INR]; lra|].
  split; [rewrite G by lia; exact Ht|].
  intros i Hi. rewrite G by lia. unfold spacing. rewrite minus_INR by lia.
  apply le_INR in Hn. cbn [INR] in *. field. lra.
Qed.
Print Assumptions C23_initial_coordinates.

(** Arrays are not written beyond their lengths. *)
Theorem C23_writes_in_range :
  forall lo hi lo0 hi0 n old i, (2 <= n)%nat ->
  let g := set_coordinates lo hi lo0 hi0 n old in
  ((n <= i)%nat -> cg g i = cg old i /\ cg0 g i = cg0 old i) /\
  ((n - 1 <= i)%nat -> cc g i = cc old i) /\
  ((n + 1 <= i)%nat -> cv g i = cv old i) /\
  ((n + 2 <= i)%nat -> cext g i = cext old i).
Proof.
  intros lo hi lo0 hi0 n old i Hn g. unfold g, set_coordinates. cbn [cg cg0 cc cv cext].
  repeat split; intros; apply ladder_spec; lia.
Qed.
Print Assumptions C23_writes_in_range.

Example C23_ex : cc (set_coordinates 0 10 0 10 6 (Coords 0 INR INR INR INR INR)) 2%nat = 5.
Proof.
  destruct (C23_coordinates_tile_the_domain 0 10 0 10 6 (Coords 0 INR INR INR INR INR))
    as (H0 & _ & _ & H1 & _ & H2 & _); [lra|lia|].
  rewrite H2 by lia. unfold set_coordinates. cbn [cg].
  destruct (ladder_spec 0 (spacing 0 10 6) 6 INR) as [G _]; [lia|].
  rewrite !G by lia. unfold spacing. cbn. field.
Qed.
