(** C36-C39: boundary positions, shear templates, balancing and smoothing. *)
From Coq Require Import Reals ZArith List Bool Lia Lra Psatz.
Import ListNotations.
From Verif Require Import GridModel GridProps P2GModel P2GProofs SideModel SideProofs.
Local Open Scope R_scope.

(** ** C36 *)
(** [kE], [lN] = last column and row of the grid of nodes. The four equivalences
    determine the position completely. *)
Theorem C36_position_tells_the_sides : forall kE lN k l,
  (1 <= kE)%nat -> (1 <= lN)%nat -> (k <= kE)%nat -> (l <= lN)%nat ->
  let p := classify kE lN k l in
  (on_west p <-> k = 0%nat) /\ (on_east p <-> k = kE) /\
  (on_south p <-> l = 0%nat) /\ (on_north p <-> l = lN) /\ p <> FreeSurface.
Proof.
  intros kE lN k l H1 H2 H3 H4. unfold classify, on_west, on_east, on_south, on_north.
  destruct (Nat.eqb_spec k 0), (Nat.eqb_spec k kE), (Nat.eqb_spec l 0), (Nat.eqb_spec l lN); try lia;
  (split; [|split; [|split; [|split]]]); try (split; [intros [E|[E|E]]; (discriminate || assumption)|intros; (tauto || lia)]); discriminate.
Qed.
Print Assumptions C36_position_tells_the_sides.

(** The three staggered grids: last column and row. *)
Theorem C36_velocity_positions : forall nx nz k l, (2 <= nx)%nat -> (2 <= nz)%nat ->
  ((k < nx)%nat -> (l < nz + 1)%nat ->
     (on_west (pos_vx nx nz k l) <-> k = 0%nat) /\ (on_east (pos_vx nx nz k l) <-> k = nx - 1)%nat /\
     (on_south (pos_vx nx nz k l) <-> l = 0%nat) /\ (on_north (pos_vx nx nz k l) <-> l = nz)) /\
  ((k < nx + 1)%nat -> (l < nz)%nat ->
     (on_west (pos_vz nx nz k l) <-> k = 0%nat) /\ (on_east (pos_vz nx nz k l) <-> k = nx) /\
     (on_south (pos_vz nx nz k l) <-> l = 0%nat) /\ (on_north (pos_vz nx nz k l) <-> l = nz - 1)%nat).
Proof.
  intros nx nz k l Hx Hz. split; intros Hk Hl.
  - destruct (C36_position_tells_the_sides (nx - 1) nz k l) as (A & B & C & D & _); try lia. auto.
  - destruct (C36_position_tells_the_sides nx (nz - 1) k l) as (A & B & C & D & _); try lia. auto.
Qed.
Print Assumptions C36_velocity_positions.

Theorem C36_pressure_position : forall ncx ncz tp k l, (2 <= ncx)%nat -> (2 <= ncz)%nat -> (k < ncx)%nat -> (l < ncz)%nat ->
  let p := pos_p ncx ncz tp k l in
  (on_west p <-> k = 0%nat) /\ (on_east p <-> k = ncx - 1)%nat /\
  (on_south p <-> l = 0%nat) /\ (on_north p <-> l = ncz - 1)%nat /\
  (p = FreeSurface <-> (0 < k < ncx - 1)%nat /\ (0 < l < ncz - 1)%nat /\
                       (tp k l = -1 \/ tp k l = 1 \/ tp k l = 0)%Z /\ tp k (S l) = 30%Z).
Proof.
  intros ncx ncz tp k l H1 H2 H3 H4 p.
  destruct (C36_position_tells_the_sides (ncx - 1) (ncz - 1) k l) as (A & B & C & D & E); try lia.
  unfold p, pos_p. clear p. revert A B C D E. generalize (classify (ncx - 1) (ncz - 1) k l) as q. intros q A B C D E.
  destruct q; try (
    (split; [exact A|split; [exact B|split; [exact C|split; [exact D|]]]]);
    split; [discriminate|]; intros (K1 & K2 & _); exfalso;
    unfold on_west, on_east, on_south, on_north in *;
    first [ assert (k = 0%nat) by (apply A; tauto); lia | assert (k = ncx - 1)%nat by (apply B; tauto); lia
          | assert (l = 0%nat) by (apply C; tauto); lia | assert (l = ncz - 1)%nat by (apply D; tauto); lia ]).
  - 
    assert (k <> 0)%nat by (intros X; apply A in X; destruct X as [X|[X|X]]; discriminate).
    assert (k <> ncx - 1)%nat by (intros X; apply B in X; destruct X as [X|[X|X]]; discriminate).
    assert (l <> 0)%nat by (intros X; apply C in X; destruct X as [X|[X|X]]; discriminate).
    assert (l <> ncz - 1)%nat by (intros X; apply D in X; destruct X as [X|[X|X]]; discriminate).
    assert (G : forall b : bool, let p := if b then FreeSurface else INTERNAL in
      (on_west p <-> k = 0%nat) /\ (on_east p <-> k = ncx - 1)%nat /\ (on_south p <-> l = 0%nat) /\ (on_north p <-> l = ncz - 1)%nat).
    { intros b. unfold on_west, on_east, on_south, on_north. destruct b; cbn; repeat split; try (intros [X|[X|X]]; discriminate); intros; lia. }
    destruct (G (((tp k l =? -1)%Z || (tp k l =? 1)%Z || (tp k l =? 0)%Z) && (tp k (S l) =? 30)%Z)) as (G1 & G2 & G3 & G4).
    split; [exact G1|split; [exact G2|split; [exact G3|split; [exact G4|]]]].
    destruct (Z.eqb_spec (tp k l) (-1)), (Z.eqb_spec (tp k l) 1), (Z.eqb_spec (tp k l) 0), (Z.eqb_spec (tp k (S l)) 30); cbn [orb andb];
    (split; [intros X; try discriminate; repeat split; try lia|intros (X1 & X2 & X3 & X4); try reflexivity; exfalso; lia]).
  - now elim E.
Qed.
Print Assumptions C36_pressure_position.

(** In a model one cell wide the single column is the east side, too, but is never
    reported as such. *)
Theorem C36_single_column_refuted : exists ncx ncz tp k l,
  (1 <= ncx)%nat /\ (2 <= ncz)%nat /\ (k < ncx)%nat /\ (l < ncz)%nat /\ k = (ncx - 1)%nat /\ ~ on_east (pos_p ncx ncz tp k l).
Proof.
  exists 1%nat, 3%nat, (fun _ _ => (-1)%Z), 0%nat, 1%nat. repeat split; try lia. intros [E|[E|E]]; discriminate.
Qed.
Print Assumptions C36_single_column_refuted.

Lemma internal_iff : forall kE lN k l, (k <= kE)%nat -> (l <= lN)%nat ->
  classify kE lN k l = INTERNAL <-> (0 < k < kE)%nat /\ (0 < l < lN)%nat.
Proof.
  intros kE lN k l Hk Hl. unfold classify.
  destruct (Nat.eqb_spec k 0), (Nat.eqb_spec k kE), (Nat.eqb_spec l 0), (Nat.eqb_spec l lN);
  (split; [intros X; try discriminate X; lia|intros; try reflexivity; lia]).
Qed.

(** What the callback says is stored at every node that is not air; nodes are -1
    exactly inside; anything else stops the program. *)
Theorem C36_callback_results_stored : forall kE lN cb t v,
  (1 <= kE)%nat -> (1 <= lN)%nat ->
  let ty k l := fst (cb (classify kE lN k l) k l) in
  let va k l := snd (cb (classify kE lN k l) k l) in
  let inner k l := (0 < k < kE)%nat /\ (0 < l < lN)%nat in
  ( (exists s, set_bcs kE lN cb t v = Some s) <->
    forall k l, (k <= kE)%nat -> (l <= lN)%nat -> t k l <> 30%Z -> (ty k l = (-1)%Z <-> inner k l) ) /\
  forall s, set_bcs kE lN cb t v = Some s ->
    (forall k l, (k <= kE)%nat -> (l <= lN)%nat -> t k l <> 30%Z ->
       bt s k l = ty k l /\ bv s k l = (if (ty k l =? 11)%Z then 2 else 1) * va k l) /\
    (forall k l, t k l = 30%Z -> bt s k l = 30%Z /\ bv s k l = v k l) /\
    wsum s = sum_from 0 (lN + 1) (fun l => if (t 0%nat l =? 30)%Z then 0 else va 0%nat l) /\
    esum s = sum_from 0 (lN + 1) (fun l => if (t kE l =? 30)%Z then 0 else va kE l) /\
    ssum s = sum_from 1 (kE - 1) (fun k => if (t k 0%nat =? 30)%Z then 0 else va k 0%nat).
Proof.
  intros kE lN cb t v HkE HlN ty' va' inner.
  assert (OK : forall k l, (k <= kE)%nat -> (l <= lN)%nat -> ok kE lN cb k l <-> (ty' k l = (-1)%Z <-> inner k l)).
  { intros k l Hk Hl. unfold inner. rewrite <- internal_iff by assumption. unfold ok, SideProofs.ty, validate_internal. fold (ty' k l).
    destruct (Z.eqb_spec (ty' k l) (-1)); destruct (classify kE lN k l); cbn [negb]; intuition congruence. }
  assert (Spec := fun s H => fold_spec kE lN cb (nodes kE lN) (BCs t v 0 0 0) s (nodup_nodes kE lN) H).
  cbn [bt bv wsum esum ssum] in Spec. split.
  - split.
    + intros (s & H) k l Hk Hl N. destruct (Spec s H) as (S1 & _). apply OK; auto.
      apply (S1 k l); [now apply in_nodes|exact N].
    + intros H. apply fold_complete; [apply nodup_nodes|]. intros k l I N. apply in_nodes in I. apply OK; try tauto. now apply H.
  - intros s H. destruct (Spec s H) as (S1 & S2 & S3 & S4 & S5).
    split; [|split; [|split; [|split]]].
    + intros k l Hk Hl N. destruct (S1 k l (proj2 (in_nodes _ _ _ _) (conj Hk Hl)) N) as (_ & E1 & E2).
      split; [exact E1|]. rewrite E2. unfold stored, SideProofs.ty, SideProofs.va. fold (ty' k l) (va' k l).
      destruct (Z.eqb _ _); lra.
    + intros k l N. destruct (S2 k l (or_intror N)) as [E1 E2]. rewrite E1, E2. auto.
    + rewrite S3, Rplus_0_l.
      set (F := (fun k l => if (t k l =? 30)%Z then 0 else if Nat.eqb k 0 then va' k l else 0)).
      transitivity (sum_from 0 (lN + 1) (fun l => sum_from 0 (kE + 1) (fun k => F k l)));
        [rewrite <- sumR_nodes; apply sumR_ext; intros [k l] _; reflexivity|]. unfold F.
      unfold sum_from. apply sumR_ext. intros l _. rewrite (sumR_single _ 0).
      * destruct (Nat.leb_spec 0 0), (Nat.ltb_spec 0 (0 + (kE + 1))); try lia. reflexivity.
      * intros k Hk. destruct (Z.eqb _ _), (Nat.eqb_spec k 0); try reflexivity; contradiction.
    + rewrite S4, Rplus_0_l.
      set (F := (fun k l => if (t k l =? 30)%Z then 0 else if negb (Nat.eqb k 0) && Nat.eqb k kE then va' k l else 0)).
      transitivity (sum_from 0 (lN + 1) (fun l => sum_from 0 (kE + 1) (fun k => F k l)));
        [rewrite <- sumR_nodes; apply sumR_ext; intros [k l] _; reflexivity|]. unfold F.
      unfold sum_from. apply sumR_ext. intros l _. rewrite (sumR_single _ kE).
      * destruct (Nat.leb_spec 0 kE), (Nat.ltb_spec kE (0 + (kE + 1))); try lia. cbn [andb].
        destruct (Nat.eqb_spec kE 0); [lia|]. rewrite Nat.eqb_refl. reflexivity.
      * intros k Hk. destruct (Z.eqb _ _), (Nat.eqb_spec k kE); try reflexivity; try contradiction. now rewrite andb_false_r.
    + rewrite S5, Rplus_0_l.
      set (F := (fun k l => if (t k l =? 30)%Z then 0 else if negb (Nat.eqb k 0) && negb (Nat.eqb k kE) && Nat.eqb l 0 then va' k l else 0)).
      transitivity (sum_from 0 (lN + 1) (fun l => sum_from 0 (kE + 1) (fun k => F k l)));
        [rewrite <- sumR_nodes; apply sumR_ext; intros [k l] _; reflexivity|]. unfold F. unfold sum_from. rewrite (sumR_single _ 0).
      * destruct (Nat.leb_spec 0 0), (Nat.ltb_spec 0 (0 + (lN + 1))); try lia. cbn [andb].
        replace (kE + 1)%nat with (S (S (kE - 1))) by lia. rewrite seq_S. cbn [seq]. rewrite sumR_app, sumR_cons.
        replace (0 + S (kE - 1))%nat with kE by lia. rewrite sumR_cons, !Nat.eqb_refl. cbn [negb andb].
        rewrite andb_false_r. cbn [andb].
        rewrite (sumR_ext _ _ (fun k => if (t k 0%nat =? 30)%Z then 0 else va' k 0%nat)).
        -- unfold sumR at 2. cbn [fold_right]. destruct (Z.eqb _ _), (Z.eqb _ _); lra.
        -- intros k Hk. apply in_seq in Hk. destruct (Nat.eqb_spec k 0), (Nat.eqb_spec k kE); try lia. reflexivity.
      * intros l Hl. rewrite (sumR_ext _ _ (fun _ => 0)); [apply sumR_zero|]. intros k _.
        destruct (Nat.eqb_spec l 0); [contradiction|]. rewrite andb_false_r. destruct (Z.eqb _ _); reflexivity.
Qed.
Print Assumptions C36_callback_results_stored.

Example C36_ex : pos_vx 5 4 0 0 = SW /\ pos_vx 5 4 2 4 = North /\ pos_vz 5 4 5 2 = East /\
  pos_p 4 3 (fun _ l => if Nat.leb l 1 then (-1)%Z else 30%Z) 1 1 = FreeSurface /\
  exists s, set_bcs 4 4 (pure_vx 1 INR) (fun _ _ => (-1)%Z) (fun _ _ => 0) = Some s /\ bv s 4%nat 2%nat = -4 /\ bt s 1%nat 1%nat = (-1)%Z.
Proof.
  repeat split; try reflexivity.
  destruct (C36_callback_results_stored 4 4 (pure_vx 1 INR) (fun _ _ => (-1)%Z) (fun _ _ => 0) ltac:(lia) ltac:(lia)) as [A B].
  destruct (proj2 A) as (s & Hs).
  - intros k l Hk Hl _. rewrite <- internal_iff by assumption. unfold pure_vx.
    pose proof (C36_position_tells_the_sides 4 4 k l ltac:(lia) ltac:(lia) Hk Hl) as (_ & _ & _ & _ & P5). cbv zeta in P5.
    destruct (classify 4 4 k l); cbn; intuition congruence.
  - exists s. split; [exact Hs|]. destruct (B s Hs) as (B1 & _).
    destruct (B1 4%nat 2%nat ltac:(lia) ltac:(lia) ltac:(lia)) as [_ E]. destruct (B1 1%nat 1%nat ltac:(lia) ltac:(lia) ltac:(lia)) as [E' _].
    split; [rewrite E; cbn; lra|rewrite E'; reflexivity].
Qed.

(** ** C37 *)
(** Net outward flux of the normal velocities set on the four sides. *)
Definition net_flux (nx nz : nat) (dx dz : R) (vx vz : nat -> nat -> R) : R :=
  dz * sum_from 1 (nz - 1) (fun l => vx (nx - 1)%nat l - vx 0%nat l) +
  dx * sum_from 1 (nx - 1) (fun k => vz k (nz - 1)%nat - vz k 0%nat).

Theorem C37_pure_shear_conserves_mass : forall xmin xmax zmin zmax x0 x1 z0 z1 nx nz oldx oldz e,
  xmin < xmax -> zmin < zmax -> (2 <= nx)%nat -> (2 <= nz)%nat ->
  let gx := set_coordinates xmin xmax x0 x1 nx oldx in
  let gz := set_coordinates zmin zmax z0 z1 nz oldz in
  net_flux nx nz (sp gx) (sp gz)
    (fun k l => snd (pure_vx e (cg gx) (pos_vx nx nz k l) k l)) (fun k l => snd (pure_vz e (cg gz) (pos_vz nx nz k l) k l)) = 0.
Proof.
  intros xmin xmax zmin zmax x0 x1 z0 z1 nx nz oldx oldz e Hx Hz Nx Nz gx gz.
  destruct (C23_coordinates_tile_the_domain xmin xmax x0 x1 nx oldx Hx Nx) as (X0 & X1 & Xp & Xd & _).
  destruct (C23_coordinates_tile_the_domain zmin zmax z0 z1 nz oldz Hz Nz) as (Z0 & Z1 & Zp & Zd & _).
  fold gx in X0, X1, Xp, Xd. fold gz in Z0, Z1, Zp, Zd.
  assert (Tot : forall (g : coords) (n : nat) a b, (1 <= n)%nat -> cg g 0%nat = a -> cg g (n - 1)%nat = b ->
            (forall i, (i + 1 < n)%nat -> cg g (i + 1)%nat - cg g i = sp g) -> INR (n - 1) * sp g = b - a).
  { intros g n a b Hn Ha Hb Hd. rewrite <- Ha, <- Hb. clear Ha Hb.
    assert (G : forall m, (m <= n - 1)%nat -> INR m * sp g = cg g m - cg g 0%nat).
    { induction m as [|m IH]; intros Hm; [cbn; lra|]. rewrite S_INR. specialize (IH ltac:(lia)). specialize (Hd m ltac:(lia)).
      replace (m + 1)%nat with (S m) in Hd by lia. lra. }
    apply G. lia. }
  pose proof (Tot gx nx xmin xmax ltac:(lia) X0 X1 Xd) as TX. pose proof (Tot gz nz zmin zmax ltac:(lia) Z0 Z1 Zd) as TZ.
  unfold net_flux, sum_from.
  rewrite (sumR_ext _ _ (fun _ => - (xmax - xmin) * e)).
  - rewrite (sumR_ext _ _ (fun _ => (zmax - zmin) * e) (seq 1 (nx - 1))).
    + rewrite !sumR_const, !seq_length. nra.
    + intros k Hk. apply in_seq in Hk. unfold pos_vz, classify.
      destruct (Nat.eqb_spec k 0), (Nat.eqb_spec k nx), (Nat.eqb_spec (nz - 1) 0); try lia. rewrite !Nat.eqb_refl. cbn [pure_vz snd].
      rewrite Z0, Z1. lra.
  - intros l Hl. apply in_seq in Hl. unfold pos_vx, classify.
    destruct (Nat.eqb_spec (nx - 1) 0), (Nat.eqb_spec l 0), (Nat.eqb_spec l nz); try lia. rewrite !Nat.eqb_refl. cbn [pure_vx snd].
    rewrite X0, X1. lra.
Qed.
Print Assumptions C37_pure_shear_conserves_mass.

(** Simple shear: no flow through the top and bottom, the sides are periodic (what
    leaves on one side enters on the other). *)
Theorem C37_simple_shear_conserves_mass : forall e zmin zmax nx nz k l, (2 <= nx)%nat -> (2 <= nz)%nat ->
  ((0 < l < nz)%nat -> simple_vx e zmin zmax (pos_vx nx nz 0 l) 0 l = ((-2)%Z, 0) /\
                       simple_vx e zmin zmax (pos_vx nx nz (nx - 1) l) (nx - 1) l = ((-12)%Z, 0)) /\
  ((0 < k < nx)%nat -> simple_vz (pos_vz nx nz k 0) k 0 = (0%Z, 0) /\ simple_vz (pos_vz nx nz k (nz - 1)) k (nz - 1) = (0%Z, 0)).
Proof.
  intros e zmin zmax nx nz k l Hx Hz. split; intros H; unfold pos_vx, pos_vz, classify; cbn [Nat.eqb].
  - destruct (Nat.eqb_spec l nz), (Nat.eqb_spec l 0), (Nat.eqb_spec (nx - 1) 0); try lia. rewrite Nat.eqb_refl. auto.
  - destruct (Nat.eqb_spec k 0), (Nat.eqb_spec k nx), (Nat.eqb_spec (nz - 1) 0); try lia. rewrite Nat.eqb_refl. auto.
Qed.
Print Assumptions C37_simple_shear_conserves_mass.

(** Every node gets an admissible type: the set-up never stops, and the types are
    the documented ones. *)
Theorem C37_templates_accepted : forall nx nz e x z zmin zmax t v, (2 <= nx)%nat -> (2 <= nz)%nat ->
  (exists s, set_bcs (nx - 1) nz (pure_vx e x) t v = Some s) /\ (exists s, set_bcs nx (nz - 1) (pure_vz e z) t v = Some s) /\
  (exists s, set_bcs (nx - 1) nz (simple_vx e zmin zmax) t v = Some s) /\ (exists s, set_bcs nx (nz - 1) simple_vz t v = Some s) /\
  (forall p k l, p <> FreeSurface ->
     (In (fst (pure_vx e x p k l)) [-1; 0; 13] /\ In (fst (pure_vz e z p k l)) [-1; 0; 13] /\
      In (fst (simple_vx e zmin zmax p k l)) [-1; 11; -2; -12] /\ In (fst (simple_vz p k l)) [-1; 0; -12])%Z).
Proof.
  intros nx nz e x z zmin zmax t v Hx Hz.
  assert (G : forall kE lN cb, (1 <= kE)%nat -> (1 <= lN)%nat -> (forall p k l, p <> FreeSurface -> (fst (cb p k l) = (-1)%Z <-> p = INTERNAL)) ->
              exists s, set_bcs kE lN cb t v = Some s).
  { intros kE lN cb H1 H2 H. apply fold_complete; [apply nodup_nodes|]. intros k l I _. apply in_nodes in I.
    destruct (C36_position_tells_the_sides kE lN k l H1 H2 ltac:(lia) ltac:(lia)) as (_ & _ & _ & _ & NF).
    specialize (H _ k l NF). unfold ok, ty. unfold validate_internal.
    destruct (classify kE lN k l); match goal with |- context [(?a =? -1)%Z] => destruct (Z.eqb_spec a (-1)) as [E|E] end; try reflexivity;
    try (apply H in E; discriminate); exfalso; apply E; now apply H. }
  split; [|split; [|split; [|split]]]; try (apply G; try lia; intros p k l N; destruct p; cbn; intuition congruence).
  intros p k l N. destruct p; cbn; intuition.
Qed.
Print Assumptions C37_templates_accepted.

(** The flow each template describes: pure shear (-e x, e z) and simple shear of
    rate 2 e satisfy the boundary conditions exactly (type 11: the mean of the ghost
    and inner values is the wall value, i.e. their sum is the stored double value). *)
Theorem C37_template_flows : forall e zmin zmax dz x z k,
  let lin (a : R) := 2 * e * (a - (zmin + zmax) / 2) in
  snd (pure_vx e x West k 0%nat) = - e * x k /\ snd (pure_vx e x East k 0%nat) = - e * x k /\
  snd (pure_vz e z South 0%nat k) = e * z k /\ snd (pure_vz e z North 0%nat k) = e * z k /\
  lin (zmin - dz / 2) + lin (zmin + dz / 2) = 2 * snd (simple_vx e zmin zmax South k 0%nat) /\
  lin (zmax - dz / 2) + lin (zmax + dz / 2) = 2 * snd (simple_vx e zmin zmax North k 0%nat).
Proof. intros. unfold lin. cbn. lra. Qed.
Print Assumptions C37_template_flows.

Example C37_ex : net_flux 3 3 1 1
  (fun k l => snd (pure_vx 2 INR (pos_vx 3 3 k l) k l)) (fun k l => snd (pure_vz 2 INR (pos_vz 3 3 k l) k l)) = 0 /\
  snd (pure_vx 2 INR (pos_vx 3 3 2 1) 2 1) = -4.
Proof. split; cbv -[Rplus Rmult Rdiv Rminus Ropp Rinv IZR]; lra. Qed.

(** ** C38 *)
Definition wall_sum (t : nat -> Z) (v : nat -> R) (from count : nat) : R :=
  sum_from from count (fun l => if (t l =? 30)%Z then 0 else v l).

Lemma sum_rows : forall t v from count,
  sumR v (rows (fun l => (t l =? 30)%Z) from count) = wall_sum t v from count.
Proof.
  intros. unfold rows, wall_sum, sum_from. induction (seq from count) as [|l L IH]; [reflexivity|]. cbn [filter].
  rewrite sumR_cons. destruct (Z.eqb (t l) 30); cbn [negb]; [rewrite IH; lra|rewrite sumR_cons, IH; lra].
Qed.
Lemma sum_filled : forall (v : nat -> R) (c : R) (L : list nat),
  sumR (fun l => if is0 (v l) then c else v l) L = sumR v L + INR (length (filter (fun l => is0 (v l)) L)) * c.
Proof.
  intros v c L. induction L as [|l L IH]; [cbn; unfold sumR; cbn; lra|]. rewrite !sumR_cons, IH. cbn [filter].
  destruct (is0_spec (v l)) as [->|]; cbn [length]; [rewrite S_INR|]; lra.
Qed.

Lemma smoothed_inv : forall n space w v1 m v2, smoothed n space w = Balanced v1 m v2 ->
  v1 = w /\ m = n /\ exists b, v2 = write_back n w b /\
    (b = (fun i => w (i + 1)%nat) \/ exists kap dx, kappa dx = Some kap /\ b = smooth kap n (fun i => w (i + 1)%nat)).
Proof.
  intros n space w v1 m v2 H. unfold smoothed in H. destruct (Nat.leb n 2).
  - injection H as <- <- <-. eauto 6.
  - destruct (kappa _) eqn:E; [|discriminate]. injection H as <- <- <-.
    split; [reflexivity|]. split; [reflexivity|]. eexists. split; [reflexivity|]. right. eauto.
Qed.

Lemma sum_fill : forall t v c lo hi from count, (lo <= from)%nat -> (from + count <= hi + 1)%nat ->
  wall_sum t (fill lo hi t v c) from count = wall_sum t v from count + INR (zero_count t v from count) * c.
Proof.
  intros t v c lo hi from count Hlo Hhi. rewrite <- !sum_rows. unfold zero_count. rewrite <- sum_filled. apply sumR_ext.
  intros l Hl. unfold rows in Hl. apply filter_In in Hl. destruct Hl as [Hl A]. apply in_seq in Hl. unfold fill. rewrite A.
  destruct (Nat.leb_spec lo l), (Nat.leb_spec l hi); try lia. reflexivity.
Qed.

(** Correction of a side: the sum is taken over all rows including the corner rows 0
    and nz. The physical rows 1 .. nz-1 are left with minus the corner values. *)
Theorem C38_side_corrected_sum : forall nz t v space v1 n v2, (1 <= nz)%nat ->
  balance_side nz t v (wall_sum t v 0 (nz + 1)) space = Balanced v1 n v2 ->
  wall_sum t v1 1 (nz - 1) = - (wall_sum t v 0 1 + wall_sum t v nz 1) /\
  (forall l, v l <> 0 -> v1 l = v l) /\
  (wall_sum t v 0 1 = 0 -> wall_sum t v nz 1 = 0 -> wall_sum t v1 1 (nz - 1) = 0).
Proof.
  intros nz t v space v1 n v2 Hn H. unfold balance_side in H. set (S := wall_sum t v 0 (nz + 1)) in *.
  destruct (beyond S); cbn [negb] in H; [|discriminate]. cbv zeta in H.
  destruct (Nat.eqb_spec (zero_count t v 1 (nz - 1)) 0) as [|C]; [discriminate|].
  destruct (Nat.eqb (beyond_count _ _ _ _) 0) in H; [discriminate|].
  destruct (smoothed_inv _ _ _ _ _ _ H) as (-> & _ & _).
  assert (Sp : S = wall_sum t v 0 1 + wall_sum t v 1 (nz - 1) + wall_sum t v nz 1).
  { unfold S, wall_sum, sum_from. replace (nz + 1)%nat with (1 + (nz - 1) + 1)%nat by lia. rewrite !seq_app, !sumR_app.
    replace (0 + (1 + (nz - 1)))%nat with nz by lia. replace (0 + 1)%nat with 1%nat by lia. lra. }
  assert (M : wall_sum t (fill 1 nz t v (- S / INR (zero_count t v 1 (nz - 1)))) 1 (nz - 1) = - (wall_sum t v 0 1 + wall_sum t v nz 1)).
  { rewrite sum_fill by lia. apply not_0_INR in C. replace (_ * (- S / _)) with (- S) by (field; exact C). lra. }
  split; [exact M|]. split.
  - intros l N. unfold fill. destruct (is0_spec (v l)); [contradiction|]. now rewrite andb_false_r.
  - intros A B. rewrite M, A, B. lra.
Qed.
Print Assumptions C38_side_corrected_sum.

(** South: the corners take part of the correction but are not counted in the sum;
    the physical columns keep the fraction (zero corners)/(zero values). *)
Theorem C38_south_corrected_sum : forall nx t v space v1 n v2, (1 <= nx)%nat ->
  let S := wall_sum t v 1 (nx - 1) in
  let zeros from count := length (filter (fun k => negb (t k =? 30)%Z && is0 (v k)) (seq from count)) in
  balance_south nx t v S space = Balanced v1 n v2 ->
  wall_sum t v1 1 (nx - 1) = S * INR (zeros 0 1 + zeros nx 1)%nat / INR (zeros 0 (nx + 1))%nat.
Proof.
  intros nx t v space v1 n v2 Hn S zeros H. unfold balance_south in H. fold S in H.
  destruct (beyond S); cbn [negb] in H; [|discriminate]. cbv zeta in H.
  assert (FF : forall from count, zero_count t v from count = zeros from count).
  { intros. unfold zero_count, rows, zeros. induction (seq from count) as [|l L IH]; [reflexivity|]. cbn [filter].
    destruct (Z.eqb (t l) 30); cbn [negb andb]; [exact IH|]. cbn [filter]. destruct (is0 (v l)); cbn [length]; rewrite IH; reflexivity. }
  destruct (Nat.eqb_spec (zero_count t v 0 (nx + 1)) 0) as [|C]; [discriminate|].
  destruct (smoothed_inv _ _ _ _ _ _ H) as (-> & _ & _).
  assert (Z : zeros 0%nat (nx + 1)%nat = (zeros 0 1 + zeros 1 (nx - 1) + zeros nx 1)%nat).
  { unfold zeros. replace (nx + 1)%nat with (1 + (nx - 1) + 1)%nat by lia. rewrite !seq_app, !filter_app, !app_length.
    replace (0 + (1 + (nx - 1)))%nat with nx by lia. replace (0 + 1)%nat with 1%nat by lia. lia. }
  rewrite sum_fill by lia. rewrite !FF in *. fold S. apply not_0_INR in C.
  replace (INR (zeros 0 1 + zeros nx 1)%nat) with (INR (zeros 0 (nx + 1))%nat - INR (zeros 1 (nx - 1))%nat)
    by (rewrite Z, !plus_INR; lra). field. exact C.
Qed.
Print Assumptions C38_south_corrected_sum.

Lemma iter_inv : forall A (P : A -> Prop) f n x, P x -> (forall y, P y -> P (f y)) -> P (Nat.iter n f x).
Proof. intros A P f n x H S. induction n as [|n IH]; [exact H|]. cbn. auto. Qed.
Lemma iter_20 : forall A (f : A -> A) x, Nat.iter 20 f x = f (Nat.iter 19 f x).
Proof. reflexivity. Qed.

(** The balance obtained by the correction is destroyed by the smoothing: a column
    with one inflow value 1 keeps a net flux above 1/2 after "balancing". *)
Theorem C38_side_balance_refuted : exists nz t v space v1 n v2,
  wall_sum t v 0 1 = 0 /\ wall_sum t v nz 1 = 0 /\
  balance_side nz t v (wall_sum t v 0 (nz + 1)) space = Balanced v1 n v2 /\
  wall_sum t v1 1 (nz - 1) = 0 /\ wall_sum t v2 1 (nz - 1) > 1 / 2.
Proof.
  set (t := fun _ : nat => 0%Z). set (v := fun l : nat => if Nat.eqb l 1 then 1 else 0).
  assert (T : forall x y, x < y -> Rltb x y = true) by (intros; destruct (Rltb_spec x y); [reflexivity|lra]).
  assert (I0 : is0 0 = true) by (destruct (is0_spec 0); [reflexivity|lra]).
  assert (I1 : is0 1 = false) by (destruct (is0_spec 1); [lra|reflexivity]).
  assert (S : wall_sum t v 0 (3 + 1) = 1) by (unfold wall_sum, sum_from, sumR, t, v; cbn; lra).
  set (v1 := fill 1 3 t v (- (1) / INR 1)).
  assert (V : v1 1%nat = 1 /\ v1 2%nat = -1 /\ v1 3%nat = -1).
  { unfold v1, fill, v, t. cbn. rewrite I0, I1. lra. }
  destruct V as (V1 & V2 & V3).
  set (b := smooth (45 / 100) 3 (fun i => v1 (i + 1)%nat)).
  assert (C : zero_count t v 1 (3 - 1) = 1%nat) by (unfold zero_count, rows, v, t; cbn; rewrite I0, I1; reflexivity).
  assert (N : beyond_count t v1 1 3 = 3%nat).
  { unfold beyond_count, rows. change (seq 1 3) with [1; 2; 3]%nat. unfold t. cbn [Z.eqb Pos.eqb negb filter]. unfold beyond. rewrite V1, V2, V3.
    rewrite (T tolerance 1), (T (-1) (- tolerance)) by (unfold tolerance; lra). rewrite orb_true_r. reflexivity. }
  exists 3%nat, t, v, 1, v1, 3%nat, (write_back 3 v1 b).
  split; [unfold wall_sum, sum_from, sumR, t, v; cbn; lra|].
  split; [unfold wall_sum, sum_from, sumR, t, v; cbn; lra|].
  split; [|split].
  - rewrite S. unfold balance_side. rewrite C. unfold beyond at 1. rewrite T by (unfold tolerance; lra). cbn [orb negb].
    change (Nat.eqb 1 0) with false. cbv iota zeta. fold v1. rewrite N. change (Nat.eqb 3 0) with false. cbv iota.
    unfold smoothed. change (Nat.leb 3 2) with false. cbv iota. rewrite kappa_value by (cbn; lra). reflexivity.
  - unfold wall_sum, sum_from, sumR, t. cbn [seq fold_right Nat.sub Z.eqb Pos.eqb]. rewrite V1, V2. lra.
  - assert (P : b 0%nat = 1 /\ b 2%nat = -1 /\ - 1 / 10 <= b 1%nat <= 0).
    { unfold b, smooth. rewrite iter_20.
      pose proof (iter_inv _ (fun b => b 0%nat = 1 /\ b 2%nat = -1 /\ -1 <= b 1%nat <= 0) (sweep (45 / 100) 3) 19 (fun i => v1 (i + 1)%nat)) as I.
      destruct I as (A & B & D).
      - cbn [Nat.add]. rewrite V1, V2, V3. lra.
      - intros y (Y1 & Y2 & Y3). unfold sweep. cbn [Nat.leb Nat.ltb Nat.sub Nat.add andb]. rewrite Y1, Y2. lra.
      - set (y := Nat.iter 19 _ _) in *. clearbody y. unfold sweep. cbn [Nat.leb Nat.ltb Nat.sub Nat.add andb]. rewrite A, B. lra. }
    clearbody b. unfold wall_sum, sum_from, sumR, write_back, t. cbn [seq fold_right Nat.sub Z.eqb Pos.eqb Nat.leb andb]. lra.
Qed.
Print Assumptions C38_side_balance_refuted.

(** The balance is left alone exactly when it is within one millionth. *)
Theorem C38_unchanged_iff_within_a_millionth : forall nz t v S space,
  balance_side nz t v S space = Unchanged <-> - / 1000000 <= S <= / 1000000.
Proof.
  intros nz t v S space. unfold balance_side, beyond, Rltb, tolerance.
  destruct (Rlt_dec (1 / 1000000) S), (Rlt_dec S (- (1 / 1000000))); cbn [orb negb]; (split; [|intros; try lra; try reflexivity]); try (intros; lra).
  all: cbv zeta; unfold smoothed; cbv zeta; repeat (destruct (Nat.eqb _ _) || destruct (Nat.leb _ _) || destruct (kappa _)); discriminate.
Qed.
Print Assumptions C38_unchanged_iff_within_a_millionth.

(** What smoothing adds to the net flux in every sweep. *)
Theorem C38_sweep_changes_flux_by_end_slopes : forall dx m b kap, kappa dx = Some kap ->
  sum_from 0 (m + 2) (sweep kap (m + 2) b) =
  sum_from 0 (m + 2) b + 45 / 100 * ((b 0%nat - b 1%nat) + (b (m + 1)%nat - b m)).
Proof.
  intros dx m b kap K. assert (kap = 45 / 100).
  { destruct (Req_EM_T dx 0) as [E|E]; [unfold kappa in K; destruct (Req_EM_T dx 0); [discriminate|contradiction]|]. rewrite kappa_value in K by exact E. now injection K. }
  subst. apply sweep_sum.
Qed.
Print Assumptions C38_sweep_changes_flux_by_end_slopes.

(** Values below the tolerance everywhere, with a sum above it: nothing is left to
    smooth, and the program writes to an allocation of zero bytes. *)
Theorem C38_zero_size_buffer_refuted : exists nz t v space,
  balance_side nz t v (wall_sum t v 0 (nz + 1)) space = BadMemory.
Proof.
  set (q := 6 / 10000000). set (t := fun _ : nat => 0%Z). set (v := fun l : nat => if Nat.leb 1 l && Nat.leb l 2 then q else 0).
  exists 5%nat, t, v, 1.
  assert (T : forall x y, x < y -> Rltb x y = true) by (intros; destruct (Rltb_spec x y); [reflexivity|lra]).
  assert (F : forall x y, y <= x -> Rltb x y = false) by (intros; destruct (Rltb_spec x y); [lra|reflexivity]).
  assert (I0 : is0 0 = true) by (destruct (is0_spec 0); [reflexivity|lra]).
  assert (I1 : is0 q = false) by (destruct (is0_spec q); [unfold q in *; lra|reflexivity]).
  assert (S : wall_sum t v 0 (5 + 1) = 2 * q) by (unfold wall_sum, sum_from, sumR, t, v; cbn; lra). rewrite S.
  unfold balance_side. unfold beyond at 1. rewrite T by (unfold tolerance, q; lra). cbn [orb negb].
  assert (C : zero_count t v 1 (5 - 1) = 2%nat) by (unfold zero_count, rows, v, t; cbn; rewrite I0, I1; reflexivity).
  rewrite C. change (Nat.eqb 2 0) with false. cbv iota zeta.
  assert (B1 : beyond q = false) by (unfold beyond; rewrite !F by (unfold tolerance, q; lra); reflexivity).
  assert (B2 : beyond (- (2 * q) / INR 2) = false).
  { replace (- (2 * q) / INR 2) with (- q) by (cbn; lra). unfold beyond; rewrite !F by (unfold tolerance, q; lra); reflexivity. }
  assert (N : beyond_count t (fill 1 5 t v (- (2 * q) / INR 2)) 1 5 = 0%nat).
  { unfold beyond_count, rows, fill, v, t. cbn -[beyond INR q]. rewrite I0, I1, B1, B2. reflexivity. }
  rewrite N. reflexivity.
Qed.
Print Assumptions C38_zero_size_buffer_refuted.

(** The south side with zero corner values (as in the templates' corners): two
    thirds of the inflow remain; and with xmax = zmin the smoothed values are not
    numbers. *)
Theorem C38_south_balance_refuted :
  (exists nx t v space v1 n v2, balance_south nx t v (wall_sum t v 1 (nx - 1)) space = Balanced v1 n v2 /\
     wall_sum t v 1 (nx - 1) = 1 /\ wall_sum t v1 1 (nx - 1) = 2 / 3) /\
  (exists nx t v xmin xmax zmin zmax scL, xmin < xmax /\ zmin < zmax /\ 0 < scL /\ (3 <= nx)%nat /\
     balance_south nx t v (wall_sum t v 1 (nx - 1)) (south_space xmax zmin scL) = NotANumber).
Proof.
  assert (T : forall x y, x < y -> Rltb x y = true) by (intros; destruct (Rltb_spec x y); [reflexivity|lra]).
  assert (I0 : is0 0 = true) by (destruct (is0_spec 0); [reflexivity|lra]).
  assert (I1 : is0 1 = false) by (destruct (is0_spec 1); [lra|reflexivity]).
  set (t := fun _ : nat => 0%Z). set (v := fun l : nat => if Nat.eqb l 1 then 1 else 0).
  assert (S : wall_sum t v 1 (3 - 1) = 1) by (unfold wall_sum, sum_from, sumR, t, v; cbn; lra).
  assert (C : zero_count t v 0 (3 + 1) = 3%nat) by (unfold zero_count, rows, t, v; cbn; rewrite I0, I1; reflexivity).
  assert (Be : beyond 1 = true) by (unfold beyond; rewrite T by (unfold tolerance; lra); reflexivity).
  assert (E : forall space, balance_south 3 t v 1 space = smoothed 3 space (fill 0 3 t v (- (1) / INR 3))).
  { intros. unfold balance_south. rewrite C, Be. reflexivity. }
  split.
  - destruct (balance_south 3 t v 1 7) as [| | | |v1 n v2] eqn:Q;
    try (exfalso; rewrite E in Q; revert Q; unfold smoothed; change (Nat.leb 3 2) with false; cbv iota; rewrite kappa_value by (cbn; lra); discriminate).
    exists 3%nat, t, v, 7, v1, n, v2. rewrite S. split; [exact Q|]. split; [reflexivity|]. rewrite <- S in Q.
    rewrite (C38_south_corrected_sum 3 t v 7 v1 n v2 ltac:(lia) Q), S. unfold t, v. cbn [Z.eqb Pos.eqb negb andb seq Nat.add filter Nat.eqb].
    rewrite I0, I1. cbn. lra.
  - exists 3%nat, t, v, (-2), (-1), (-1), 0, 1. repeat split; try lra; try lia. rewrite S, E.
    unfold smoothed. change (Nat.leb 3 2) with false. cbv iota.
    unfold south_space, kappa. destruct (Req_EM_T _ 0) as [|N]; [reflexivity|]. exfalso. apply N. cbn. lra.
Qed.
Print Assumptions C38_south_balance_refuted.

(** The number of rows copied, smoothed and written back (328-341) is the number of
    corrected values of rows 1 .. nz outside the air (type 30) that exceed 1e-6 in size. *)
Theorem C39_rows_smoothed : forall nz t v S space v1 n v2,
  balance_side nz t v S space = Balanced v1 n v2 ->
  exists l, NoDup l /\ length l = n /\
    (forall i, In i l <-> (1 <= i <= nz)%nat /\ t i <> 30%Z /\ (/ 1000000 < Rabs (v1 i))).
Proof.
  intros nz t v S space v1 n v2 H. unfold balance_side in H.
  destruct (beyond S); cbn [negb] in H; [|discriminate]. cbv zeta in H. destruct (Nat.eqb _ 0) in H; [discriminate|].
  destruct (Nat.eqb (beyond_count _ _ _ _) 0) in H; [discriminate|].
  destruct (smoothed_inv _ _ _ _ _ _ H) as (E1 & E2 & _). rewrite <- E1 in E2. clear E1 H.
  eexists. split; [|split; [symmetry; exact E2|]].
  - apply NoDup_filter, NoDup_filter, seq_NoDup.
  - intros i. rewrite filter_In. unfold rows. rewrite filter_In, in_seq, negb_true_iff, Z.eqb_neq.
    assert (B : beyond (v1 i) = true <-> / 1000000 < Rabs (v1 i)).
    { unfold beyond, Rltb, tolerance. rewrite orb_true_iff. unfold Rabs. destruct (Rcase_abs (v1 i)), (Rlt_dec (1 / 1000000) (v1 i)), (Rlt_dec (v1 i) (- (1 / 1000000))); split; intro Q; auto; try (destruct Q; discriminate); lra. }
    rewrite B. split; [intros ((A & C) & D)|intros (A & C & D)]; repeat split; auto; lia.
Qed.
Print Assumptions C39_rows_smoothed.

(** ** C39 *)
Theorem C39_smoothing_maximum_principle : forall dx kap n b lo hi, kappa dx = Some kap ->
  (forall l, (l < n)%nat -> lo <= b l <= hi) ->
  (forall l, (l < n)%nat -> lo <= smooth kap n b l <= hi) /\
  smooth kap n b 0%nat = b 0%nat /\ smooth kap n b (n - 1)%nat = b (n - 1)%nat.
Proof.
  intros dx kap n b lo hi K H. assert (kap = 45 / 100).
  { destruct (Req_EM_T dx 0) as [E|E]; [unfold kappa in K; destruct (Req_EM_T dx 0); [discriminate|contradiction]|]. rewrite kappa_value in K by exact E. now injection K. }
  subst. split; [|split]; unfold smooth.
  - apply (iter_inv _ (fun y => forall l, (l < n)%nat -> lo <= y l <= hi)); [exact H|]. intros y Hy. now apply sweep_bounds.
  - apply (iter_inv _ (fun y => y 0%nat = b 0%nat)); [reflexivity|]. intros y Hy. rewrite sweep_ends by lia. exact Hy.
  - apply (iter_inv _ (fun y => y (n - 1)%nat = b (n - 1)%nat)); [reflexivity|]. intros y Hy. rewrite sweep_ends by lia. exact Hy.
Qed.
Print Assumptions C39_smoothing_maximum_principle.

(** The same for a balanced side: rows 1 .. n are smoothed, the others are left. *)
Theorem C39_balanced_side_within_corrected_range : forall nz t v S space v1 n v2 lo hi,
  balance_side nz t v S space = Balanced v1 n v2 -> (forall l, (1 <= l <= n)%nat -> lo <= v1 l <= hi) ->
  (forall l, (1 <= l <= n)%nat -> lo <= v2 l <= hi) /\ v2 1%nat = v1 1%nat /\ v2 n = v1 n /\
  (forall l, ~ (1 <= l <= n)%nat -> v2 l = v1 l).
Proof.
  intros nz t v S space v1 n v2 lo hi H B. unfold balance_side in H.
  destruct (beyond S); cbn [negb] in H; [|discriminate]. cbv zeta in H. destruct (Nat.eqb _ 0) in H; [discriminate|].
  destruct (Nat.eqb_spec (beyond_count t (fill 1 nz t v (- S / INR (zero_count t v 1 (nz - 1)))) 1 nz) 0) as [|M]; [discriminate|].
  destruct (smoothed_inv _ _ _ _ _ _ H) as (E1 & E2 & b & -> & Kb). rewrite <- E1, <- E2 in *. clear H E1 E2.
  assert (C : (forall l, (l < n)%nat -> lo <= b l <= hi) /\ b 0%nat = v1 1%nat /\ b (n - 1)%nat = v1 n).
  { assert (B' : forall l, (l < n)%nat -> lo <= v1 (l + 1)%nat <= hi) by (intros; apply B; lia).
    replace (v1 n) with (v1 (n - 1 + 1)%nat) by (f_equal; lia).
    destruct Kb as [->|(kap & dx & E & ->)]; [auto|].
    now apply (C39_smoothing_maximum_principle dx kap n (fun i => v1 (i + 1)%nat) lo hi). }
  destruct C as (C1 & C2 & C3). unfold write_back.
  split; [|split; [|split]].
  - intros l Hl. destruct (Nat.leb_spec 1 l), (Nat.leb_spec l n); try lia. apply C1. lia.
  - destruct (Nat.leb_spec 1 1), (Nat.leb_spec 1 n); try lia. exact C2.
  - destruct (Nat.leb_spec 1 n), (Nat.leb_spec n n); try lia. exact C3.
  - intros l Hl. destruct (Nat.leb_spec 1 l), (Nat.leb_spec l n); try lia; reflexivity.
Qed.
Print Assumptions C39_balanced_side_within_corrected_range.

Example C39_ex : let b := fun i : nat => if Nat.eqb i 1 then 10 else 0 in
  sweep (45 / 100) 4 b 1%nat = 1 /\ sweep (45 / 100) 4 b 2%nat = 45 / 10 /\ smooth (45 / 100) 4 b 0%nat = 0.
Proof.
  cbv zeta. split; [|split].
  - unfold sweep. cbn. lra.
  - unfold sweep. cbn. lra.
  - pose proof (C39_smoothing_maximum_principle 1 (45 / 100) 4 (fun i : nat => if Nat.eqb i 1 then 10 else 0) 0 10 (kappa_value 1 ltac:(lra))) as H.
    destruct H as (_ & E & _); [|exact E]. intros l Hl. destruct (Nat.eqb l 1); lra.
Qed.

(** A case meeting the hypotheses of the C38 theorems. *)
Example C38_ex : exists nz t v space v1 n v2,
  balance_side nz t v (wall_sum t v 0 (nz + 1)) space = Balanced v1 n v2 /\ wall_sum t v1 1 (nz - 1) = 0.
Proof. destruct C38_side_balance_refuted as (a & b & c & d & e & f & g & _ & _ & H & H' & _). exists a, b, c, d, e, f, g. auto. Qed.
