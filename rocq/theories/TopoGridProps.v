(** * C122: the surface seen by the reseeding of markers, and the sides of the surface in polar mode *)
From Coq Require Import Reals List Bool Arith Lra Lia.
From Verif Require Import GridModel RheoModel SurfModel TopoGridModel.
Import ListNotations.
Local Open Scope R_scope.

Lemma upd_same : forall A (f : nat -> A) i v, upd f i v i = v. Proof. intros. unfold upd. now rewrite Nat.eqb_refl. Qed.
Lemma upd_other : forall A (f : nat -> A) i v j, j <> i -> upd f i v j = f j. Proof. intros. unfold upd. destruct (Nat.eqb_spec j i); congruence. Qed.

Lemma finer_fold : forall (h : nat -> R) n s0 f0 a, let r := fold_left (fun s k => let f := upd (snd s) (fst s) (3 / 4 * h k + 1 / 4 * h (k + 1)%nat) in
                        let kf := (fst s + 1)%nat in
                        let f := upd f kf (1 / 4 * h k + 3 / 4 * h (k + 1)%nat) in ((kf + 1)%nat, f)) (seq a n) (s0, f0) in
  fst r = (s0 + 2 * n)%nat /\ (forall j, (j < s0)%nat \/ (s0 + 2 * n <= j)%nat -> snd r j = f0 j) /\
  (forall k, (k < n)%nat -> snd r (s0 + 2 * k)%nat = 3 / 4 * h (a + k)%nat + 1 / 4 * h (a + k + 1)%nat /\
                           snd r (s0 + 2 * k + 1)%nat = 1 / 4 * h (a + k)%nat + 3 / 4 * h (a + k + 1)%nat).
Proof.
  intros h. induction n as [|n IH]; intros s0 f0 a r; subst r.
  - cbn [seq fold_left fst snd]. repeat split; intros; lia || reflexivity.
  - cbn [seq fold_left fst snd]. specialize (IH (s0 + 1 + 1)%nat (upd (upd f0 s0 (3 / 4 * h a + 1 / 4 * h (a + 1)%nat)) (s0 + 1) (1 / 4 * h a + 3 / 4 * h (a + 1)%nat)) (S a)).
    cbv zeta in IH. destruct IH as (I1 & I2 & I3). split; [rewrite I1; lia|]. split.
    + intros j Hj. rewrite I2 by lia. rewrite !upd_other by lia. reflexivity.
    + intros k Hk. destruct k as [|k].
      * rewrite !I2 by lia. replace (s0 + 2 * 0)%nat with s0 by lia. replace (a + 0)%nat with a by lia.
        rewrite upd_same. rewrite upd_other by lia. rewrite upd_same. split; reflexivity.
      * destruct (I3 k ltac:(lia)) as [J1 J2]. replace (s0 + 2 * S k)%nat with (s0 + 1 + 1 + 2 * k)%nat by lia. rewrite J1, J2.
        replace (S a + k)%nat with (a + S k)%nat by lia. split; reflexivity.
Qed.

(** the height of the surface at [x] is that of the straight line between the nodes on either side of it *)
Definition surface_at (nx : nat) (xg h : nat -> R) (x z : R) : Prop :=
  exists k, (k + 1 < nx)%nat /\ xg k <= x <= xg (k + 1)%nat /\ (z - h k) * (xg (k + 1)%nat - xg k) = (h (k + 1)%nat - h k) * (x - xg k).

(** ** The reseeding reads, for every column of its twice finer grid, the height of the surface at the centre of that column;
    exactly the 2 nx - 2 entries of the array are written *)
Theorem C122_fine_heights : forall nx h f0 xmin dx xg zmax dz, (2 <= nx)%nat -> 0 < dx -> (forall k, (k < nx)%nat -> xg k = xmin + INR k * dx) ->
  let f := snd (finer nx h f0) in
  (forall ic, (ic < 2 * (nx - 1))%nat -> surface_at nx xg h (reseed_centre xmin (dx / 2) ic) (reseed_height true f zmax dz ic)) /\
  (forall j, (2 * nx - 2 <= j)%nat -> f j = f0 j).
Proof.
  intros nx h f0 xmin dx xg zmax dz Hn Hd Hx f. unfold f, finer.
  destruct (finer_fold h (nx - 1) 0 f0 0) as (_ & F2 & F3). cbv zeta in F2, F3. set (r := snd (fold_left _ _ _)) in *. split.
  - intros ic Hic. unfold reseed_height, reseed_centre. destruct (F3 (ic / 2)%nat) as [E1 E2]; [apply Nat.div_lt_upper_bound; lia|].
    pose proof (Nat.div_mod ic 2 ltac:(lia)) as D. pose proof (Nat.mod_upper_bound ic 2 ltac:(lia)) as U. set (k := (ic / 2)%nat) in *.
    assert (Hk : (k + 1 < nx)%nat) by lia. exists k. rewrite !Hx by lia. rewrite plus_INR. change (INR 1) with 1.
    assert (Cs : ic = (0 + 2 * k)%nat \/ ic = (0 + 2 * k + 1)%nat) by lia.
    destruct Cs as [Cs|Cs]; rewrite Cs in *; [rewrite E1|rewrite E2]; cbn [Nat.add]; replace (INR (2 * k)) with (2 * INR k) by (rewrite mult_INR; reflexivity);
      rewrite ?plus_INR; replace (INR (2 * k)) with (2 * INR k) by (rewrite mult_INR; reflexivity); change (INR 1) with 1; (split; [exact Hk|]); (split; [nra|]); field.
  - intros j Hj. apply F2. right. lia.
Qed.
Print Assumptions C122_fine_heights.

(** ** The nodes: inner ones come from the chain; without polar mode the ends repeat their neighbours, in polar mode they lie on the
    circle of 6370 km; a box wider than the circle has no height there *)
Theorem C122_cartesian_ends : forall nx L xg h, (3 <= nx)%nat -> exists H, node_heights nx false L xg h = Some H /\
  (forall k, (1 <= k <= nx - 2)%nat -> H k = h k) /\ H 0%nat = h 1%nat /\ H (nx - 1)%nat = h (nx - 2)%nat.
Proof.
  intros nx L xg h Hn. eexists. split; [reflexivity|]. cbv zeta. split; [|split].
  - intros k Hk. rewrite !upd_other by lia. reflexivity.
  - rewrite upd_other by lia. apply upd_same.
  - rewrite upd_same. apply upd_other. lia.
Qed.
Print Assumptions C122_cartesian_ends.
Theorem C122_polar_ends : forall nx L xg h, (2 <= nx)%nat ->
  let Rad := 6370000 / L in
  match node_heights nx true L xg h with
  | Some H => Rabs (xg 0%nat) <= Rabs Rad /\ Rabs (xg (nx - 1)%nat) <= Rabs Rad /\
              (forall k, (1 <= k <= nx - 2)%nat -> H k = h k) /\
              (0 <= H 0%nat /\ xg 0%nat ^ 2 + H 0%nat ^ 2 = Rad ^ 2) /\ (0 <= H (nx - 1)%nat /\ xg (nx - 1)%nat ^ 2 + H (nx - 1)%nat ^ 2 = Rad ^ 2)
  | None => Rabs Rad < Rabs (xg 0%nat) \/ Rabs Rad < Rabs (xg (nx - 1)%nat)
  end.
Proof.
  intros nx L xg h Hn Rad. unfold node_heights. cbv zeta. fold (radius L) in Rad. unfold on_circle. cbv zeta. fold Rad.
  assert (P : forall x, (Rad - x) * (Rad + x) < 0 -> Rabs Rad < Rabs x) by (intros x Hx; apply Rsqr_lt_abs_0; unfold Rsqr; nra).
  assert (Q : forall x, ~ (Rad - x) * (Rad + x) < 0 -> Rabs x <= Rabs Rad) by (intros x Hx; apply Rsqr_le_abs_0; unfold Rsqr; nra).
  assert (S : forall x, ~ (Rad - x) * (Rad + x) < 0 -> 0 <= sqrt ((Rad - x) * (Rad + x)) /\ x ^ 2 + sqrt ((Rad - x) * (Rad + x)) ^ 2 = Rad ^ 2).
  { intros x Hx. split; [apply sqrt_pos|]. rewrite pow2_sqrt by lra. ring. }
  unfold Rltb. destruct (Rlt_dec ((Rad - xg 0%nat) * (Rad + xg 0%nat)) 0) as [H0|H0]; [left; now apply P|].
  destruct (Rlt_dec ((Rad - xg (nx - 1)%nat) * (Rad + xg (nx - 1)%nat)) 0) as [H1|H1]; [right; now apply P|].
  split; [now apply Q|]. split; [now apply Q|]. split.
  - intros k Hk. rewrite !upd_other by lia. reflexivity.
  - rewrite upd_same. rewrite upd_other by lia. rewrite upd_same. split; now apply S.
Qed.
Print Assumptions C122_polar_ends.

(** Examples *)
Example C122_ex_fine : snd (finer 3 (fun k => nth k [0; 4; 8] 0) (fun _ => 100)) 0%nat = 1 /\ snd (finer 3 (fun k => nth k [0; 4; 8] 0) (fun _ => 100)) 3%nat = 7 /\
  snd (finer 3 (fun k => nth k [0; 4; 8] 0) (fun _ => 100)) 4%nat = 100.
Proof. unfold finer. cbn. unfold upd. cbn. repeat split; lra. Qed.
Example C122_ex_polar : exists H, node_heights 3 true 1274000 (fun k => nth k [-3; 0; 4] 0) (fun _ => 1) = Some H /\ H 0%nat = 4 /\ H 1%nat = 1 /\ H 2%nat = 3.
Proof.
  unfold node_heights, on_circle, radius. cbn [nth Nat.sub]. cbv zeta. replace (6370000 / 1274000) with 5 by field. unfold Rltb.
  destruct (Rlt_dec ((5 - -3) * (5 + -3)) 0) as [H|_]; [lra|]. destruct (Rlt_dec ((5 - 4) * (5 + 4)) 0) as [H|_]; [lra|].
  eexists. split; [reflexivity|]. unfold upd. cbn [Nat.eqb]. replace ((5 - -3) * (5 + -3)) with (4 * 4) by ring. replace ((5 - 4) * (5 + 4)) with (3 * 3) by ring.
  rewrite !sqrt_square by lra. repeat split.
Qed.
