(** Lemmas: boundary conditions. *)
From Coq Require Import List ZArith Reals Bool Arith Lia Lra.
Import ListNotations.
From Verif Require Import GridModel GridProofs NumModel NumProofs BCModel.

Lemma upd_if_other {A} c (a : nat -> A) i v j : j <> i -> upd_if c a i v j = a j.
Proof. intros H. destruct c; [now apply upd_other|reflexivity]. Qed.
Lemma upd_if_same {A} c (a : nat -> A) i v : upd_if c a i v i = if c then v else a i.
Proof. destruct c; [apply upd_same|reflexivity]. Qed.

(** A loop of pairs of conditional writes whose values depend only on entries
    that are not written. *)
Lemma loop_ghost (W : nat -> Prop) (c1 c2 : nat -> bool) (d1 d2 : nat -> nat) (g1 g2 : nat -> (nat -> R) -> R) n (a0 : nat -> R) :
  (forall i, i < n -> W (d1 i) /\ W (d2 i)) ->
  (forall i a a', i < n -> (forall k, ~ W k -> a k = a' k) -> g1 i a = g1 i a' /\ g2 i a = g2 i a') ->
  (forall i j, i < n -> j < n -> (d1 i = d1 j -> i = j) /\ (d2 i = d2 j -> i = j) /\ d1 i <> d2 j) ->
  let a' := loop 0 n (fun a i => let a := upd_if (c1 i) a (d1 i) (g1 i a) in upd_if (c2 i) a (d2 i) (g2 i a)) a0 in
  (forall i, i < n -> a' (d1 i) = (if c1 i then g1 i a0 else a0 (d1 i)) /\
                      a' (d2 i) = (if c2 i then g2 i a0 else a0 (d2 i))) /\
  (forall k, (forall i, i < n -> k <> d1 i /\ k <> d2 i) -> a' k = a0 k) /\
  (forall k, ~ W k -> a' k = a0 k).
Proof.
  intros HW Hg Hd a'.
  set (body := fun (a : nat -> R) i => let a := upd_if (c1 i) a (d1 i) (g1 i a) in upd_if (c2 i) a (d2 i) (g2 i a)) in *.
  pose proof (loop_ind (fun m a' => m <= n ->
    (forall i, i < m -> a' (d1 i) = (if c1 i then g1 i a0 else a0 (d1 i)) /\
                        a' (d2 i) = (if c2 i then g2 i a0 else a0 (d2 i))) /\
    (forall k, (forall i, i < m -> k <> d1 i /\ k <> d2 i) -> a' k = a0 k) /\
    (forall k, ~ W k -> a' k = a0 k)) body n 0 a0) as L.
  cbv beta in L. apply L; clear L; [| |lia].
  - intros _. repeat split; intros; lia.
  - intros m a Hm IH Hle. destruct (IH ltac:(lia)) as (I1 & I2 & I3). clear IH. unfold body. cbv zeta.
    set (a1 := upd_if (c1 m) a (d1 m) (g1 m a)).
    assert (A1 : forall k, ~ W k -> a1 k = a0 k).
    { intros k Hk. unfold a1. rewrite upd_if_other; [now apply I3|]. intros ->. apply Hk. now apply HW. }
    destruct (Hd m m ltac:(lia) ltac:(lia)) as (_ & _ & D12).
    repeat split.
    + destruct (Nat.eq_dec i m) as [->|Hn].
      * rewrite upd_if_other by exact D12. unfold a1. rewrite upd_if_same.
        rewrite (proj1 (Hg m a a0 ltac:(lia) I3)). destruct (c1 m); [reflexivity|].
        apply I2. intros j Hj. destruct (Hd m j ltac:(lia) ltac:(lia)) as (E & _ & N). split; [intros X; apply E in X; lia|exact N].
      * destruct (Hd i m ltac:(lia) ltac:(lia)) as (E & _ & N).
        rewrite upd_if_other by exact N. unfold a1. rewrite upd_if_other by (intros X; apply E in X; lia). apply I1. lia.
    + destruct (Nat.eq_dec i m) as [->|Hn].
      * rewrite upd_if_same. rewrite (proj2 (Hg m a1 a0 ltac:(lia) A1)). destruct (c2 m); [reflexivity|].
        unfold a1. rewrite upd_if_other by (apply not_eq_sym; exact D12).
        apply I2. intros j Hj. destruct (Hd j m ltac:(lia) ltac:(lia)) as (_ & _ & N).
        destruct (Hd m j ltac:(lia) ltac:(lia)) as (_ & E & _). split; [apply not_eq_sym; exact N|intros X; apply E in X; lia].
      * destruct (Hd i m ltac:(lia) ltac:(lia)) as (_ & E & _). destruct (Hd m i ltac:(lia) ltac:(lia)) as (_ & _ & N).
        rewrite upd_if_other by (intros X; apply E in X; lia). unfold a1.
        rewrite upd_if_other by (apply not_eq_sym; exact N). apply I1. lia.
    + intros k Hk. destruct (Hk m ltac:(lia)) as [K1 K2]. rewrite upd_if_other by exact K2. unfold a1.
      rewrite upd_if_other by exact K1. apply I2. intros i Hi. apply Hk. lia.
    + intros k Hk. rewrite upd_if_other; [now apply A1|]. intros ->. apply Hk. now apply HW.
Qed.

Lemma mod_col w j k : k < w -> (j * w + k) mod w = k.
Proof. intros H. rewrite Nat.add_comm, Nat.mod_add by lia. now apply Nat.mod_small. Qed.

Definition east_u nx k := k mod nx = nx - 1.
Definition ghost_v nx k := k mod (nx + 1) = 0 \/ k mod (nx + 1) = nx.

Section BC.
Context (nx nz : nat) (t : types) (valu : nat -> R) (Hx : 2 <= nx) (Hz : 2 <= nz).

(** Ghost rows of the Vx grid, its east side, ghost columns of the Vz grid. *)
Definition ghost_u k := k < nx \/ nz * nx <= k.

Lemma not_ghost_u i : i < nx -> ~ ghost_u (i + nx) /\ ~ ghost_u (i + (nz - 1) * nx).
Proof.
  intros Hi. unfold ghost_u. assert (nz * nx = (nz - 1) * nx + nx) by nia. assert (nx <= (nz - 1) * nx) by nia.
  split; intros [H1|H1]; try lia; try nia.
Qed.

Lemma vx_neumann_spec u :
  (forall i, i < nx -> vx_neumann nx nz t u i = (if Z.eqb (tu t i) 13 then u (i + nx) else u i) /\
     vx_neumann nx nz t u (i + nz * nx) = (if Z.eqb (tu t (i + nz * nx)) 13 then u (i + (nz - 1) * nx) else u (i + nz * nx))) /\
  (forall k, ~ ghost_u k -> vx_neumann nx nz t u k = u k).
Proof.
  destruct (loop_ghost ghost_u (fun i => Z.eqb (tu t i) 13) (fun i => Z.eqb (tu t (i + nz * nx)) 13)
    (fun i => i) (fun i => i + nz * nx) (fun i a => a (i + nx)) (fun i a => a (i + (nz - 1) * nx)) nx u) as (A & _ & B).
  - intros i Hi. unfold ghost_u. lia.
  - intros i a a' Hi H. destruct (not_ghost_u i Hi). auto.
  - intros i j Hi Hj. assert (nx <= nz * nx) by nia. lia.
  - split; [exact A|exact B].
Qed.

Lemma vx_dirichlet_spec u :
  (forall i, i < nx -> vx_dirichlet nx nz t valu u i = (if Z.eqb (tu t i) 11 then valu i - u (i + nx)%nat else u i)%R /\
     vx_dirichlet nx nz t valu u (i + nz * nx) =
       (if Z.eqb (tu t (i + nz * nx)%nat) 11 then valu (i + nz * nx)%nat - u (i + (nz - 1) * nx)%nat else u (i + nz * nx)%nat)%R) /\
  (forall k, ~ ghost_u k -> vx_dirichlet nx nz t valu u k = u k).
Proof.
  assert (E : forall i, i + nz * nx - nx = i + (nz - 1) * nx) by (intros; nia).
  destruct (loop_ghost ghost_u (fun i => Z.eqb (tu t i) 11) (fun i => Z.eqb (tu t (i + nz * nx)) 11)
    (fun i => i) (fun i => i + nz * nx) (fun i a => valu i - a (i + nx)%nat)%R
    (fun i a => valu (i + nz * nx)%nat - a (i + nz * nx - nx)%nat)%R nx u) as (A & _ & B).
  - intros i Hi. unfold ghost_u. lia.
  - intros i a a' Hi H. destruct (not_ghost_u i Hi). rewrite E. split; f_equal; auto.
  - intros i j Hi Hj. assert (nx <= nz * nx) by nia. lia.
  - split; [|exact B]. intros i Hi. destruct (A i Hi) as [A1 A2]. split; [exact A1|]. rewrite <- E. exact A2.
Qed.

End BC.

Section BCcolumns.
Context (nx nz : nat) (t : types) (valv : nat -> R) (Hx : 2 <= nx).

Lemma vx_periodic_spec u :
  (forall j, j < nz + 1 -> vx_periodic nx nz t u (j * nx + (nx - 1)) =
     if Z.eqb (tu t (j * nx + (nx - 1))) (-12) then u (j * nx) else u (j * nx + (nx - 1))) /\
  (forall k, ~ east_u nx k -> vx_periodic nx nz t u k = u k).
Proof.
  (* second write never happens and goes to column 0 of a row beyond *)
  destruct (loop_ghost (east_u nx) (fun j => Z.eqb (tu t (j * nx + (nx - 1))) (-12)) (fun _ => false)
    (fun j => j * nx + (nx - 1)) (fun j => (j + nz + 1) * nx + (nx - 1)) (fun j a => a (j * nx)) (fun j a => 0%R) (nz + 1) u) as (A & _ & B).
  - intros j Hj. unfold east_u. rewrite !mod_col by lia. auto.
  - intros j a a' Hj H. split; [|reflexivity]. apply H. unfold east_u. rewrite Nat.mod_mul by lia. lia.
  - intros i j Hi Hj. repeat split; intros; nia.
  - split; [|exact B]. intros j Hj. exact (proj1 (A j Hj)).
Qed.

Lemma not_ghost_v j c : 1 <= c < nx -> ~ ghost_v nx (j * (nx + 1) + c).
Proof. intros Hc. unfold ghost_v. rewrite mod_col by lia. lia. Qed.

Lemma vz_inj i j : (i * (nx + 1) = j * (nx + 1) -> i = j) /\ (i * (nx + 1) + nx = j * (nx + 1) + nx -> i = j) /\
  i * (nx + 1) <> j * (nx + 1) + nx.
Proof.
  repeat split; [nia|nia|]. intros E. apply (f_equal (fun k => k mod (nx + 1))) in E.
  rewrite mod_col in E by lia. rewrite Nat.mod_mul in E by lia. lia.
Qed.

Lemma vz_ghost j : ghost_v nx (j * (nx + 1)) /\ ghost_v nx (j * (nx + 1) + nx).
Proof.
  split; [left; apply Nat.mod_mul; lia|]. right. apply mod_col. lia.
Qed.

Definition iW j := j * (nx + 1).
Definition iE j := j * (nx + 1) + nx.
Definition iW1 j := j * (nx + 1) + 1.
Definition iE1 j := j * (nx + 1) + (nx - 1).

Lemma vz_neumann_spec v :
  (forall j, j < nz -> vz_neumann nx nz t v (iW j) = (if Z.eqb (tv t (iW j)) 13 then v (iW1 j) else v (iW j)) /\
     vz_neumann nx nz t v (iE j) = (if Z.eqb (tv t (iE j)) 13 then v (iE1 j) else v (iE j))) /\
  (forall k, ~ ghost_v nx k -> vz_neumann nx nz t v k = v k).
Proof.
  destruct (loop_ghost (ghost_v nx) (fun j => Z.eqb (tv t (iW j)) 13) (fun j => Z.eqb (tv t (iE j)) 13)
    iW iE (fun j a => a (iW j + 1)) (fun j a => a (iE j - 1)) nz v) as (A & _ & B).
  - intros j Hj. apply vz_ghost.
  - intros j a a' Hj H. unfold iW, iE. replace (j * (nx + 1) + nx - 1) with (j * (nx + 1) + (nx - 1)) by lia.
    split; apply H, not_ghost_v; lia.
  - intros i j _ _. apply vz_inj.
  - split; [|exact B]. intros j Hj. replace (iE1 j) with (iE j - 1) by (unfold iE, iE1; lia). exact (A j Hj).
Qed.

Lemma vz_dirichlet_spec v :
  (forall j, j < nz -> vz_dirichlet nx nz t valv v (iW j) = (if Z.eqb (tv t (iW j)) 11 then valv (iW j) - v (iW1 j) else v (iW j))%R /\
     vz_dirichlet nx nz t valv v (iE j) = (if Z.eqb (tv t (iE j)) 11 then valv (iE j) - v (iE1 j) else v (iE j))%R) /\
  (forall k, ~ ghost_v nx k -> vz_dirichlet nx nz t valv v k = v k).
Proof.
  destruct (loop_ghost (ghost_v nx) (fun j => Z.eqb (tv t (iW j)) 11) (fun j => Z.eqb (tv t (iE j)) 11)
    iW iE (fun j a => valv (iW j) - a (iW j + 1)%nat)%R (fun j a => valv (iE j) - a (iE j - 1)%nat)%R nz v) as (A & _ & B).
  - intros j Hj. apply vz_ghost.
  - intros j a a' Hj H. unfold iW, iE. replace (j * (nx + 1) + nx - 1) with (j * (nx + 1) + (nx - 1)) by lia.
    split; f_equal; apply H, not_ghost_v; lia.
  - intros i j _ _. apply vz_inj.
  - split; [|exact B]. intros j Hj. replace (iE1 j) with (iE j - 1) by (unfold iE, iE1; lia). exact (A j Hj).
Qed.

Lemma vz_periodic_spec v :
  (forall j, j < nz -> vz_periodic nx nz t v (iW j) = (if Z.eqb (tv t (iW j)) (-12) then v (iE1 j) else v (iW j)) /\
     vz_periodic nx nz t v (iE j) = (if Z.eqb (tv t (iE j)) (-12) then v (iW1 j) else v (iE j))) /\
  (forall k, ~ ghost_v nx k -> vz_periodic nx nz t v k = v k).
Proof.
  destruct (loop_ghost (ghost_v nx) (fun j => Z.eqb (tv t (iW j)) (-12)) (fun j => Z.eqb (tv t (iE j)) (-12))
    iW iE (fun j a => a (iE j - 1)) (fun j a => a (iW j + 1)) nz v) as (A & _ & B).
  - intros j Hj. apply vz_ghost.
  - intros j a a' Hj H. unfold iW, iE. replace (j * (nx + 1) + nx - 1) with (j * (nx + 1) + (nx - 1)) by lia.
    split; apply H, not_ghost_v; lia.
  - intros i j _ _. apply vz_inj.
  - split; [|exact B]. intros j Hj. replace (iE1 j) with (iE j - 1) by (unfold iE, iE1; lia). exact (A j Hj).
Qed.
End BCcolumns.
