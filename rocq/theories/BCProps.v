(** * Property C31: ghost velocities *)
From Coq Require Import List ZArith Reals Bool Arith Lia Lra.
Import ListNotations.
From Verif Require Import GridModel GridProofs NumModel NumProofs NumProps BCModel BCProofs.

(** Specification. Free slip: ghost equals neighbour; prescribed tangential
    velocity [V] (stored as [2V]): mean of ghost and neighbour; periodicity. *)
Definition ghost_condition (ty : Z) (val ghost inner : R) : Prop :=
  (ty = 13%Z -> ghost = inner) /\ (ty = 11%Z -> ((ghost + inner) / 2 = val / 2)%R).

Definition vz_conditions (nx nz : nat) (t : types) (valv v : nat -> R) : Prop :=
  forall j, j < nz ->
    let W := j * (nx + 1) in let E := j * (nx + 1) + nx in
    ghost_condition (tv t W) (valv W) (v W) (v (W + 1)) /\ ghost_condition (tv t E) (valv E) (v E) (v (E - 1)) /\
    (tv t W = (-12)%Z -> v W = v (E - 1)) /\ (tv t E = (-12)%Z -> v E = v (W + 1)).

Definition vx_conditions (nx nz : nat) (t : types) (valu u : nat -> R) : Prop :=
  (forall i, i < nx ->
    let N := i + nz * nx in
    ghost_condition (tu t i) (valu i) (u i) (u (i + nx)) /\ ghost_condition (tu t N) (valu N) (u N) (u (N - nx))) /\
  (forall j, j < nz + 1 -> tu t (j * nx + (nx - 1)) = (-12)%Z -> u (j * nx + (nx - 1)) = u (j * nx)).

(** East periodic nodes next to a ghost row already equal their partner. *)
Definition east_synchronised (nx nz : nat) (t : types) (u : nat -> R) : Prop :=
  forall j, j = 1 \/ j = nz - 1 -> tu t (j * nx + (nx - 1)) = (-12)%Z -> u (j * nx + (nx - 1)) = u (j * nx).

Theorem C31_vz_ghosts nx nz t valv v : 2 <= nx ->
  let v' := bc_v nx nz t valv v in
  vz_conditions nx nz t valv v' /\
  (* inner columns unchanged *)
  (forall j c, 1 <= c < nx -> v' (j * (nx + 1) + c) = v (j * (nx + 1) + c)).
Proof.
  intros Hx v'. unfold v', bc_v.
  destruct (vz_neumann_spec nx nz t Hx v) as [A1 A2]. set (v1 := vz_neumann nx nz t v) in *.
  destruct (vz_dirichlet_spec nx nz t valv Hx v1) as [B1 B2]. set (v2 := vz_dirichlet nx nz t valv v1) in *.
  destruct (vz_periodic_spec nx nz t Hx v2) as [C1 C2]. set (v3 := vz_periodic nx nz t v2) in *.
  clearbody v1 v2 v3.
  assert (In1 : forall j c, 1 <= c < nx -> v1 (j * (nx + 1) + c) = v (j * (nx + 1) + c) /\
      v2 (j * (nx + 1) + c) = v (j * (nx + 1) + c) /\ v3 (j * (nx + 1) + c) = v (j * (nx + 1) + c)).
  { intros j c Hc. pose proof (not_ghost_v nx Hx j c Hc) as G. rewrite C2, B2, A2 by exact G. auto. }
  split; [|intros; now apply In1].
  intros j Hj. cbv zeta. replace (j * (nx + 1) + nx - 1) with (j * (nx + 1) + (nx - 1)) by lia.
  destruct (A1 j Hj) as [A1W A1E]. destruct (B1 j Hj) as [B1W B1E]. destruct (C1 j Hj) as [C1W C1E].
  unfold iW, iE, iW1, iE1 in *.
  destruct (In1 j 1 ltac:(lia)) as (W1 & W2 & W3). destruct (In1 j (nx - 1) ltac:(lia)) as (E1 & E2 & E3).
  rewrite C1W, C1E, B1W, B1E, A1W, A1E, W1, W2, W3, E1, E2, E3.
  unfold ghost_condition. repeat split; intros T; rewrite T; cbn [Z.eqb Pos.eqb]; try reflexivity; lra.
Qed.
Print Assumptions C31_vz_ghosts.

Lemma vx_ghosts nx nz t valu u : 2 <= nx -> 2 <= nz ->
  let u' := bc_u nx nz t valu u in
  (forall i, i < nx -> (i < nx - 1 \/ east_synchronised nx nz t u) ->
    let N := i + nz * nx in
    ghost_condition (tu t i) (valu i) (u' i) (u' (i + nx)) /\ ghost_condition (tu t N) (valu N) (u' N) (u' (N - nx))) /\
  (forall j, j < nz + 1 -> tu t (j * nx + (nx - 1)) = (-12)%Z -> u' (j * nx + (nx - 1)) = u' (j * nx)) /\
  (forall j i, 1 <= j < nz -> i < nx -> (i < nx - 1 \/ tu t (j * nx + i) <> (-12)%Z) -> u' (j * nx + i) = u (j * nx + i)).
Proof.
  intros Hx Hz u'. unfold u', bc_u.
  destruct (vx_neumann_spec nx nz t Hx Hz u) as [A1 A2]. set (u1 := vx_neumann nx nz t u) in *.
  destruct (vx_dirichlet_spec nx nz t valu Hx Hz u1) as [B1 B2]. set (u2 := vx_dirichlet nx nz t valu u1) in *.
  destruct (vx_periodic_spec nx nz t Hx u2) as [C1 C2]. set (u3 := vx_periodic nx nz t u2) in *.
  clearbody u1 u2 u3.
  assert (Inn : forall j i, 1 <= j < nz -> i < nx -> u1 (j * nx + i) = u (j * nx + i) /\ u2 (j * nx + i) = u (j * nx + i)).
  { intros j i Hj Hi. assert (G : ~ ghost_u nx nz (j * nx + i)) by (unfold ghost_u; nia).
    rewrite B2, A2 by exact G. auto. }
  assert (NotEast : forall j i, i < nx - 1 -> u3 (j * nx + i) = u2 (j * nx + i)).
  { intros j i Hi. apply C2. unfold east_u. rewrite mod_col by lia. lia. }
  assert (Inn3 : forall j i, 1 <= j < nz -> i < nx -> (i < nx - 1 \/ tu t (j * nx + i) <> (-12)%Z) -> u3 (j * nx + i) = u (j * nx + i)).
  { intros j i Hj Hi H. destruct (Nat.eq_dec i (nx - 1)) as [->|Hn].
    - destruct H as [H|H]; [lia|]. rewrite C1 by lia. rewrite (proj2 (Z.eqb_neq _ _) H). now apply Inn.
    - rewrite NotEast by lia. now apply Inn. }
  split; [|split].
  - intros i Hi Hs. cbv zeta.
    replace (i + nz * nx - nx) with (i + (nz - 1) * nx) by nia.
    destruct (A1 i Hi) as [A1S A1N]. destruct (B1 i Hi) as [B1S B1N].
    (* values of the inner neighbours at the end *)
    assert (Row : forall j, j = 1 \/ j = nz - 1 -> u3 (i + j * nx) = u (i + j * nx)).
    { intros j Hj. rewrite Nat.add_comm. assert (1 <= j < nz) by lia.
      destruct (Nat.eq_dec i (nx - 1)) as [->|Hn].
      - destruct Hs as [Hs|Hs]; [lia|]. rewrite C1 by lia.
        destruct (Z.eqb_spec (tu t (j * nx + (nx - 1))) (-12)) as [E|E].
        + rewrite (Hs j Hj E). rewrite <- (Nat.add_0_r (j * nx)). now apply Inn; lia.
        + now apply Inn; lia.
      - now apply Inn3; try lia; left; lia. }
    assert (Row12 : forall j, j = 1 \/ j = nz - 1 -> u1 (i + j * nx) = u (i + j * nx)).
    { intros j Hj. rewrite Nat.add_comm. apply Inn; lia. }
    assert (GS : tu t i <> (-12)%Z -> u3 i = u2 i).
    { intros N. destruct (Nat.eq_dec i (nx - 1)) as [->|Hn].
      - pose proof (C1 0 ltac:(lia)) as C. cbn [Nat.mul Nat.add] in C. rewrite C. now rewrite (proj2 (Z.eqb_neq _ _) N).
      - apply (NotEast 0 i). lia. }
    assert (GN : tu t (i + nz * nx) <> (-12)%Z -> u3 (i + nz * nx) = u2 (i + nz * nx)).
    { intros N. rewrite (Nat.add_comm i) in *. destruct (Nat.eq_dec i (nx - 1)) as [->|Hn].
      - rewrite C1 by lia. now rewrite (proj2 (Z.eqb_neq _ _) N).
      - apply NotEast. lia. }
    pose proof (Row 1 (or_introl eq_refl)) as R1. pose proof (Row (nz - 1) (or_intror eq_refl)) as RN.
    pose proof (Row12 1 (or_introl eq_refl)) as Q1. pose proof (Row12 (nz - 1) (or_intror eq_refl)) as QN.
    rewrite Nat.mul_1_l in *. rewrite R1, RN.
    unfold ghost_condition. repeat split; intros T.
    + rewrite GS by (rewrite T; discriminate). rewrite B1S, A1S, T. reflexivity.
    + rewrite GS by (rewrite T; discriminate). rewrite B1S, T, Q1. cbn [Z.eqb Pos.eqb]. lra.
    + rewrite GN by (rewrite T; discriminate). rewrite B1N, A1N, T. reflexivity.
    + rewrite GN by (rewrite T; discriminate). rewrite B1N, T, QN. cbn [Z.eqb Pos.eqb]. lra.
  - intros j Hj T. rewrite C1, T by exact Hj. cbn [Z.eqb Pos.eqb].
    rewrite <- (Nat.add_0_r (j * nx)) at 2. rewrite NotEast by lia. now rewrite Nat.add_0_r.
  - exact Inn3.
Qed.

Theorem C31_vx_ghosts nx nz t valu u : 2 <= nx -> 2 <= nz -> east_synchronised nx nz t u ->
  let u' := bc_u nx nz t valu u in
  vx_conditions nx nz t valu u' /\
  (forall j i, 1 <= j < nz -> i < nx -> (i < nx - 1 \/ tu t (j * nx + i) <> (-12)%Z) -> u' (j * nx + i) = u (j * nx + i)).
Proof.
  intros Hx Hz Hs u'. destruct (vx_ghosts nx nz t valu u Hx Hz) as (A & B & C). fold u' in A, B, C.
  split; [|exact C]. split; [|exact B]. intros i Hi. apply A; [exact Hi|now right].
Qed.
Print Assumptions C31_vx_ghosts.

(** After a solution update (which copies periodic values first) all conditions
    hold, whatever the fields, the correction and its length. *)
Theorem C31_after_solution_update nx nz t valu valv eu0 ev0 ep0 dx alpha f : 2 <= nx -> 2 <= nz ->
  periodic_east nx nz t ->
  let s := number nx nz t eu0 ev0 ep0 in
  let f' := extract_solutions2 nx nz t valu valv s dx alpha f in
  vx_conditions nx nz t valu (u_in f') /\ vz_conditions nx nz t valv (v_in f').
Proof.
  intros Hx Hz Hper s f'. unfold f', extract_solutions2, apply_bc. cbn [u_in v_in].
  split; [|apply (C31_vz_ghosts nx nz t valv _ Hx)].
  apply (C31_vx_ghosts nx nz t valu); [exact Hx|exact Hz|].
  intros j Hj T. unfold extract. cbn [u_in].
  assert (Hlt : j * nx + (nx - 1) < (nz + 1) * nx) by nia.
  rewrite !(extract_periodic_spec nx nz t Hx Hper) by nia. rewrite T, Z.eqb_refl.
  replace (j * nx + (nx - 1) + 1 - nx) with (j * nx) by lia.
  destruct (Z.eqb_spec (tu t (j * nx)) (-12)) as [E|]; [|reflexivity].
  exfalso. pose proof (Hper (j * nx) ltac:(nia) E) as M. rewrite Nat.mod_mul in M by lia. lia.
Qed.
Print Assumptions C31_after_solution_update.

(** Called on a field whose periodic sides differ, the corner ghost is stale:
    the free-slip ghost differs from its neighbour afterwards. *)
Theorem C31_stale_corner_refuted : exists nx nz t valu u,
  2 <= nx /\ 2 <= nz /\ periodic_east nx nz t /\ ~ vx_conditions nx nz t valu (bc_u nx nz t valu u).
Proof.
  exists 2, 2, (Types (fun c => nth c [13;13; -2;-12; 13;13]%Z 0%Z) (fun _ => 0%Z) (fun _ => 0%Z)),
    (fun _ => 0%R), (fun c => nth c [0;0; 1;5; 0;0]%R 0%R).
  split; [lia|]. split; [lia|]. split.
  - intros c Hc E. cbn in Hc. do 6 (destruct c as [|c]; [cbn in *; (reflexivity || discriminate)|]). lia.
  - intros [H _]. destruct (H 1 ltac:(lia)) as [[G _] _]. specialize (G eq_refl).
    unfold bc_u, vx_periodic, vx_dirichlet, vx_neumann, loop in G. cbn in G. unfold upd_if, upd in G. cbn in G. lra.
Qed.
Print Assumptions C31_stale_corner_refuted.

(** A periodic channel with free-slip bottom and moving top meets the hypotheses. *)
Example C31_channel_ex :
  let t := Types (fun c => nth c [13;13;13; -2;-1;-12; -2;-1;-12; 11;11;11]%Z 30%Z)
                 (fun c => nth c [-12;0;0;-12; -12;-1;-1;-12; -12;0;0;-12]%Z 30%Z) (fun _ => (-1)%Z) in
  periodic_east 3 3 t /\ east_synchronised 3 3 t (fun c => if c mod 3 =? 1 then 4%R else 2%R) /\
  bc_u 3 3 t (fun _ => 10%R) (fun c => if c mod 3 =? 1 then 4%R else 2%R) 10 = 6%R.
Proof.
  intros t. split; [|split].
  - intros c Hc E. cbn in Hc. do 12 (destruct c as [|c]; [cbn in *; (reflexivity || discriminate)|]). lia.
  - intros j Hj _. assert (j = 1 \/ j = 2) as [-> | ->] by lia; reflexivity.
  - cbn. unfold upd_if, upd. cbn. lra.
Qed.
