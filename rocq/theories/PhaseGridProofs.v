(** Lemmas about fields built from phases. *)
From Coq Require Import List ZArith Reals Bool Arith Lia Lra.
Import ListNotations.
From Verif Require Import GridModel GridProofs RheoModel MatGridModel MatGridProps AnisoModel P2GModel ItpModel SubgridModel PhaseGridModel.
Local Open Scope R_scope.

(** ** Loops *)
Lemma loop_app {S} (f : S -> nat -> S) a n m s : loop a (n + m) f s = loop (a + n) m f (loop a n f s).
Proof. unfold loop. now rewrite seq_app, fold_left_app. Qed.
Lemma loop_shift {S} (f : S -> nat -> S) b : forall n a s, loop a n (fun s k => f s (k + b)%nat) s = loop (a + b) n f s.
Proof.
  unfold loop. induction n as [|n IH]; intros a s; [reflexivity|]. cbn [seq fold_left]. rewrite IH. reflexivity.
Qed.
Lemma loop_flat {S} (f : S -> nat -> S) n1 : forall n2 s,
  loop 0 n2 (fun s l => loop 0 n1 (fun s k => f s (k + l * n1)%nat) s) s = loop 0 (n2 * n1) f s.
Proof.
  induction n2 as [|n2 IH]; intros s; [reflexivity|].
  change (Datatypes.S n2) with (1 + n2)%nat. rewrite loop_S, IH. cbn [Nat.add].
  rewrite (loop_shift f (n2 * n1) n1 0). replace (Datatypes.S n2 * n1)%nat with (n2 * n1 + n1)%nat by lia.
  rewrite loop_app. reflexivity.
Qed.

Lemma fill_nodes_spec n1 n2 val a :
  match fill_nodes n1 n2 val a with
  | Some a' => (forall c, (c < n2 * n1)%nat -> val c = Some (a' c)) /\ (forall c, (n2 * n1 <= c)%nat -> a' c = a c)
  | None => exists c, (c < n2 * n1)%nat /\ val c = None
  end.
Proof.
  unfold fill_nodes. cbv zeta.
  rewrite (loop_flat (fun o c => match o with None => None | Some a => match val c with None => None | Some v => Some (upd a c v) end end) n1 n2).
  generalize (n2 * n1)%nat as n. induction n as [|n IH].
  - cbn. split; [intros c C; lia|reflexivity].
  - change (Datatypes.S n) with (1 + n)%nat. rewrite loop_S. cbn [Nat.add].
    set (o := loop 0 n _ _) in *. clearbody o. destruct o as [a1|].
    + destruct IH as [A B]. destruct (val n) as [v|] eqn:V.
      * split.
        -- intros c C. destruct (Nat.eq_dec c n) as [->|Q]; [now rewrite upd_same|]. rewrite upd_other by exact Q. apply A. lia.
        -- intros c C. rewrite upd_other by lia. apply B. lia.
      * exists n. split; [lia|exact V].
    + destruct IH as (c & C & V). exists c. split; [lia|exact V].
Qed.

Lemma periodic_ends_spec nx nz a : (2 <= nx)%nat ->
  let a' := periodic_ends nx nz a in
  (forall l, (l < nz)%nat -> a' (l * nx)%nat = 1 / 2 * (a (l * nx + nx - 1)%nat + a (l * nx)%nat) /\ a' (l * nx + nx - 1)%nat = a' (l * nx)%nat) /\
  (forall k l, (0 < k < nx - 1)%nat -> a' (k + l * nx)%nat = a (k + l * nx)%nat) /\
  (forall c, (nz * nx <= c)%nat -> a' c = a c).
Proof.
  intros N. cbv zeta. unfold periodic_ends. induction nz as [|n IH].
  - split; [intros l L; lia|]. split; reflexivity.
  - change (Datatypes.S n) with (1 + n)%nat. rewrite loop_S. cbn [Nat.add]. cbv zeta.
    set (b := loop 0 n _ a) in *. clearbody b. destruct IH as (A & B & C). repeat split.
    + destruct (Nat.eq_dec l n) as [->|Q].
      * rewrite upd_same. rewrite (C (n * nx + nx - 1)%nat), (C (n * nx)%nat) by nia. reflexivity.
      * rewrite !upd_other by nia. apply A. lia.
    + destruct (Nat.eq_dec l n) as [->|Q].
      * rewrite upd_same. rewrite upd_other by nia. now rewrite upd_same.
      * rewrite !upd_other by nia. apply A. lia.
    + intros k l K. assert (X1 : (k + l * nx)%nat <> (n * nx + nx - 1)%nat).
      { intros E. destruct (Nat.lt_trichotomy l n) as [L|[->|L]]; [assert ((l + 1) * nx <= n * nx)%nat by nia; nia|lia|assert ((n + 1) * nx <= l * nx)%nat by nia; nia]. }
      assert (X2 : (k + l * nx)%nat <> (n * nx)%nat).
      { intros E. destruct (Nat.lt_trichotomy l n) as [L|[->|L]]; [assert ((l + 1) * nx <= n * nx)%nat by nia; nia|lia|assert ((n + 1) * nx <= l * nx)%nat by nia; nia]. }
      rewrite !upd_other by assumption. apply B. exact K.
    + intros c K. rewrite !upd_other by nia. apply C. nia.
Qed.

(** ** Sums over phases *)
Fixpoint psum (n : nat) (f : nat -> R) : R := match n with O => 0 | Datatypes.S n => psum n f + f n end.
Lemma psum_ext n f g : (forall p, (p < n)%nat -> f p = g p) -> psum n f = psum n g.
Proof. induction n as [|n IH]; intros H; cbn [psum]; [reflexivity|]. rewrite IH, H by (auto; lia). reflexivity. Qed.
Lemma psum_le n f g : (forall p, (p < n)%nat -> f p <= g p) -> psum n f <= psum n g.
Proof. induction n as [|n IH]; intros H; cbn [psum]; [lra|]. pose proof (H n ltac:(lia)). pose proof (IH ltac:(auto with arith)). lra. Qed.
Lemma psum_scal n c f : psum n (fun p => f p * c) = c * psum n f.
Proof. induction n as [|n IH]; cbn [psum]; [ring|]. rewrite IH. ring. Qed.
Lemma psum_between n fr v lo hi : (forall p, (p < n)%nat -> 0 <= fr p) -> psum n fr = 1 ->
  (forall p, (p < n)%nat -> fr p <> 0 -> lo <= v p <= hi) -> lo <= psum n (fun p => fr p * v p) <= hi.
Proof.
  intros P S V. rewrite <- (Rmult_1_r lo), <- (Rmult_1_r hi), <- S, <- !psum_scal.
  split; apply psum_le; intros p L; specialize (P p L); destruct (Req_dec (fr p) 0) as [E|E]; [rewrite E; lra|specialize (V p L E); nra|rewrite E; lra|specialize (V p L E); nra].
Qed.

Lemma aniso_loop avg m fr ar nph : (forall p, (p < nph)%nat -> am_fstrain m p = 0%Z \/ am_fstrain m p = 1%Z) ->
  loop 0 nph (aniso_term avg m fr ar) 0 =
  psum nph (fun p => contrib avg (fr p) (if (am_fstrain m p =? 1)%Z then Rmin ar (am_max m p) else am_factor m p)).
Proof.
  induction nph as [|n IH]; intros H; [reflexivity|].
  change (Datatypes.S n) with (1 + n)%nat. rewrite loop_S. cbn [Nat.add psum]. rewrite IH by auto with arith.
  unfold aniso_term, aniso_factor_evolv. destruct (H n ltac:(lia)) as [-> | ->]; reflexivity.
Qed.

(** ** Strength *)
Lemma softening_spec erfc smooth m nph c fr strain s :
  let s' := softening erfc smooth m nph c fr strain s in
  (st_fric s' c = st_fric s c + psum nph (fun p => fr p * softened erfc smooth m (sm_phi m) strain p)) /\
  (st_dil s' c = st_dil s c + psum nph (fun p => fr p * softened erfc smooth m (sm_psi m) strain p)) /\
  (st_coh s' c = st_coh s c + psum nph (fun p => fr p * softened erfc smooth m (sm_coh m) strain p)) /\
  (forall k, k <> c -> st_fric s' k = st_fric s k /\ st_dil s' k = st_dil s k /\ st_coh s' k = st_coh s k).
Proof.
  cbv zeta. unfold softening. induction nph as [|n IH].
  - cbn. repeat split; lra.
  - change (Datatypes.S n) with (1 + n)%nat. rewrite loop_S. cbn [Nat.add psum st_fric st_dil st_coh].
    set (s1 := loop 0 n _ s) in *. clearbody s1. destruct IH as (A & B & C & D).
    rewrite !upd_same, A, B, C. repeat split; try ring; rewrite upd_other by assumption; now apply D.
Qed.

Lemma strength_grid_spec erfc smooth noisy m nph n air fr strain noise s :
  let s' := strength_grid erfc smooth noisy m nph n air fr strain noise s in
  let mean q c := psum nph (fun p => fr p c * softened erfc smooth m q (strain c) p) in
  (forall c, (c < n)%nat ->
     st_fric s' c = (if air c then 0 else mean (sm_phi m) c) /\
     st_dil s' c = (if air c then 0 else mean (sm_psi m) c) /\
     st_coh s' c = (if air c then 0 else mean (sm_coh m) c * (1 + if noisy then noise c else 0))) /\
  (forall c, (n <= c)%nat -> st_fric s' c = st_fric s c /\ st_dil s' c = st_dil s c /\ st_coh s' c = st_coh s c).
Proof.
  cbv zeta. unfold strength_grid. induction n as [|n IH].
  - split; [intros c C; lia|]. repeat split.
  - change (Datatypes.S n) with (1 + n)%nat. rewrite loop_S. cbn [Nat.add]. cbv zeta.
    set (s1 := loop 0 n _ s) in *. clearbody s1. destruct IH as [A B].
    set (s2 := Strength (upd (st_fric s1) n 0) (upd (st_dil s1) n 0) (upd (st_coh s1) n 0)).
    assert (Z2 : st_fric s2 n = 0 /\ st_dil s2 n = 0 /\ st_coh s2 n = 0).
    { unfold s2. cbn. rewrite !upd_same. auto. }
    assert (O2 : forall c, c <> n -> st_fric s2 c = st_fric s1 c /\ st_dil s2 c = st_dil s1 c /\ st_coh s2 c = st_coh s1 c).
    { intros c Q. unfold s2. cbn. rewrite !upd_other by exact Q. auto. }
    clearbody s2.
    destruct (softening_spec erfc smooth m nph n (fun p => fr p n) (strain n) s2) as (P1 & P2 & P3 & P4).
    set (s3 := softening erfc smooth m nph n (fun p => fr p n) (strain n) s2) in *. clearbody s3. cbn beta in *.
    destruct Z2 as (Z21 & Z22 & Z23). rewrite Z21 in P1. rewrite Z22 in P2. rewrite Z23 in P3.
    set (s4 := if air n then s2 else if noisy then Strength (st_fric s3) (st_dil s3) (upd (st_coh s3) n (st_coh s3 n + noise n * st_coh s3 n)) else s3).
    assert (O4 : forall c, c <> n -> st_fric s4 c = st_fric s1 c /\ st_dil s4 c = st_dil s1 c /\ st_coh s4 c = st_coh s1 c).
    { intros c Q. unfold s4. destruct (O2 c Q) as (<- & <- & <-). destruct (P4 c Q) as (Q1 & Q2 & Q3).
      destruct (air n); [auto|]. destruct noisy; cbn [st_fric st_dil st_coh]; [|auto]. rewrite upd_other by exact Q. auto. }
    split.
    + intros c C. destruct (Nat.eq_dec c n) as [->|Q].
      * unfold s4. destruct (air n); [auto|]. destruct noisy; cbn [st_fric st_dil st_coh].
        -- rewrite upd_same, P1, P2, P3. repeat split; ring.
        -- rewrite P1, P2, P3. repeat split; ring.
      * destruct (O4 c Q) as (-> & -> & ->). apply A. lia.
    + intros c C. destruct (O4 c ltac:(lia)) as (-> & -> & ->). apply B. lia.
Qed.
