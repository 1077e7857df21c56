(** * Right-hand side vectors of the assembled system: theorems *)
From Coq Require Import List ZArith Reals Bool Arith Lia Lra.
Import ListNotations.
From Verif Require Import GridModel GridProofs NumModel NumProofs NumProps VecModel VecProps RHSModel.
Local Open Scope nat_scope.

Lemma guess_above sel ty a n i0 x : let s := loop 0 n (guess_step sel ty a) (i0, x) in
  forall j, i0 + count (fun c => sel (ty c)) n <= j -> snd s j = x j.
Proof.
  set (q := fun c => sel (ty c)). cbv zeta.
  pose proof (loop_ind (fun m (s : nat * (nat -> R)) => fst s = i0 + count q m /\ forall j, i0 + count q m <= j -> snd s j = x j) (guess_step sel ty a) n 0 (i0, x)) as L.
  apply L; clear L.
  - cbn [fst snd count]. split; [lia|reflexivity].
  - intros m [i y] Hm (H1 & H2). cbn [fst snd] in *. rewrite count_S. unfold guess_step. change (sel (ty m)) with (q m). destruct (q m); cbn [fst snd].
    + split; [lia|]. intros j Hj. rewrite upd_other by lia. apply H2. lia.
    + split; [lia|]. intros j Hj. apply H2. lia.
Qed.

(** The body force of every velocity unknown stands in the row of its equation; exactly
    neq_mom entries are written. *)
Theorem C129_momentum : forall Nx Nz t eu0 ev0 ep0 rx rz b, 2 <= Nx -> periodic_east Nx Nz t -> documented Nx Nz t ->
  let s := number Nx Nz t eu0 ev0 ep0 in
  Z.of_nat (fst (rhs_mom Nx Nz t rx rz b)) = neq_mom s /\
  (forall c, on_grid Nx Nz (U c) -> unknown_node t (U c) -> snd (rhs_mom Nx Nz t rx rz b) (Z.to_nat (equation s (U c))) = rx c) /\
  (forall c, on_grid Nx Nz (V c) -> unknown_node t (V c) -> snd (rhs_mom Nx Nz t rx rz b) (Z.to_nat (equation s (V c))) = rz c) /\
  (forall j, (neq_mom s <= Z.of_nat j)%Z -> snd (rhs_mom Nx Nz t rx rz b) j = b j).
Proof.
  intros Nx Nz t eu0 ev0 ep0 rx rz b Hx Hper Hdoc s. unfold s. rewrite (mom_at Nx Nz t eu0 ev0 ep0 Hx Hper).
  pose proof (eqn_at Nx Nz t eu0 ev0 ep0 Hx Hper) as EQ.
  unfold rhs_mom. rewrite !loop_nest. destruct (guess_spec upd_uv (tu t) rx ((Nz + 1) * Nx) 0 b) as (A1 & A2 & _). pose proof (guess_above upd_uv (tu t) rx ((Nz + 1) * Nx) 0 b) as A4. cbv zeta in A4.
  set (s1 := loop 0 ((Nz + 1) * Nx) _ _) in *. destruct s1 as [i1 x1]. cbn [fst snd] in A1, A2, A4. rewrite Nat.add_0_l, (cu Nx Nz t Hdoc) in A1, A4 by lia. fold (nu Nx Nz t) in A1, A4. subst i1.
  destruct (guess_spec upd_uv (tv t) rz (Nz * (Nx + 1)) (nu Nx Nz t) x1) as (B1 & B2 & B3). pose proof (guess_above upd_uv (tv t) rz (Nz * (Nx + 1)) (nu Nx Nz t) x1) as B4. cbv zeta in B4.
  set (s2 := loop 0 (Nz * (Nx + 1)) _ _) in *. destruct s2 as [i2 x2]. cbn [fst snd] in B1, B2, B3, B4 |- *. rewrite (cv Nx Nz t Hdoc) in B1, B4 by lia. fold (nv Nx Nz t) in B1, B4.
  split; [lia|]. split; [|split].
  - intros c G F. rewrite (EQ (U c) G F), Nat2Z.id. cbn [on_grid unknown_node] in *. apply num_u_in in F. rewrite B3 by (apply count_lt; assumption).
    specialize (A2 c G). rewrite (sel_u Nx Nz t Hdoc c G) in A2. specialize (A2 F). rewrite Nat.add_0_l, (cu Nx Nz t Hdoc c) in A2 by lia. exact A2.
  - intros c G F. rewrite (EQ (V c) G F), Nat2Z.id. cbn [on_grid unknown_node] in *. apply num_v_in in F.
    specialize (B2 c G). rewrite (sel_v Nx Nz t Hdoc c G) in B2. specialize (B2 F). rewrite (cv Nx Nz t Hdoc c) in B2 by lia. exact B2.
  - intros j J. rewrite B4 by lia. apply A4. lia.
Qed.
(** The same for the cells and the continuity equations. *)
Theorem C129_continuity : forall Nx Nz t eu0 ev0 ep0 rp b, 2 <= Nx -> periodic_east Nx Nz t -> documented Nx Nz t ->
  let s := number Nx Nz t eu0 ev0 ep0 in
  Z.of_nat (fst (rhs_cont Nx Nz t rp b)) = (inc s - neq_mom s)%Z /\
  (forall c, on_grid Nx Nz (P c) -> unknown_node t (P c) -> snd (rhs_cont Nx Nz t rp b) (Z.to_nat (equation s (P c) - neq_mom s)) = rp c) /\
  (forall j, (inc s - neq_mom s <= Z.of_nat j)%Z -> snd (rhs_cont Nx Nz t rp b) j = b j).
Proof.
  intros Nx Nz t eu0 ev0 ep0 rp b Hx Hper Hdoc s. unfold s. rewrite (mom_at Nx Nz t eu0 ev0 ep0 Hx Hper).
  pose proof (eqn_at Nx Nz t eu0 ev0 ep0 Hx Hper) as EQ.
  destruct (number_spec Nx Nz t eu0 ev0 ep0 Hx Hper) as (_ & _ & NC & _).
  unfold rhs_cont. rewrite !loop_nest. destruct (guess_spec upd_p (tp t) rp ((Nz - 1) * (Nx - 1)) 0 b) as (A1 & A2 & _). pose proof (guess_above upd_p (tp t) rp ((Nz - 1) * (Nx - 1)) 0 b) as A4. cbv zeta in A4.
  set (s1 := loop 0 ((Nz - 1) * (Nx - 1)) _ _) in *. destruct s1 as [i1 x1]. cbn [fst snd] in *. rewrite Nat.add_0_l, (cp Nx Nz t Hdoc) in A1, A4 by lia.
  fold (np Nx Nz t) in A1, A4. rewrite NC. split; [lia|]. split.
  - intros c G F. rewrite (EQ (P c) G F). cbn [on_grid unknown_node] in *. apply num_p_in in F.
    specialize (A2 c G). rewrite (sel_p Nx Nz t Hdoc c G) in A2. specialize (A2 F). rewrite Nat.add_0_l, (cp Nx Nz t Hdoc c) in A2 by lia. rewrite <- A2. f_equal. lia.
  - intros j J. apply A4. lia.
Qed.
Print Assumptions C129_momentum.
Print Assumptions C129_continuity.

(** A 2 x 2 grid (one cell) with all Vx nodes on the sides fixed except node 3: the force of
    node 3 is the first entry, that of Vz node 4 the second. *)
Example C129_ex : let t := Types (fun c => if c =? 3 then (-1)%Z else 0%Z) (fun c => if c =? 4 then (-1)%Z else 0%Z) (fun _ => (-1)%Z) in
  let r := rhs_mom 2 2 t (fun c => INR c) (fun c => INR (10 * c)) (fun _ => 7%R) in
  fst r = 2 /\ snd r 0 = INR 3 /\ snd r 1 = INR 40 /\ snd r 2 = 7%R.
Proof. repeat split. Qed.

(** ** Node numbers *)
Lemma fill_spec w col row : forall h, let r := fill_indices w h col row in
  (forall k l, k < w -> l < h -> fst r (k + l * w) = k /\ snd r (k + l * w) = l) /\ (forall c, w * h <= c -> fst r c = col c /\ snd r c = row c).
Proof.
  assert (IN : forall l n s, n <= w -> let r := loop 0 n (fun s k => (upd (fst s) (k + l * w) k, upd (snd s) (k + l * w) l)) s in
    (forall k, k < n -> fst r (k + l * w) = k /\ snd r (k + l * w) = l) /\ (forall c, (c < l * w \/ n + l * w <= c) -> fst r c = fst s c /\ snd r c = snd s c)).
  { intros l. induction n as [|n IH]; intros s N; cbv zeta.
    - split; [lia|]. intros c _. split; reflexivity.
    - change (S n) with (1 + n). rewrite loop_S. cbn [Nat.add]. destruct (IH s ltac:(lia)) as [A B]. set (r := loop 0 n _ s) in *. cbn [fst snd]. split.
      + intros k K. destruct (Nat.eq_dec k n) as [->|NE]; [rewrite !upd_same; auto|]. rewrite !upd_other by lia. apply A. lia.
      + intros c C. rewrite !upd_other by lia. apply B. lia. }
  unfold fill_indices. cbv zeta. induction h as [|h [A B]].
  - split; [lia|]. intros c _. split; reflexivity.
  - change (S h) with (1 + h). rewrite loop_S. cbn [Nat.add]. set (r := loop 0 h _ (col, row)) in *. destruct (IN h w r (le_n _)) as [C D]. set (q := loop 0 w _ r) in *. split.
    + intros k l K L. destruct (Nat.eq_dec l h) as [->|NE]; [apply C; exact K|]. destruct (D (k + l * w)) as [-> ->]; [left; nia|]. apply A; [exact K|lia].
    + intros c K. destruct (D c) as [-> ->]; [right; nia|]. apply B. nia.
Qed.
(** For every node the stored column and row are those it is addressed with; nothing is
    written beyond the nodes. *)
Theorem C130_numbers : forall Nx Nz z, let g := grid_indices Nx Nz z in
  (forall k l, k < Nx -> l < Nz -> fst (nn_vert g) (k + l * Nx) = k /\ snd (nn_vert g) (k + l * Nx) = l) /\
  (forall k l, k < Nx -> l < Nz + 1 -> fst (nn_vx g) (k + l * Nx) = k /\ snd (nn_vx g) (k + l * Nx) = l) /\
  (forall k l, k < Nx + 1 -> l < Nz -> fst (nn_vz g) (k + l * (Nx + 1)) = k /\ snd (nn_vz g) (k + l * (Nx + 1)) = l) /\
  (forall k l, k < Nx - 1 -> l < Nz - 1 -> fst (nn_cell g) (k + l * (Nx - 1)) = k /\ snd (nn_cell g) (k + l * (Nx - 1)) = l) /\
  (forall c, (Nx * Nz <= c -> fst (nn_vert g) c = z c /\ snd (nn_vert g) c = z c) /\ (Nx * (Nz + 1) <= c -> fst (nn_vx g) c = z c /\ snd (nn_vx g) c = z c) /\
     ((Nx + 1) * Nz <= c -> fst (nn_vz g) c = z c /\ snd (nn_vz g) c = z c) /\ ((Nx - 1) * (Nz - 1) <= c -> fst (nn_cell g) c = z c /\ snd (nn_cell g) c = z c)).
Proof.
  intros Nx Nz z. cbv zeta. unfold grid_indices. cbn [nn_vert nn_vx nn_vz nn_cell].
  split; [apply fill_spec|]. split; [apply fill_spec|]. split; [apply fill_spec|]. split; [apply fill_spec|].
  intros c. split; [apply fill_spec|]. split; [apply fill_spec|]. split; apply fill_spec.
Qed.
(** Hence the numbers recover the address: the loops over flat numbers that look them up
    visit every node once. *)
Theorem C130_inverse : forall Nx Nz z c, c < Nx * (Nz + 1) -> let g := grid_indices Nx Nz z in
  fst (nn_vx g) c < Nx /\ snd (nn_vx g) c < Nz + 1 /\ fst (nn_vx g) c + snd (nn_vx g) c * Nx = c.
Proof.
  intros Nx Nz z c C. cbv zeta. assert (N : Nx <> 0) by (intros ->; cbn in C; lia).
  pose proof (Nat.div_mod c Nx N) as E. pose proof (Nat.mod_upper_bound c Nx N) as M. assert (D : c / Nx < Nz + 1) by (apply Nat.div_lt_upper_bound; [exact N|exact C]).
  destruct (C130_numbers Nx Nz z) as (_ & V & _). destruct (V (c mod Nx) (c / Nx) M D) as [V1 V2].
  replace (c mod Nx + c / Nx * Nx) with c in * by lia. rewrite V1, V2. lia.
Qed.
Print Assumptions C130_numbers.
Print Assumptions C130_inverse.

Example C130_ex : let g := grid_indices 3 2 (fun _ => 0) in fst (nn_vx g) 7 = 1 /\ snd (nn_vx g) 7 = 2 /\ fst (nn_vz g) 7 = 3 /\ snd (nn_cell g) 1 = 0.
Proof. repeat split. Qed.
