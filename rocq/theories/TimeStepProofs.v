(** Lemmas for TimeStepModel.v. *)
From Coq Require Import List ZArith Reals Bool Lia Lra Arith.
Import ListNotations.
From Verif Require Import TimeStepModel.
Open Scope R_scope.

(** ** Comparisons *)

Lemma gtb_true a b : gtb a b = true <-> b < a.
Proof. unfold gtb. destruct (Rlt_dec b a); split; intros; try discriminate; try tauto; lra. Qed.
Lemma gtb_false a b : gtb a b = false <-> a <= b.
Proof. unfold gtb. destruct (Rlt_dec b a); split; intros; try discriminate; try tauto; lra. Qed.

Lemma MAXV_l a b : a <= MAXV a b. Proof. unfold MAXV. destruct (Rle_dec b a); lra. Qed.
Lemma MAXV_r a b : b <= MAXV a b. Proof. unfold MAXV. destruct (Rle_dec b a); lra. Qed.
Lemma MAXV_cases a b : MAXV a b = a \/ MAXV a b = b.
Proof. unfold MAXV. destruct (Rle_dec b a); auto. Qed.
Lemma MINV_l a b : MINV a b <= a. Proof. unfold MINV. destruct (Rle_dec a b); lra. Qed.
Lemma MINV_r a b : MINV a b <= b. Proof. unfold MINV. destruct (Rle_dec a b); lra. Qed.
Lemma MINV_cases a b : MINV a b = a \/ MINV a b = b.
Proof. unfold MINV. destruct (Rle_dec a b); auto. Qed.

(** ** Index sets *)

Lemma in_visit n1 n2 st c :
  In c (visit n1 n2 st) <-> exists k l, (k < n1)%nat /\ (l < n2)%nat /\ c = (k + l * st)%nat.
Proof.
  unfold visit. rewrite in_flat_map. split.
  - intros (k & Hk & Hc). apply in_map_iff in Hc as (l & <- & Hl).
    apply in_seq in Hk. apply in_seq in Hl. exists k, l. repeat split; lia.
  - intros (k & l & Hk & Hl & ->). exists k. split; [apply in_seq; lia|].
    apply in_map_iff. exists l. split; [reflexivity|apply in_seq; lia].
Qed.

Lemma visit_full n1 n2 c : (c < n1 * n2)%nat -> In c (visit n1 n2 n1).
Proof.
  intros H. apply in_visit. exists (c mod n1)%nat, (c / n1)%nat.
  assert (n1 <> 0)%nat by lia.
  repeat split.
  - apply Nat.mod_upper_bound; assumption.
  - apply Nat.div_lt_upper_bound; lia.
  - rewrite (Nat.div_mod c n1) at 1 by assumption. lia.
Qed.

Lemma visit_bound n1 n2 c : In c (visit n1 n2 n1) -> (c < n1 * n2)%nat.
Proof. rewrite in_visit. intros (k & l & Hk & Hl & ->). nia. Qed.

(** ** Extrema *)

Lemma run_max_spec (V : nat -> R) : forall idx m, m <= fold_left (fun m c => MAXV m (V c)) idx m /\
  (forall c, In c idx -> V c <= fold_left (fun m c => MAXV m (V c)) idx m) /\
  (fold_left (fun m c => MAXV m (V c)) idx m = m \/
   exists c, In c idx /\ fold_left (fun m c => MAXV m (V c)) idx m = V c).
Proof.
  induction idx as [|a idx IH]; intros m; cbn; [repeat split; try lra; tauto|].
  destruct (IH (MAXV m (V a))) as (A & B & C).
  pose proof (MAXV_l m (V a)). pose proof (MAXV_r m (V a)).
  split; [lra|]. split.
  - intros c [->|Hc]; [lra|auto].
  - destruct C as [C|(c & Hc & C)].
    + destruct (MAXV_cases m (V a)) as [E|E]; rewrite E in C.
      * left. now rewrite E.
      * right. exists a. rewrite E. auto.
    + right. exists c. auto.
Qed.

Lemma run_min_spec (V : nat -> R) : forall idx m, fold_left (fun m c => MINV m (V c)) idx m <= m /\
  (forall c, In c idx -> fold_left (fun m c => MINV m (V c)) idx m <= V c) /\
  (fold_left (fun m c => MINV m (V c)) idx m = m \/
   exists c, In c idx /\ fold_left (fun m c => MINV m (V c)) idx m = V c).
Proof.
  induction idx as [|a idx IH]; intros m; cbn; [repeat split; try lra; tauto|].
  destruct (IH (MINV m (V a))) as (A & B & C).
  pose proof (MINV_l m (V a)). pose proof (MINV_r m (V a)).
  split; [lra|]. split.
  - intros c [->|Hc]; [lra|auto].
  - destruct C as [C|(c & Hc & C)].
    + destruct (MINV_cases m (V a)) as [E|E]; rewrite E in C.
      * left. now rewrite E.
      * right. exists a. rewrite E. auto.
    + right. exists c. auto.
Qed.

Lemma extrema_abs V idx :
  0 <= run_max V idx /\ run_min V idx <= 0 /\
  (forall c, In c idx -> Rabs (V c) <= MAXV (Rabs (run_max V idx)) (Rabs (run_min V idx))) /\
  (run_max V idx = 0 \/ exists c, In c idx /\ run_max V idx = V c) /\
  (run_min V idx = 0 \/ exists c, In c idx /\ run_min V idx = V c).
Proof.
  destruct (run_max_spec V idx 0) as (A & B & C). destruct (run_min_spec V idx 0) as (A' & B' & C').
  fold (run_max V idx) in *. fold (run_min V idx) in *.
  repeat split; try assumption.
  intros c Hc. specialize (B c Hc). specialize (B' c Hc).
  pose proof (MAXV_l (Rabs (run_max V idx)) (Rabs (run_min V idx))).
  pose proof (MAXV_r (Rabs (run_max V idx)) (Rabs (run_min V idx))).
  rewrite (Rabs_right (run_max V idx)) in * by lra.
  rewrite (Rabs_left1 (run_min V idx)) in * by lra.
  unfold Rabs. destruct (Rcase_abs (V c)); lra.
Qed.

(** A node of one of the two velocity grids. *)
Definition is_velocity (Nx Nz : nat) (Vx Vz : nat -> R) (v : R) : Prop :=
  (exists c, (c < Nx * (Nz + 1))%nat /\ v = Vx c) \/
  (exists c, (c < (Nx + 1) * Nz)%nat /\ v = Vz c).

Lemma vmax_spec Nx Nz Vx Vz :
  0 <= vmax_of Nx Nz Vx Vz /\
  (forall v, is_velocity Nx Nz Vx Vz v -> Rabs v <= vmax_of Nx Nz Vx Vz) /\
  (vmax_of Nx Nz Vx Vz = 0 \/ exists v, is_velocity Nx Nz Vx Vz v /\ Rabs v = vmax_of Nx Nz Vx Vz).
Proof.
  unfold vmax_of. set (ix := visit Nx (Nz + 1) Nx). set (iz := visit (Nx + 1) Nz (Nx + 1)).
  destruct (extrema_abs Vx ix) as (P1 & N1 & B1 & A1 & M1).
  destruct (extrema_abs Vz iz) as (P2 & N2 & B2 & A2 & M2).
  set (a := run_max Vx ix) in *. set (b := run_max Vz iz) in *.
  set (d := run_min Vx ix) in *. set (e := run_min Vz iz) in *.
  set (u := MAXV (Rabs a) (Rabs b)). set (w := MAXV (Rabs d) (Rabs e)).
  assert (Hu : 0 <= u) by (unfold u; pose proof (MAXV_l (Rabs a) (Rabs b)); pose proof (Rabs_pos a); lra).
  assert (Hw : 0 <= w) by (unfold w; pose proof (MAXV_l (Rabs d) (Rabs e)); pose proof (Rabs_pos d); lra).
  rewrite (Rabs_right u), (Rabs_right w) by lra.
  pose proof (MAXV_l u w). pose proof (MAXV_r u w).
  assert (U1 : Rabs a <= u) by apply MAXV_l. assert (U2 : Rabs b <= u) by apply MAXV_r.
  assert (W1 : Rabs d <= w) by apply MAXV_l. assert (W2 : Rabs e <= w) by apply MAXV_r.
  split; [lra|]. split.
  - intros v [(c & Hc & ->)|(c & Hc & ->)].
    + specialize (B1 c (visit_full _ _ _ Hc)).
      destruct (MAXV_cases (Rabs a) (Rabs d)) as [E|E]; rewrite E in B1; lra.
    + specialize (B2 c (visit_full _ _ _ Hc)).
      destruct (MAXV_cases (Rabs b) (Rabs e)) as [E|E]; rewrite E in B2; lra.
  - assert (X : forall (P : R -> Prop) y, (y = 0 \/ exists c, P c /\ y = c) ->
              Rabs y = 0 \/ exists v, P v /\ Rabs v = Rabs y).
    { intros P y [->|(c & Hc & ->)]; [left; apply Rabs_R0|right; exists c; auto]. }
    assert (XI : forall y, (y = 0 \/ exists c, In c ix /\ y = Vx c) ->
              Rabs y = 0 \/ exists v, is_velocity Nx Nz Vx Vz v /\ Rabs v = Rabs y).
    { intros y Hy. apply X. destruct Hy as [?|(c & Hc & ->)]; [auto|right]. exists (Vx c). split; [|reflexivity].
      left. exists c. split; [now apply visit_bound|reflexivity]. }
    assert (ZI : forall y, (y = 0 \/ exists c, In c iz /\ y = Vz c) ->
              Rabs y = 0 \/ exists v, is_velocity Nx Nz Vx Vz v /\ Rabs v = Rabs y).
    { intros y Hy. apply X. destruct Hy as [?|(c & Hc & ->)]; [auto|right]. exists (Vz c). split; [|reflexivity].
      right. exists c. split; [now apply visit_bound|reflexivity]. }
    destruct (MAXV_cases u w) as [E|E]; rewrite E; unfold u, w.
    + destruct (MAXV_cases (Rabs a) (Rabs b)) as [F|F]; rewrite F; auto.
    + destruct (MAXV_cases (Rabs d) (Rabs e)) as [F|F]; rewrite F; auto.
Qed.

(** ** Limits of the adaptive step *)

Lemma clamp_bounds c dt : dt_min c <= dt_max c -> dt_min c <= dt_clamp c dt <= dt_max c.
Proof.
  intros H. unfold dt_clamp.
  destruct (gtb dt (dt_max c)) eqn:A.
  - destruct (gtb (dt_min c) (dt_max c)) eqn:B; [apply gtb_true in B; lra|lra].
  - apply gtb_false in A. destruct (gtb (dt_min c) dt) eqn:B; [lra|apply gtb_false in B; lra].
Qed.

Lemma clamp_le c dt : dt_clamp c dt = dt_min c \/ dt_clamp c dt <= dt.
Proof.
  unfold dt_clamp. destruct (gtb dt (dt_max c)) eqn:A.
  - apply gtb_true in A. destruct (gtb (dt_min c) (dt_max c)); [now left|right; lra].
  - destruct (gtb (dt_min c) dt); [now left|right; lra].
Qed.

Lemma clamp_eq c dt : dt_clamp c dt = dt_min c \/ dt_clamp c dt = dt_max c \/ dt_clamp c dt = dt.
Proof.
  unfold dt_clamp. destruct (gtb dt (dt_max c)); destruct (gtb (dt_min c) _); auto.
Qed.

Lemma pre_limits c dt0 vmax : 0 < vmax ->
  dt_pre c dt0 vmax <= growth c * dt0 /\
  vmax * dt_pre c dt0 vmax <= Courant c * dmin c /\
  (surf_proc c = true -> surf_Vinc c <> 0 -> Rabs (surf_Vinc c) * dt_pre c dt0 vmax <= Courant c * dmin c) /\
  (chem c = true -> dt_pre c dt0 vmax <= dt_reac c).
Proof.
  intros Hv. unfold dt_pre. rewrite (Rabs_right vmax) by lra.
  set (q := Courant c * dmin c / vmax).
  set (d1 := if gtb q (growth c * dt0) then growth c * dt0 else q).
  assert (D1 : d1 <= growth c * dt0 /\ d1 <= q).
  { unfold d1. destruct (gtb q (growth c * dt0)) eqn:E; [apply gtb_true in E|apply gtb_false in E]; lra. }
  set (d2 := if surf_proc c then _ else d1).
  assert (D2 : d2 <= d1 /\ (surf_proc c = true -> surf_Vinc c <> 0 ->
             Rabs (surf_Vinc c) * d2 <= Courant c * dmin c)).
  { unfold d2. destruct (surf_proc c); [|split; [lra|discriminate]].
    destruct (Req_EM_T (surf_Vinc c) 0) as [E|E]; [split; [lra|congruence]|].
    assert (Ha : 0 < Rabs (surf_Vinc c)) by now apply Rabs_pos_lt.
    set (ds := Courant c * dmin c / Rabs (surf_Vinc c)).
    assert (Hds : Rabs (surf_Vinc c) * ds = Courant c * dmin c) by (unfold ds; field; lra).
    destruct (gtb d1 ds) eqn:G; [apply gtb_true in G|apply gtb_false in G]; (split; [lra|intros _ _]).
    - lra.
    - nra. }
  set (d3 := if chem c then _ else d2).
  assert (D3 : d3 <= d2 /\ (chem c = true -> d3 <= dt_reac c)).
  { unfold d3. destruct (chem c); [|split; [lra|discriminate]].
    destruct (gtb d2 (dt_reac c)) eqn:G; [apply gtb_true in G|apply gtb_false in G]; lra. }
  assert (Hq : vmax * q = Courant c * dmin c) by (unfold q; field; lra).
  destruct D1, D2 as [D2 D2'], D3 as [D3 D3'].
  split; [lra|]. split; [nra|]. split; [|exact D3'].
  intros A B. specialize (D2' A B).
  assert (0 <= Rabs (surf_Vinc c)) by apply Rabs_pos. nra.
Qed.

Lemma pow30_pos : 0 < 10 ^ 30. Proof. apply pow_lt. lra. Qed.

Lemma courant_cases c Nx Nz Vx Vz dt0 :
  constant_dt c = false -> growth c * dt0 <= 10 ^ 30 ->
  let dt := courant_dt c Nx Nz Vx Vz dt0 in
  (forall v, is_velocity Nx Nz Vx Vz v -> Rabs v < / 10 ^ 30) \/
  dt = dt_min c \/
  (dt <= growth c * dt0 /\
   (forall v, is_velocity Nx Nz Vx Vz v -> 0 <= dt -> Rabs v * dt <= Courant c * dmin c) /\
   (surf_proc c = true -> surf_Vinc c <> 0 -> Rabs (surf_Vinc c) * dt <= Courant c * dmin c) /\
   (chem c = true -> dt <= dt_reac c)).
Proof.
  intros Hc Hg dt. unfold dt, courant_dt. rewrite Hc. clear dt.
  destruct (vmax_spec Nx Nz Vx Vz) as (Hp & Hb & _).
  set (vm := vmax_of Nx Nz Vx Vz) in *.
  destruct (Rlt_le_dec vm (/ 10 ^ 30)) as [Hs|Hl].
  { left. intros v Hv. specialize (Hb v Hv). lra. }
  assert (Hv : 0 < vm) by (pose proof (Rinv_0_lt_compat _ pow30_pos); lra).
  destruct (pre_limits c dt0 vm Hv) as (L1 & L2 & L3 & L4).
  assert (R : dt_reset c dt0 vm = dt_pre c dt0 vm).
  { unfold dt_reset.
    rewrite (proj2 (gtb_false (dt_pre c dt0 vm) (10 ^ 30))) by lra.
    rewrite (proj2 (gtb_false (/ 10 ^ 30) vm)) by lra. reflexivity. }
  rewrite R. right. destruct (clamp_le c (dt_pre c dt0 vm)) as [E|E]; [now left|right].
  set (d := dt_clamp c (dt_pre c dt0 vm)) in *. set (p := dt_pre c dt0 vm) in *.
  split; [lra|]. split.
  - intros v Hvv Hd. specialize (Hb v Hvv). pose proof (Rabs_pos v). nra.
  - split; [|intros H; specialize (L4 H); lra].
    intros H1 H2. specialize (L3 H1 H2). pose proof (Rabs_pos (surf_Vinc c)). nra.
Qed.

(** The step is not shorter than it has to be. *)
Lemma courant_maximal c Nx Nz Vx Vz dt0 :
  constant_dt c = false -> surf_proc c = false -> chem c = false ->
  growth c * dt0 <= 10 ^ 30 ->
  (exists v, is_velocity Nx Nz Vx Vz v /\ / 10 ^ 30 <= Rabs v) ->
  let dt := courant_dt c Nx Nz Vx Vz dt0 in
  dt = dt_min c \/ dt = dt_max c \/ dt = growth c * dt0 \/
  exists v, is_velocity Nx Nz Vx Vz v /\ Rabs v * dt = Courant c * dmin c.
Proof.
  intros Hc Hs Hch Hg (v0 & Hv0 & Hv0') dt. unfold dt, courant_dt. rewrite Hc. clear dt.
  destruct (vmax_spec Nx Nz Vx Vz) as (Hp & Hb & Hat).
  set (vm := vmax_of Nx Nz Vx Vz) in *.
  pose proof (Hb v0 Hv0) as Hv. pose proof (Rinv_0_lt_compat _ pow30_pos) as Hi.
  assert (Hvp : 0 < vm) by lra.
  destruct Hat as [Hat|(v & Hvv & Hat)]; [lra|].
  destruct (pre_limits c dt0 vm Hvp) as (L1 & L2 & L3 & L4).
  assert (R : dt_reset c dt0 vm = dt_pre c dt0 vm).
  { unfold dt_reset.
    rewrite (proj2 (gtb_false (dt_pre c dt0 vm) (10 ^ 30))) by lra.
    rewrite (proj2 (gtb_false (/ 10 ^ 30) vm)) by lra. reflexivity. }
  rewrite R. destruct (clamp_eq c (dt_pre c dt0 vm)) as [E|[E|E]]; [auto|auto|].
  right. right. rewrite E. unfold dt_pre. rewrite Hs, Hch.
  rewrite (Rabs_right vm) by lra.
  destruct (gtb (Courant c * dmin c / vm) (growth c * dt0)); [now left|right].
  exists v. split; [exact Hvv|]. rewrite Hat. field. lra.
Qed.

(** ** Reads of the temperature arrays (C19) *)

Lemma thermal_reads_exact Nx Nz : (2 <= Nx)%nat -> (1 <= Nz)%nat -> forall c,
  In c (thermal_reads Nx Nz) <-> (c <= temperature_length Nx Nz + Nx)%nat.
Proof.
  intros Hx Hz c. unfold thermal_reads, temperature_length. rewrite in_visit. split.
  - intros (k & l & Hk & Hl & ->). nia.
  - intros H. set (s := (Nx - 1)%nat) in *.
    destruct (Nat.lt_ge_cases c (s * Nz)) as [Hlt|Hge].
    + exists (c mod s)%nat, (c / s)%nat.
      assert (s <> 0)%nat by lia.
      pose proof (Nat.mod_upper_bound c s ltac:(assumption)).
      repeat split; [lia| |].
      * apply Nat.div_lt_upper_bound; lia.
      * rewrite (Nat.div_mod c s) at 1 by assumption. lia.
    + exists (c - (Nz - 1) * s)%nat, (Nz - 1)%nat. nia.
Qed.

(** ** Sub-steps (C17) *)

Lemma Rceil_spec x : IZR (Rceil x) - 1 < x <= IZR (Rceil x).
Proof.
  unfold Rceil. destruct (base_Int_part (- x)) as [A B]. rewrite opp_IZR. lra.
Qed.

Lemma substeps_spec dt_solve dta n d : 0 < dt_solve -> 0 < dta ->
  substeps dt_solve dta = (n, d) ->
  (1 <= n)%Z /\ 0 < d /\ IZR n * d = dt_solve /\
  (d <= dta \/ (n = 1%Z /\ 0.95 * d <= dta)) /\
  (forall m : Z, (1 <= m)%Z -> dt_solve / IZR m <= dta -> (n <= m)%Z).
Proof.
  intros Hs Ha. unfold substeps. destruct (gtb (0.95 * dt_solve) dta) eqn:G.
  - apply gtb_true in G. intros H. injection H as <- <-.
    destruct (Rceil_spec (dt_solve / dta)) as [C1 C2].
    set (N := Rceil (dt_solve / dta)) in *.
    assert (Hq : 0 < dt_solve / dta) by (apply Rdiv_lt_0_compat; lra).
    assert (HN : (1 <= N)%Z) by (assert (0 < N)%Z by (apply lt_IZR; lra); lia).
    assert (HNr : 1 <= IZR N) by (apply IZR_le in HN; lra).
    assert (E : dta * (dt_solve / dta) = dt_solve) by (field; lra).
    split; [exact HN|]. split; [apply Rdiv_lt_0_compat; lra|].
    split; [field; lra|]. split.
    + left. apply Rmult_le_reg_r with (IZR N); [lra|].
      unfold Rdiv at 1. rewrite Rmult_assoc, Rinv_l, Rmult_1_r by lra. nra.
    + intros m Hm Hle. assert (Hmr : 1 <= IZR m) by (apply IZR_le in Hm; lra).
      assert (L : dt_solve / dta <= IZR m).
      { apply Rmult_le_reg_l with dta; [lra|]. rewrite E.
        apply Rmult_le_compat_r with (r := IZR m) in Hle; [|lra].
        unfold Rdiv in Hle at 1. rewrite Rmult_assoc, Rinv_l, Rmult_1_r in Hle by lra. lra. }
      assert (LT : IZR N - 1 < IZR m) by lra.
      assert (N - 1 < m)%Z by (apply lt_IZR; rewrite minus_IZR; lra). lia.
  - apply gtb_false in G. intros H. injection H as <- <-.
    split; [lia|]. split; [exact Hs|]. split; [ring|].
    split; [right; split; [reflexivity|lra]|]. intros; assumption.
Qed.

Lemma sum_repeat d : forall n, fold_right Rplus 0 (repeat d n) = INR n * d.
Proof.
  induction n as [|n IH]; [cbn; ring|]. cbn [repeat fold_right]. rewrite IH, S_INR. ring.
Qed.

(** ** Memory (C20) *)

Lemma set_mem_same m p s : set_mem m p s p = s.
Proof. unfold set_mem. destruct (ptr_eq_dec p p); congruence. Qed.
Lemma set_mem_other m p s q : q <> p -> set_mem m p s q = m q.
Proof. unfold set_mem. destruct (ptr_eq_dec q p); congruence. Qed.

Lemma mem_run_app : forall a b m, mem_run m (a ++ b) =
  match mem_run m a with None => None | Some m' => mem_run m' b end.
Proof. induction a as [|o a IH]; intros b m; cbn; [reflexivity|]. destruct (mem_step m o); [apply IH|reflexivity]. Qed.

Lemma run_allocs : forall l m, NoDup l -> (forall p, In p l -> m p <> Live) ->
  exists m', mem_run m (map Alloc l) = Some m' /\
  (forall p, In p l -> m' p = Live) /\ (forall p, ~ In p l -> m' p = m p).
Proof.
  induction l as [|a l IH]; intros m ND H; [exists m; cbn; tauto|].
  inversion ND as [|? ? Ha ND']; subst. cbn.
  assert (E : mem_step m (Alloc a) = Some (set_mem m a Live)).
  { cbn. specialize (H a (or_introl eq_refl)). destruct (m a); congruence. }
  cbn in E. rewrite E.
  destruct (IH (set_mem m a Live) ND') as (m' & R & A & B).
  { intros p Hp. rewrite set_mem_other by congruence. apply H. now right. }
  exists m'. split; [exact R|]. split.
  - intros p [->|Hp]; [|auto]. rewrite (B p Ha). apply set_mem_same.
  - intros p Hp. rewrite B by tauto. apply set_mem_other. intros ->. tauto.
Qed.

Lemma run_frees : forall l m, NoDup l -> (forall p, In p l -> m p = Live) ->
  exists m', mem_run m (map Free l) = Some m' /\
  (forall p, In p l -> m' p = Freed) /\ (forall p, ~ In p l -> m' p = m p).
Proof.
  induction l as [|a l IH]; intros m ND H; [exists m; cbn; tauto|].
  inversion ND as [|? ? Ha ND']; subst. cbn.
  rewrite (H a (or_introl eq_refl)).
  destruct (IH (set_mem m a Freed) ND') as (m' & R & A & B).
  { intros p Hp. rewrite set_mem_other by congruence. apply H. now right. }
  exists m'. split; [exact R|]. split.
  - intros p [->|Hp]; [|auto]. rewrite (B p Ha). apply set_mem_same.
  - intros p Hp. rewrite B by tauto. apply set_mem_other. intros ->. tauto.
Qed.

Ltac nodup := repeat (constructor; [cbn; intuition discriminate|]); constructor.

Lemma pass_run jac m : (forall s b, m (Mat s b) <> Live) ->
  exists m', mem_run m (pass_ops jac) = Some m' /\
   (forall s b, m' (Mat s b) <> Live) /\ (forall s, m' (Eqn s) = m (Eqn s)) /\ (forall s b, m' (Vec s b) = m (Vec s b)).
Proof.
  intros H. unfold pass_ops. rewrite mem_run_app.
  set (l := mats false ++ (if jac then mats true else [])).
  assert (ND : NoDup l) by (unfold l; destruct jac; nodup).
  assert (IM : forall p, In p l -> exists s b, p = Mat s b).
  { intros p Hp. unfold l in Hp. apply in_app_or in Hp as [Hp|Hp].
    - apply in_map_iff in Hp as (b & <- & _). eauto.
    - destruct jac; [|contradiction]. apply in_map_iff in Hp as (b & <- & _). eauto. }
  destruct (run_allocs l m ND) as (m1 & R1 & A1 & B1).
  { intros p Hp. destruct (IM p Hp) as (s & b & ->). apply H. }
  rewrite R1. destruct (run_frees l m1 ND A1) as (m2 & R2 & A2 & B2).
  exists m2. split; [exact R2|]. split; [|split].
  - intros s b. destruct (in_dec ptr_eq_dec (Mat s b) l) as [I|I].
    + rewrite (A2 _ I). discriminate.
    + rewrite (B2 _ I), (B1 _ I). apply H.
  - intros s. rewrite B2, B1; [reflexivity| |]; intros I; destruct (IM _ I) as (? & ? & ?); discriminate.
  - intros s b. rewrite B2, B1; [reflexivity| |]; intros I; destruct (IM _ I) as (? & ? & ?); discriminate.
Qed.

Lemma passes_run : forall js m, (forall s b, m (Mat s b) <> Live) ->
  exists m', mem_run m (flat_map pass_ops js) = Some m' /\
   (forall s b, m' (Mat s b) <> Live) /\ (forall s, m' (Eqn s) = m (Eqn s)) /\ (forall s b, m' (Vec s b) = m (Vec s b)).
Proof.
  induction js as [|j js IH]; intros m H; [exists m; cbn; auto|].
  cbn [flat_map]. rewrite mem_run_app. destruct (pass_run j m H) as (m1 & R1 & A1 & B1 & C1).
  rewrite R1. destruct (IH m1 A1) as (m2 & R2 & A2 & B2 & C2).
  exists m2. split; [exact R2|]. split; [exact A2|].
  split; intros; [rewrite B2; apply B1|rewrite C2; apply C1].
Qed.

Lemma step_mem_ok need js m : (forall p, m p <> Live) ->
  exists m', mem_run m (step_mem true need js) = Some m' /\ forall p, m' p <> Live.
Proof.
  intros H. unfold step_mem, start_allocs, end_frees. rewrite <- app_assoc, mem_run_app.
  set (la := [Eqn false] ++ (if need then [Eqn true] else []) ++ vecs false ++ (if need then vecs true else [])).
  set (lf := vecs false ++ (if need then vecs true else []) ++ [Eqn false] ++ (if need then [Eqn true] else [])).
  assert (NDa : NoDup la) by (unfold la; destruct need; nodup).
  assert (NDf : NoDup lf) by (unfold lf; destruct need; nodup).
  assert (Same : forall p, In p la <-> In p lf).
  { intros p. unfold la, lf. rewrite !in_app_iff. tauto. }
  assert (NM : forall p, In p la -> forall s b, p <> Mat s b).
  { intros p Hp s b ->. unfold la in Hp. destruct need; cbn in Hp; intuition discriminate. }
  destruct (run_allocs la m NDa) as (m1 & R1 & A1 & B1); [intros; apply H|].
  rewrite R1, mem_run_app.
  destruct (passes_run js m1) as (m2 & R2 & A2 & B2 & C2).
  { intros s b. rewrite B1; [apply H|]. intros I. exact (NM _ I s b eq_refl). }
  rewrite R2.
  assert (L2 : forall p, In p lf -> m2 p = Live).
  { intros p Hp. apply Same in Hp. pose proof (NM p Hp) as N. destruct p as [s|s b|s b].
    - rewrite B2. now apply A1.
    - rewrite C2. now apply A1.
    - elim (N s b eq_refl). }
  destruct (run_frees lf m2 NDf L2) as (m3 & R3 & A3 & B3).
  exists m3. split; [exact R3|]. intros p.
  destruct (in_dec ptr_eq_dec p lf) as [I|I].
  - rewrite (A3 _ I). discriminate.
  - rewrite (B3 _ I). destruct p as [s|s b|s b].
    + rewrite B2, B1; [apply H|]. now rewrite Same.
    + rewrite C2, B1; [apply H|]. now rewrite Same.
    + apply A2.
Qed.

Lemma steps_mem_ok need : forall runs m, (forall p, m p <> Live) ->
  exists m', mem_run m (flat_map (step_mem true need) runs) = Some m' /\ forall p, m' p <> Live.
Proof.
  induction runs as [|js runs IH]; intros m H; [exists m; auto|].
  cbn [flat_map]. rewrite mem_run_app. destruct (step_mem_ok need js m H) as (m1 & R1 & A1).
  rewrite R1. exact (IH m1 A1).
Qed.
