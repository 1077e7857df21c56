(** C43-C45: domain check, Runge-Kutta step, moving sides. *)
From Coq Require Import ZArith Reals List Bool Lia Lra Psatz Permutation.
Import ListNotations.
From Verif Require Import P2GModel P2GProofs AdvModel AdvProofs AdvProps.
Local Open Scope R_scope.

(** ** C43 *)
Definition inside (d : dom) (x z : R) : Prop := xmin d <= x <= xmax d /\ zmin d <= z <= zmax d.

Lemma eta : forall m, Part (px m) (pz m) (pph m) (pvx m) (pvz m) = m.
Proof. now intros []. Qed.

(** Without periodicity: the position is untouched, and the marker is active
    afterwards exactly if it was and is inside (sides included). *)
Theorem C43_closed_domain : forall d m, perx d = false ->
  let m' := isout_part d m in
  px m' = px m /\ pz m' = pz m /\ pvx m' = pvx m /\ pvz m' = pvz m /\
  (inside d (px m) (pz m) -> pph m' = pph m) /\ (~ inside d (px m) (pz m) -> pph m' = (-1)%Z).
Proof.
  intros d m P. unfold isout_part, inside. rewrite P. cbv zeta.
  destruct (Rltb_spec (px m) (xmin d)), (Rltb_spec (xmax d) (px m)), (Rltb_spec (pz m) (zmin d)), (Rltb_spec (zmax d) (pz m));
  cbn [orb deactivate px pz pph pvx pvz]; repeat split; intros; try reflexivity; try lra; exfalso; match goal with X : ~ (_ /\ _) |- _ => apply X; lra end.
Qed.
Print Assumptions C43_closed_domain.

(** With periodicity: a marker that overshoots by at most one domain width comes back
    by exactly one width, and is active iff it was and is inside vertically. *)
Theorem C43_periodic_domain : forall d m, perx d = true -> xmin d < xmax d ->
  let W := xmax d - xmin d in
  xmin d - W <= px m <= xmax d + W ->
  let m' := isout_part d m in
  xmin d <= px m' <= xmax d /\
  (xmin d <= px m <= xmax d -> px m' = px m) /\
  (px m < xmin d -> px m' = px m + W) /\ (xmax d < px m -> px m' = px m - W) /\
  pz m' = pz m /\
  (zmin d <= pz m <= zmax d -> pph m' = pph m) /\ (~ zmin d <= pz m <= zmax d -> pph m' = (-1)%Z).
Proof.
  intros d m P W0 W HW. unfold isout_part. rewrite P. cbv zeta. unfold W in *.
  destruct (Rltb_spec (px m) (xmin d)).
  - cbn [move_x px pz pph]. rewrite (Rabs_pos_eq (xmin d - px m)) by lra.
    destruct (Rltb_spec (xmax d) (xmax d - (xmin d - px m))); [lra|]. cbn [move_x px pz pph].
    destruct (Rltb_spec (pz m) (zmin d)), (Rltb_spec (zmax d) (pz m)); cbn [orb deactivate move_x px pz pph]; repeat split; intros; try reflexivity; try lra; exfalso; match goal with X : ~ (_ <= _ <= _) |- _ => apply X; lra end.
  - destruct (Rltb_spec (xmax d) (px m)).
    + cbn [move_x px pz pph]. rewrite (Rabs_left1 (xmax d - px m)) by lra.
      destruct (Rltb_spec (pz m) (zmin d)), (Rltb_spec (zmax d) (pz m)); cbn [orb deactivate move_x px pz pph]; repeat split; intros; try reflexivity; try lra; exfalso; match goal with X : ~ (_ <= _ <= _) |- _ => apply X; lra end.
    + destruct (Rltb_spec (pz m) (zmin d)), (Rltb_spec (zmax d) (pz m)); cbn [orb deactivate move_x px pz pph]; repeat split; intros; try reflexivity; try lra; exfalso; match goal with X : ~ (_ <= _ <= _) |- _ => apply X; lra end.
Qed.
Print Assumptions C43_periodic_domain.

(** A larger overshoot, to either side, leaves an active marker outside. *)
Theorem C43_large_overshoot_refuted : forall d m, perx d = true -> xmin d < xmax d ->
  zmin d <= pz m <= zmax d -> pph m <> (-1)%Z ->
  (px m < xmin d - (xmax d - xmin d) \/ xmax d + (xmax d - xmin d) < px m) ->
  let m' := isout_part d m in pph m' <> (-1)%Z /\ ~ (xmin d <= px m' <= xmax d).
Proof.
  intros d m P W0 HZ PH H. unfold isout_part. rewrite P. cbv zeta.
  destruct (Rltb_spec (px m) (xmin d)).
  - cbn [move_x px pz pph]. rewrite (Rabs_pos_eq (xmin d - px m)) by lra.
    destruct (Rltb_spec (xmax d) (xmax d - (xmin d - px m))); [lra|]. cbn [move_x px pz pph].
    destruct (Rltb_spec (pz m) (zmin d)); [lra|]. destruct (Rltb_spec (zmax d) (pz m)); [lra|]. cbn. split; [assumption|lra].
  - destruct (Rltb_spec (xmax d) (px m)); [|lra]. cbn [move_x px pz pph]. rewrite (Rabs_left1 (xmax d - px m)) by lra.
    destruct (Rltb_spec (pz m) (zmin d)); [lra|]. destruct (Rltb_spec (zmax d) (pz m)); [lra|]. cbn. split; [assumption|lra].
Qed.
Print Assumptions C43_large_overshoot_refuted.

(** The loop over all markers: in whatever order the threads visit the markers 0..n-1,
    each is checked exactly once and no other is touched. *)
Theorem C43_all_markers_any_schedule : forall d n ks ms, Permutation ks (seq 0 n) ->
  forall k, isout d ks ms k = if (k <? n)%nat then isout_part d (ms k) else ms k.
Proof.
  intros d n ks ms HP k.
  assert (G : forall ks ms, NoDup ks -> forall k, isout d ks ms k = if in_dec Nat.eq_dec k ks then isout_part d (ms k) else ms k).
  { clear. unfold isout. induction ks as [|a ks IH]; intros ms ND k; [reflexivity|].
    inversion ND; subst. cbn [fold_left]. rewrite IH by assumption.
    destruct (in_dec Nat.eq_dec k ks) as [I|I], (in_dec Nat.eq_dec k (a :: ks)) as [J|J]; cbn in J;
    destruct (Nat.eqb_spec k a); subst; try contradiction; try reflexivity; exfalso; tauto || (apply J; tauto) || idtac.
    destruct J; congruence. }
  rewrite G by (eapply Permutation_NoDup; [apply Permutation_sym; exact HP|apply seq_NoDup]).
  assert (E : In k ks <-> (k < n)%nat).
  { split; intros X; [apply (Permutation_in _ HP) in X; apply in_seq in X; lia|].
    apply (Permutation_in k (Permutation_sym HP)). apply in_seq. lia. }
  destruct (in_dec Nat.eq_dec k ks), (Nat.ltb_spec k n); try reflexivity; exfalso; [apply E in i; lia|apply n0, E; lia].
Qed.
Print Assumptions C43_all_markers_any_schedule.

Example C43_ex : px (isout_part (Dom 0 10 0 10 true) (Part 12 5 3 0 0)) = 2 /\
  pph (isout_part (Dom 0 10 0 10 false) (Part 12 5 3 0 0)) = (-1)%Z.
Proof.
  split.
  - destruct (C43_periodic_domain (Dom 0 10 0 10 true) (Part 12 5 3 0 0)) as (_ & _ & _ & H & _); cbn; try lra; try reflexivity.
    cbn in H. rewrite H by lra. lra.
  - destruct (C43_closed_domain (Dom 0 10 0 10 false) (Part 12 5 3 0 0) eq_refl) as (_ & _ & _ & _ & _ & H). apply H. unfold inside. cbn. lra.
Qed.

(** ** C44 *)
(** Specification: the classical scheme for dx/dt = f(x). *)
Definition pos := (R * R)%type.
Definition padd (p v : pos) (c : R) : pos := (fst p + c * fst v, snd p + c * snd v).
Definition rk_step (f : pos -> pos) (h : R) (p : pos) : pos :=
  let k1 := f p in
  let k2 := f (padd p k1 (h / 2)) in
  let k3 := f (padd p k2 (h / 2)) in
  let k4 := f (padd p k3 h) in
  padd (padd (padd (padd p k1 (h / 6)) k2 (h / 3)) k3 (h / 3)) k4 (h / 6).
Definition rk_points (f : pos -> pos) (h : R) (p : pos) : list pos :=
  let k1 := f p in
  let p2 := padd p k1 (h / 2) in
  let p3 := padd p (f p2) (h / 2) in
  let p4 := padd p (f p3) h in
  [p2; p3; p4; rk_step f h p].
Definition insidep (d : dom) (p : pos) : Prop := inside d (fst p) (snd p).

Lemma isout_inside : forall d m, inside d (px m) (pz m) -> isout_part d m = m.
Proof.
  intros d m [HX HZ]. unfold isout_part.
  destruct (Rltb_spec (px m) (xmin d)); [lra|]. destruct (Rltb_spec (xmax d) (px m)); [lra|].
  destruct (Rltb_spec (pz m) (zmin d)); [lra|]. destruct (Rltb_spec (zmax d) (pz m)); [lra|]. now destruct (perx d).
Qed.

(** [vel] reads the velocity field [f] at the position of an active marker. *)
Definition follows (vel : part -> R * R) (f : pos -> pos) : Prop :=
  forall m, pph m <> (-1)%Z -> vel m = f (px m, pz m).

Lemma stage_inside : forall d xA zA c dt v m, pph m <> (-1)%Z -> inside d (xA + c * dt * fst v) (zA + c * dt * snd v) ->
  stage d xA zA c dt v m = Part (xA + c * dt * fst v) (zA + c * dt * snd v) (pph m) (pvx m) (pvz m).
Proof. intros d xA zA c dt v m H I. unfold stage. apply Z.eqb_neq in H. rewrite H. now apply isout_inside. Qed.

(** A marker whose four stage points are inside makes exactly a classical fourth-order
    Runge-Kutta step, keeps its phase, and stores the mean velocity. *)
Theorem C44_classical_scheme : forall vel f d dt m, follows vel f -> pph m <> (-1)%Z ->
  Forall (insidep d) (rk_points f dt (px m, pz m)) ->
  let m' := rk4 vel d dt m in
  (px m', pz m') = rk_step f dt (px m, pz m) /\ pph m' = pph m /\
  (px m', pz m') = (px m + dt * pvx m', pz m + dt * pvz m').
Proof.
  intros vel f d dt m FO PH IN. unfold rk_points in IN. cbv zeta in IN.
  apply Forall_cons_iff in IN. destruct IN as [I1 IN]. apply Forall_cons_iff in IN. destruct IN as [I2 IN].
  apply Forall_cons_iff in IN. destruct IN as [I3 IN]. apply Forall_cons_iff in IN. destruct IN as [I4 _].
  unfold insidep, rk_step, padd in *. cbn [fst snd] in *.
  unfold rk4. cbv zeta.
  assert (EV : forall x z ph a b, ph <> (-1)%Z -> vel (Part x z ph a b) = f (x, z)) by (intros; now apply FO).
  rewrite (FO m PH).
  assert (C1 : forall a v, a + dt / 2 * v = a + 1 / 2 * dt * v) by (intros; lra).
  assert (C2 : forall a v, a + dt * v = a + 1 * dt * v) by (intros; lra).
  rewrite !C1 in *.
  rewrite (stage_inside d _ _ (1 / 2) dt _ m) by assumption. cbn [pph px pz pvx pvz]. rewrite EV by assumption.
  set (A := f (px m, pz m)) in *. set (B := f (px m + 1 / 2 * dt * fst A, pz m + 1 / 2 * dt * snd A)) in *.
  rewrite (stage_inside d _ _ (1 / 2) dt B) by assumption. cbn [pph px pz pvx pvz]. rewrite EV by assumption.
  set (C := f (px m + 1 / 2 * dt * fst B, pz m + 1 / 2 * dt * snd B)) in *.
  replace (px m + dt * fst C) with (px m + 1 * dt * fst C) in * by lra. replace (pz m + dt * snd C) with (pz m + 1 * dt * snd C) in * by lra.
  rewrite (stage_inside d _ _ 1 dt C) by assumption. cbn [pph px pz pvx pvz]. rewrite EV by assumption.
  set (D := f (px m + 1 * dt * fst C, pz m + 1 * dt * snd C)) in *.
  apply Z.eqb_neq in PH. rewrite PH.
  replace (px m + dt / 6 * fst A + dt / 3 * fst B + dt / 3 * fst C + dt / 6 * fst D) with
    (px m + dt * (1 / 6 * (fst A + 2 * fst B + 2 * fst C + fst D))) in * by field.
  replace (pz m + dt / 6 * snd A + dt / 3 * snd B + dt / 3 * snd C + dt / 6 * snd D) with
    (pz m + dt * (1 / 6 * (snd A + 2 * snd B + 2 * snd C + snd D))) in * by field.
  rewrite isout_inside by exact I4. cbn [px pz pph pvx pvz]. auto.
Qed.
Print Assumptions C44_classical_scheme.

(** In a linear flow the step is the fourth-order Taylor polynomial of the exact motion. *)
Theorem C44_linear_flow : forall a b c e u w h p,
  let A (q : pos) : pos := (a * fst q + b * snd q, c * fst q + e * snd q) in
  let f (q : pos) : pos := (fst (A q) + u, snd (A q) + w) in
  rk_step f h p =
  padd (padd (padd (padd p (f p) h) (A (f p)) (h ^ 2 / 2)) (A (A (f p))) (h ^ 3 / 6)) (A (A (A (f p)))) (h ^ 4 / 24).
Proof. intros. destruct p as [x z]. unfold rk_step, padd, f, A. cbn [fst snd]. f_equal; field. Qed.
Print Assumptions C44_linear_flow.

(** An inactive marker stays inactive, keeps its velocity and, in a closed domain, its
    place. *)
Theorem C44_inactive_stay_inactive : forall vel d dt m, pph m = (-1)%Z ->
  pph (rk4 vel d dt m) = (-1)%Z /\ pvx (rk4 vel d dt m) = pvx m /\ pvz (rk4 vel d dt m) = pvz m /\
  (perx d = false -> rk4 vel d dt m = m).
Proof.
  assert (S0 : forall d m, pph m = (-1)%Z -> pph (isout_part d m) = (-1)%Z /\ pvx (isout_part d m) = pvx m /\ pvz (isout_part d m) = pvz m /\ (perx d = false -> isout_part d m = m)).
  { intros d m H. destruct m as [x z ph a b]. cbn in H. subst ph. unfold isout_part, deactivate, move_x. cbn [px pz pph pvx pvz]. destruct (perx d).
    - destruct (Rltb x (xmin d)); cbn [px pz pph pvx pvz]; match goal with |- context [Rltb (xmax d) ?y] => destruct (Rltb (xmax d) y) end; cbn [px pz pph pvx pvz];
      destruct (_ || _); cbn; repeat split; intros; discriminate.
    - destruct (_ || _); cbn; auto. }
  intros vel d dt m H. unfold rk4. cbv zeta.
  assert (S1 : forall xA zA c v m, pph m = (-1)%Z -> stage d xA zA c dt v m = isout_part d m) by (intros; unfold stage; now rewrite H0).
  rewrite (S1 _ _ _ _ m H). destruct (S0 d m H) as (P1 & V1 & W1 & E1).
  rewrite (S1 _ _ _ _ _ P1). destruct (S0 d _ P1) as (P2 & V2 & W2 & E2).
  rewrite (S1 _ _ _ _ _ P2). destruct (S0 d _ P2) as (P3 & V3 & W3 & E3).
  rewrite P3. change ((-1 =? -1)%Z) with true. cbv iota. destruct (S0 d _ P3) as (P4 & V4 & W4 & E4).
  repeat split; try congruence. intros N. rewrite (E4 N), (E3 N), (E2 N). now apply E1.
Qed.
Print Assumptions C44_inactive_stay_inactive.

(** A marker that leaves a closed domain at the first half step is lost, even if
    the end of the step is inside. *)
Theorem C44_lost_at_first_stage : forall vel f d dt m, follows vel f -> perx d = false -> pph m <> (-1)%Z ->
  ~ insidep d (padd (px m, pz m) (f (px m, pz m)) (dt / 2)) ->
  pph (rk4 vel d dt m) = (-1)%Z.
Proof.
  intros vel f d dt m FO P PH OUT. unfold rk4. cbv zeta. rewrite (FO m PH). set (A := f (px m, pz m)) in *.
  set (m1 := stage d (px m) (pz m) (1 / 2) dt A m).
  assert (P1 : pph m1 = (-1)%Z).
  { unfold m1, stage. apply Z.eqb_neq in PH. rewrite PH. apply C43_closed_domain; [exact P|]. cbn [px pz].
    intros I. apply OUT. unfold insidep, padd. cbn [fst snd].
    replace (px m + dt / 2 * fst A) with (px m + 1 / 2 * dt * fst A) by lra.
    replace (pz m + dt / 2 * snd A) with (pz m + 1 / 2 * dt * snd A) by lra. exact I. }
  assert (K : forall xA zA c v n, pph n = (-1)%Z -> pph (stage d xA zA c dt v n) = (-1)%Z).
  { intros xA zA c v n Hn. unfold stage. rewrite Hn. cbn. unfold isout_part. rewrite P. destruct (_ || _); [reflexivity|exact Hn]. }
  rewrite (K _ _ _ _ _ (K _ _ _ _ _ P1)). cbn. unfold isout_part. rewrite P. destruct (_ || _); [reflexivity|]. apply K, K, P1.
Qed.
Print Assumptions C44_lost_at_first_stage.

Example C44_ex : let m := Part 1 2 5 0 0 in
  let m' := rk4 (fun m => (px m, - pz m)) (Dom (-10) 10 (-10) 10 false) 1 m in
  px m' = 65 / 24 /\ pph m' = 5%Z.
Proof.
  cbv zeta. set (f := fun q : pos => (fst q, - snd q)).
  destruct (C44_classical_scheme (fun m => (px m, - pz m)) f (Dom (-10) 10 (-10) 10 false) 1 (Part 1 2 5 0 0)) as (H & P & _).
  - now intros m _.
  - discriminate.
  - unfold rk_points, rk_step, padd, f. repeat constructor; cbn; lra.
  - split; [|exact P]. cbn [px pz] in H. apply (f_equal fst) in H. cbn [fst] in H. rewrite H.
    unfold rk_step, padd, f. cbn [fst snd]. field.
Qed.

(** ** C45 *)
Lemma average_const : forall n t u v, (forall j, (j < n)%nat -> t j = 0%Z -> u j = v) -> (exists j, (j < n)%nat /\ t j = 0%Z) ->
  side_average n t u = v.
Proof.
  intros n t u v Hu (j0 & Hj0 & T0). unfold side_average.
  assert (G : forall l s, (forall j, In j l -> t j = 0%Z -> u j = v) ->
     let r := fold_left (fun s j => if (t j =? 0)%Z then (fst s + u j, (snd s + 1)%nat) else s) l s in
     fst r = fst s + INR (snd r - snd s) * v /\ (snd s <= snd r)%nat /\ (forall j, In j l -> t j = 0%Z -> (snd s < snd r)%nat)).
  { clear. induction l as [|a l IH]; intros s H r.
    - unfold r. cbn. rewrite Nat.sub_diag. cbn. repeat split; [lra|lia|contradiction].
    - unfold r. cbn [fold_left]. assert (H' : forall j, In j l -> t j = 0%Z -> u j = v) by (intros; apply H; [now right|assumption]).
      destruct (Z.eqb_spec (t a) 0) as [E|E].
      + specialize (IH (fst s + u a, (snd s + 1)%nat) H'). cbv zeta in IH. cbn [fst snd] in IH. destruct IH as (A & B & _).
        split; [|split; [lia|intros; lia]]. rewrite A. match goal with |- context [snd (fold_left ?p ?q ?w)] => set (r' := snd (fold_left p q w)) in * end. clearbody r'. rewrite (H a (or_introl eq_refl) E).
        replace (r' - snd s)%nat with (S (r' - (snd s + 1)))%nat by lia. rewrite S_INR. lra.
      + specialize (IH s H'). cbv zeta in IH. destruct IH as (A & B & C). split; [exact A|]. split; [exact B|].
        intros j [->|I] T; [contradiction|]. now apply (C j). }
  specialize (G (seq 0 n) (0, 0%nat) (fun j I => Hu j ltac:(apply in_seq in I; lia))). cbv zeta in G. cbn [fst snd] in G.
  destruct G as (A & _ & C). specialize (C j0 ltac:(apply in_seq; lia) T0).
  set (r := fold_left _ _ _) in *. destruct (Nat.ltb_spec 0 (snd r)); [|lia]. rewrite A, Nat.sub_0_r.
  apply lt_INR in C. cbn in C. field. lra.
Qed.
Lemma north_plain : forall n t v bc up, (forall j, (j < n)%nat -> t j <> 30%Z) ->
  north_average n t v bc false false up = side_average n t v.
Proof.
  intros n t v bc up H. unfold north_average, side_average.
  assert (G : forall l s, (forall j, In j l -> t j <> 30%Z) ->
    fold_left (fun (s : R * nat) j => if (t j =? 0)%Z || (t j =? 30)%Z then (fst s + v j, (snd s + 1)%nat) else s) l s =
    fold_left (fun s j => if (t j =? 0)%Z then (fst s + v j, (snd s + 1)%nat) else s) l s).
  { clear. induction l as [|a l IH]; intros s H; [reflexivity|]. cbn [fold_left].
    assert (E : (t a =? 30)%Z = false) by (apply Z.eqb_neq, H; now left). rewrite E, orb_false_r. apply IH. intros; apply H; now right. }
  cbv zeta. rewrite G; [reflexivity|]. intros j I. apply H. apply in_seq in I. lia.
Qed.

(** Pure-shear boundary velocities (strain rate [e]) on the nodes of type 0 of the four
    sides, at least one on each side, no free surface. *)
Definition pure_shear_sides (Nx Nz : nat) (e : R) (d : dom) (s : sides) : Prop :=
  (forall j, (j < Nz)%nat -> tW s j = 0%Z -> uW s j = - xmin d * e) /\ (exists j, (j < Nz)%nat /\ tW s j = 0%Z) /\
  (forall j, (j < Nz)%nat -> tE s j = 0%Z -> uE s j = - xmax d * e) /\ (exists j, (j < Nz)%nat /\ tE s j = 0%Z) /\
  (forall j, (j < Nx)%nat -> tS s j = 0%Z -> vS s j = zmin d * e) /\ (exists j, (j < Nx)%nat /\ tS s j = 0%Z) /\
  (forall j, (j < Nx)%nat -> tN s j = 0%Z -> vN s j = zmax d * e) /\ (exists j, (j < Nx)%nat /\ tN s j = 0%Z) /\
  (forall j, (j < Nx)%nat -> tN s j <> 30%Z).

(** [n] sub-steps of the advection with the velocities of the solve act like one step
    of their total length. *)
Theorem C45_one_solve_step : forall n Nx Nz e d s dt, pure_shear_sides Nx Nz e d s ->
  let h := e * (INR n * dt) in
  deform n Nx Nz s dt d = Dom (xmin d * (1 - h)) (xmax d * (1 - h)) (zmin d * (1 + h)) (zmax d * (1 + h)) (perx d).
Proof.
  intros n0 Nx Nz e d s dt (W & W' & E & E' & S & S' & N & N' & AIR) h. unfold h. clear h.
  assert (G : forall n d1, deform n Nx Nz s dt d1 =
     Dom (xmin d1 - xmin d * e * (INR n * dt)) (xmax d1 - xmax d * e * (INR n * dt))
         (zmin d1 + zmin d * e * (INR n * dt)) (zmax d1 + zmax d * e * (INR n * dt)) (perx d1)).
  { induction n as [|k IH]; intros d1.
    - cbn [deform INR]. destruct d1 as [xa xb za zb pp]. cbn [xmin xmax zmin zmax perx]. f_equal; lra.
    - cbn [deform]. rewrite IH. unfold pure_shear_ale. cbn [xmin xmax zmin zmax perx].
      rewrite (average_const _ _ _ _ W W'), (average_const _ _ _ _ E E'), (average_const _ _ _ _ S S').
      rewrite north_plain by exact AIR. rewrite (average_const _ _ _ _ N N'). rewrite S_INR. f_equal; lra. }
  rewrite G. f_equal; lra.
Qed.
Print Assumptions C45_one_solve_step.

Definition width d := xmax d - xmin d.
Definition height d := zmax d - zmin d.
Definition area d := width d * height d.

(** Any number of solve steps, each with its own strain rate, step and number of
    sub-steps, boundary velocities set anew for the current domain. *)
Inductive history (Nx Nz : nat) : list R -> dom -> dom -> Prop :=
| h_none : forall d, history Nx Nz [] d d
| h_step : forall n e dt s d d' hs, pure_shear_sides Nx Nz e d s ->
    history Nx Nz hs (deform n Nx Nz s dt d) d' -> history Nx Nz (e * (INR n * dt) :: hs) d d'.

Theorem C45_many_steps : forall Nx Nz hs d d', history Nx Nz hs d d' ->
  width d' = width d * fold_right Rmult 1 (map (fun h => 1 - h) hs) /\
  height d' = height d * fold_right Rmult 1 (map (fun h => 1 + h) hs) /\
  area d' = area d * fold_right Rmult 1 (map (fun h => 1 - h ^ 2) hs).
Proof.
  intros Nx Nz hs d d' H. induction H as [|n e dt s d d' hs PS H IH].
  - cbn. unfold area. repeat split; ring.
  - rewrite (C45_one_solve_step n Nx Nz e d s dt PS) in IH. cbv zeta in IH. destruct IH as (A & B & C).
    cbn [map fold_right]. unfold area in *. rewrite C, A, B. unfold width, height. cbn [xmin xmax zmin zmax]. repeat split; ring.
Qed.
Print Assumptions C45_many_steps.

Lemma prod_repeat : forall (f : R -> R) h n, fold_right Rmult 1 (map f (repeat h n)) = f h ^ n.
Proof. intros f h n. induction n as [|n IH]; cbn [repeat map fold_right pow]; [reflexivity|now rewrite IH]. Qed.
Theorem C45_equal_steps : forall Nx Nz h n d d', history Nx Nz (repeat h n) d d' ->
  width d' = width d * (1 - h) ^ n /\ height d' = height d * (1 + h) ^ n /\ area d' = area d * (1 - h ^ 2) ^ n.
Proof.
  intros Nx Nz h n d d' H. destruct (C45_many_steps _ _ _ _ _ H) as (A & B & C). rewrite A, B, C, !prod_repeat. auto.
Qed.
Print Assumptions C45_equal_steps.

(** With a free surface whose top row is air everywhere, the top side stays. *)
Theorem C45_air_top_stays : forall Nx Nz s dt d up top, (forall j, (j < Nx)%nat -> tN s j = 30%Z) ->
  zmax (pure_shear_ale Nx Nz s true false up top dt d) = zmax d.
Proof.
  intros Nx Nz s dt d up top H. unfold pure_shear_ale. cbn [zmax]. unfold north_average.
  assert (G : forall l a, (forall j, In j l -> tN s j = 30%Z) -> fst (fold_left (fun (s0 : R * nat) j =>
      if (tN s j =? 0)%Z || (tN s j =? 30)%Z then ((if (tN s j =? 0)%Z then fst s0 + bN s j else fst s0), (snd s0 + 1)%nat) else s0) l a) = fst a).
  { induction l as [|j l IH]; intros a HI; [reflexivity|]. cbn [fold_left]. rewrite (HI j (or_introl eq_refl)). cbn [Z.eqb orb].
    change (30 =? 30)%Z with true. cbv iota. rewrite IH by (intros; apply HI; now right). reflexivity. }
  set (r := fold_left _ _ _). assert (E : fst r = 0) by (apply G; intros j I; apply H; apply in_seq in I; lia).
  destruct (0 <? snd r)%nat; rewrite E; unfold Rdiv; lra.
Qed.
Print Assumptions C45_air_top_stays.

(** The sides are moved before the markers, and the markers are checked against the
    new sides already at the first half step. [f] is the pure-shear flow as seen on
    the deformed mesh. *)
Theorem C45_side_markers_lost : forall Nx Nz e dt s d vel m,
  pure_shear_sides Nx Nz e d s -> perx d = false -> pph m <> (-1)%Z ->
  let h := e * dt in 0 < h < 1 ->
  follows vel (fun p => (- (e / (1 - h)) * fst p, e / (1 + h) * snd p)) ->
  xmax d * (1 - h) < px m * (1 - h / (2 * (1 - h))) ->
  pph (rk4 vel (deform 1 Nx Nz s dt d) dt m) = (-1)%Z.
Proof.
  intros Nx Nz e dt s d vel m PS P PH h Hh FO L.
  rewrite (C45_one_solve_step 1 Nx Nz e d s dt PS). cbn [INR]. rewrite Rmult_1_l. fold h.
  eapply C44_lost_at_first_stage; [exact FO|exact P|exact PH|].
  unfold insidep, inside, padd. cbn [fst snd xmin xmax zmin zmax].
  replace (px m + dt / 2 * (- (e / (1 - h)) * px m)) with (px m * (1 - h / (2 * (1 - h)))) by (unfold h; field; fold h; lra).
  lra.
Qed.
Print Assumptions C45_side_markers_lost.

(** Concrete case: strain 1/10 of the square [-1,1]^2, 3 x 3 vertices, velocities from
    the grid. The marker starts inside the old domain, the exact flow takes it inside the
    new one, and it is deactivated. *)
Definition ex_sides : sides :=
  Sides (fun j => if (j =? 0)%nat then 13%Z else 0%Z) (fun _ => 1) (fun j => if (j =? 0)%nat then 13%Z else 0%Z) (fun _ => -1)
        (fun j => if (j =? 0)%nat then 13%Z else 0%Z) (fun _ => -1) (fun _ => -1)
        (fun j => if (j =? 0)%nat then 13%Z else 0%Z) (fun _ => 1) (fun _ => 1).
Definition ex_dom : dom := Dom (-1) 1 (-1) 1 false.
Lemma ex_pure_shear : pure_shear_sides 3 3 1 ex_dom ex_sides.
Proof.
  unfold pure_shear_sides, ex_sides, ex_dom. cbn [tW uW tE uE tS vS tN vN xmin xmax zmin zmax].
  repeat split; try (intros; lra); try (exists 1%nat; split; [lia|reflexivity]).
  intros j _. destruct (j =? 0)%nat; discriminate.
Qed.
Definition ex_gx : vgrid := VGrid 3 4 (fun i => - (9 / 10) + IZR i * (9 / 10)) (fun i => - (165 / 100) + IZR i * (11 / 10))
  (fun k => 1 - IZR (k mod 3)) (fun _ => (-1)%Z).
Definition ex_gz : vgrid := VGrid 4 3 (fun i => - (135 / 100) + IZR i * (9 / 10)) (fun i => - (11 / 10) + IZR i * (11 / 10))
  (fun k => IZR (k / 4) - 1) (fun _ => (-1)%Z).
Definition ex_vel : part -> R * R := v2p (9 / 10) (11 / 10) false ex_gx ex_gz.

Lemma last_cell : forall x x0 d n, (2 <= n)%Z -> 0 < d -> x0 + IZR (n - 1) * d < x -> cell_of x x0 d n = (n - 2)%Z.
Proof.
  intros x x0 d n Hn Hd H. unfold cell_of. destruct (Zceil_spec ((x - x0) / d)) as (C1 & C2).
  set (k := Zceil ((x - x0) / d)) in *. clearbody k.
  assert (Q : IZR (n - 1) < (x - x0) / d) by (apply Rmult_lt_reg_r with d; [exact Hd|]; unfold Rdiv; rewrite Rmult_assoc, Rinv_l by lra; lra).
  assert (K : (n - 1 < k)%Z) by (apply lt_IZR; lra).
  destruct (Z.ltb_spec (k - 1) 0); [lia|]. destruct (Z.ltb_spec (n - 2) (k - 1)); lia.
Qed.

Theorem C45_side_markers_lost_refuted :
  let d' := deform 1 3 3 ex_sides (1 / 10) ex_dom in
  let m := Part (99 / 100) 0 2 0 0 in
  inside ex_dom (px m) (pz m) /\ inside d' (px m * (1 - 1 / 10)) (pz m * (1 + 1 / 10)) /\
  pph (rk4 ex_vel d' (1 / 10) m) = (-1)%Z.
Proof.
  rewrite (C45_one_solve_step 1 3 3 1 ex_dom ex_sides (1 / 10) ex_pure_shear). cbn [INR]. unfold ex_dom. cbn [xmin xmax zmin zmax perx]. cbv zeta.
  split; [unfold inside; cbn [px pz xmin xmax zmin zmax]; lra|].
  split; [unfold inside; cbn [px pz xmin xmax zmin zmax]; lra|].
  set (m := Part (99 / 100) 0 2 0 0). set (D := Dom _ _ _ _ _).
  eapply (C44_lost_at_first_stage ex_vel (fun p => ex_vel (Part (fst p) (snd p) 2 0 0))).
  - intros q Hq. unfold ex_vel, v2p. cbn [px pz pph fst snd]. apply Z.eqb_neq in Hq. now rewrite Hq.
  - reflexivity.
  - discriminate.
  - unfold m. cbn [px pz]. unfold ex_vel, v2p. cbn [px pz pph fst snd Z.eqb]. unfold insidep, inside, padd. cbn [fst].
    assert (V : v2p_vx (9 / 10) (11 / 10) false ex_gx (99 / 100) 0 = - (11 / 10)).
    { unfold v2p_vx. rewrite (last_cell (99 / 100)); [|cbn; lia|lra|unfold ex_gx; cbn; lra].
      change (vnx ex_gx - 2)%Z with 1%Z. change (vnz ex_gx) with 4%Z. change (vnx ex_gx) with 3%Z.
      set (i := cell_of 0 (vgz ex_gx 0) (11 / 10) 4). rewrite corners_fluid by discriminate.
      assert (VV : forall a, vval ex_gx (1 + a * 3)%Z = 0 /\ vval ex_gx (1 + a * 3 + 1)%Z = -1).
      { intros a. unfold ex_gx. cbn [vval]. rewrite Z.mod_add by lia. replace (1 + a * 3 + 1)%Z with (2 + a * 3)%Z by lia. rewrite Z.mod_add by lia.
        change (1 mod 3)%Z with 1%Z. change (2 mod 3)%Z with 2%Z. lra. }
      destruct (VV i) as [-> ->]. destruct (VV (i + 1)%Z) as [-> ->].
      change (vgx ex_gx 1) with (- (9 / 10) + 1 * (9 / 10)). rewrite (Rabs_pos_eq (99 / 100 - _)) by lra. field. }
    rewrite V. unfold D. cbn [xmin xmax zmin zmax]. lra.
Qed.
Print Assumptions C45_side_markers_lost_refuted.

Example C45_ex : deform 2 3 3 ex_sides (1 / 20) ex_dom = Dom (-1 * (1 - 1 * (INR 2 * (1 / 20)))) (1 * (1 - 1 * (INR 2 * (1 / 20)))) (-1 * (1 + 1 * (INR 2 * (1 / 20)))) (1 * (1 + 1 * (INR 2 * (1 / 20)))) false.
Proof. exact (C45_one_solve_step 2 3 3 1 ex_dom ex_sides (1 / 20) ex_pure_shear). Qed.
Example C45_history_ex : exists d', history 3 3 [1 * (INR 1 * (1 / 10))] ex_dom d'.
Proof. eexists. eapply h_step; [exact ex_pure_shear|apply h_none]. Qed.
