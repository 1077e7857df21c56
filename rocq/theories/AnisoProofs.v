(** * Specification and lemmas for C34, C48, C49 *)
From Coq Require Import Reals List Bool Lra Lia Psatz.
Import ListNotations.
From Verif Require Import AnisoModel.
Local Open Scope R_scope.

(** ** Specification: 2x2 matrices *)
Record M2 : Type := mk2 { m11 : R; m12 : R; m21 : R; m22 : R }.
Definition mul (a b : M2) : M2 := {|
  m11 := m11 a * m11 b + m12 a * m21 b; m12 := m11 a * m12 b + m12 a * m22 b;
  m21 := m21 a * m11 b + m22 a * m21 b; m22 := m21 a * m12 b + m22 a * m22 b |}.
Definition tr (a : M2) : M2 := {| m11 := m11 a; m12 := m21 a; m21 := m12 a; m22 := m22 a |}.
Definition scl (s : R) (a : M2) : M2 := {| m11 := s * m11 a; m12 := s * m12 a; m21 := s * m21 a; m22 := s * m22 a |}.
Definition add (a b : M2) : M2 := {|
  m11 := m11 a + m11 b; m12 := m12 a + m12 b; m21 := m21 a + m21 b; m22 := m22 a + m22 b |}.
Definition zero : M2 := mk2 0 0 0 0.
Definition one : M2 := mk2 1 0 0 1.
Definition trace (a : M2) : R := m11 a + m22 a.
Definition inner (a b : M2) : R := m11 a * m11 b + m12 a * m12 b + m21 a * m21 b + m22 a * m22 b.
Definition of_ten (t : ten) : M2 := mk2 (txx t) (txz t) (txz t) (tzz t).

(** Law of a layered material written in the frame (normal, along layer): the
    shear component is [fac] times weaker. *)
Definition layered_law (eta fac : R) (e : M2) : M2 :=
  mk2 (2 * eta * m11 e) (2 * (eta / fac) * m12 e) (2 * (eta / fac) * m21 e) (2 * eta * m22 e).
(** Frame attached to the director [n]: rows are the director and the layer. *)
Definition frame (n : R * R) : M2 := mk2 (fst n) (snd n) (- snd n) (fst n).
Definition layered_stress (eta fac : R) (n : R * R) (e : M2) : M2 :=
  mul (tr (frame n)) (mul (layered_law eta fac (mul (frame n) (mul e (tr (frame n))))) (frame n)).
Definition unit_dir (n : R * R) : Prop := fst n ^ 2 + snd n ^ 2 = 1.
Definition rot (a : R) : M2 := mk2 (cos a) (- sin a) (sin a) (cos a).

(** A node sees markers with weights and directors. *)
Definition weights (l : list (R * (R * R))) : R := fold_right (fun p s => fst p + s) 0 l.
Definition mixed_stress (eta fac : R) (l : list (R * (R * R))) (e : M2) : M2 :=
  scl (/ weights l) (fold_right (fun p s => add (scl (fst p) (layered_stress eta fac (snd p) e)) s) zero l).
Definition mixture (l : list (R * (R * R))) : Prop :=
  (forall p, In p l -> 0 <= fst p /\ unit_dir (snd p)) /\ 0 < weights l.
Definition node_d1 (l : list (R * (R * R))) : R :=
  waverage (map (fun p => (fst p, marker_d1 (fst (snd p)) (snd (snd p)))) l).
Definition node_d2 (l : list (R * (R * R))) : R :=
  waverage (map (fun p => (fst p, marker_d2 (fst (snd p)) (snd (snd p)))) l).

Lemma M2_eq : forall a b, m11 a = m11 b -> m12 a = m12 b -> m21 a = m21 b -> m22 a = m22 b -> a = b.
Proof. intros [a1 a2 a3 a4] [b1 b2 b3 b4]; cbn; congruence. Qed.

Lemma ten_eq : forall a b, txx a = txx b -> tzz a = tzz b -> txz a = txz b -> a = b.
Proof. intros [a1 a2 a3] [b1 b2 b3]; cbn; congruence. Qed.

(** Every stress of the model is determined by d1, d2: closed form of the spec. *)
Lemma layered_closed : forall eta fac nx nz e,
  unit_dir (nx, nz) ->
  layered_stress eta fac (nx, nz) (of_ten e) =
  of_ten (apply_op (picard_operator true eta fac (marker_d1 nx nz) (marker_d2 nx nz)) e).
Proof.
  intros eta fac nx nz [xx zz xz] U. unfold unit_dir in U; cbn [fst snd] in U.
  assert (Z2 : nz ^ 2 = 1 - nx ^ 2) by lra.
  apply M2_eq; unfold layered_stress, layered_law, frame, mul, tr, of_ten, apply_op, picard_operator, aniS,
    marker_d1, marker_d2; cbn [m11 m12 m21 m22 txx tzz txz fst snd k11 k12 k13 k21 k22 k23 k31 k32 k33];
  unfold Rdiv; set (g := / fac); clearbody g.
  all: ring_simplify [Z2].
  all: try lra.
Qed.

Lemma grid_stress_is_operator : forall eta fac d1 d2 e,
  grid_stress eta fac d1 d2 e = apply_op (picard_operator true eta fac d1 d2) e.
Proof.
  intros. apply ten_eq; unfold grid_stress, apply_op, picard_operator, aniS; cbn; unfold Rdiv; set (g := / fac);
  clearbody g; field.
Qed.

(** Sum of weighted contributions over the markers of a node. *)
Definition wsum (f : R * R -> R) (l : list (R * (R * R))) : R := fold_right (fun p s => fst p * f (snd p) + s) 0 l.

Lemma waverage_map : forall (f : R * R -> R) l,
  waverage (map (fun p => (fst p, f (snd p))) l) = wsum f l / weights l.
Proof.
  intros f l. unfold waverage. f_equal.
  - induction l as [|p l IH]; cbn; [reflexivity|]. now rewrite IH.
  - f_equal. induction l as [|p l IH]; cbn; [reflexivity|]. now rewrite IH.
Qed.

Lemma node_d1_eq : forall l, node_d1 l = wsum (fun n => marker_d1 (fst n) (snd n)) l / weights l.
Proof. intros. apply (waverage_map (fun n => marker_d1 (fst n) (snd n))). Qed.
Lemma node_d2_eq : forall l, node_d2 l = wsum (fun n => marker_d2 (fst n) (snd n)) l / weights l.
Proof. intros. apply (waverage_map (fun n => marker_d2 (fst n) (snd n))). Qed.

Lemma mixed_closed : forall eta fac l e, mixture l ->
  mixed_stress eta fac l (of_ten e) =
  of_ten (apply_op (picard_operator true eta fac (node_d1 l) (node_d2 l)) e).
Proof.
  intros eta fac l e (H & W).
  assert (S : fold_right (fun p s => add (scl (fst p) (layered_stress eta fac (snd p) (of_ten e))) s) zero l =
    let a := 1 - 1 / fac in
    let s1 := wsum (fun n => marker_d1 (fst n) (snd n)) l in let s2 := wsum (fun n => marker_d2 (fst n) (snd n)) l in
    let w := weights l in
    let sh := w * (2 * eta * txz e) + s1 * (4 * a * eta * txz e) - w * (2 * a * eta * txz e)
              + s2 * (2 * a * eta * (tzz e - txx e)) in
    mk2 (w * (2 * eta * txx e) + s1 * (2 * a * eta * (tzz e - txx e)) - s2 * (4 * a * eta * txz e)) sh sh
        (w * (2 * eta * tzz e) - s1 * (2 * a * eta * (tzz e - txx e)) + s2 * (4 * a * eta * txz e))).
  { clear W. induction l as [|[w [nx nz]] l IH].
    - apply M2_eq; cbn; ring.
    - cbn [fold_right]. rewrite IH by (intros p Hp; apply H; now right). clear IH.
      destruct (H (w, (nx, nz))) as (_ & U); [now left|]. cbn [fst snd] in U |- *.
      rewrite layered_closed by exact U.
      apply M2_eq; unfold add, scl, of_ten, apply_op, picard_operator, aniS; cbn [wsum weights fold_right fst snd m11 m12 m21 m22 txx tzz txz
        k11 k12 k13 k21 k22 k23 k31 k32 k33]; fold (wsum (fun n => marker_d1 (fst n) (snd n)) l);
        fold (wsum (fun n => marker_d2 (fst n) (snd n)) l); fold (weights l);
        unfold Rdiv; set (g := / fac); clearbody g; field. }
  unfold mixed_stress. rewrite S, node_d1_eq, node_d2_eq.
  set (w := weights l) in *. set (s1 := wsum _ l). set (s2 := wsum (fun n => marker_d2 _ _) l).
  apply M2_eq; unfold scl, of_ten, apply_op, picard_operator, aniS; cbn [m11 m12 m21 m22 txx tzz txz
    k11 k12 k13 k21 k22 k23 k31 k32 k33]; unfold Rdiv; set (g := / fac); clearbody g; field; lra.
Qed.

Lemma layered_dissipation : forall eta fac nx nz e,
  inner (layered_stress eta fac (nx, nz) (of_ten e)) (of_ten e) =
  let p := mul (frame (nx, nz)) (mul (of_ten e) (tr (frame (nx, nz)))) in
  2 * eta * (m11 p ^ 2 + m22 p ^ 2) + 4 * (eta / fac) * m12 p ^ 2.
Proof.
  intros. unfold inner, layered_stress, layered_law, frame, mul, tr, of_ten. cbn [m11 m12 m21 m22 fst snd].
  unfold Rdiv; set (g := / fac); clearbody g. ring.
Qed.

(** The frame change loses nothing: norms agree. *)
Lemma frame_norm : forall nx nz e, unit_dir (nx, nz) ->
  let p := mul (frame (nx, nz)) (mul (of_ten e) (tr (frame (nx, nz)))) in
  m11 p ^ 2 + m22 p ^ 2 + 2 * m12 p ^ 2 = txx e ^ 2 + tzz e ^ 2 + 2 * txz e ^ 2.
Proof.
  intros nx nz e U p. unfold unit_dir in U. cbn [fst snd] in U. assert (Z2 : nz ^ 2 = 1 - nx ^ 2) by lra.
  subst p. unfold mul, frame, tr, of_ten. cbn [m11 m12 m21 m22 fst snd]. ring [Z2].
Qed.

Lemma layered_coercive : forall eta fac n e, unit_dir n -> 0 <= eta -> 0 < fac ->
  2 * Rmin eta (eta / fac) * (txx e ^ 2 + tzz e ^ 2 + 2 * txz e ^ 2) <=
  inner (layered_stress eta fac n (of_ten e)) (of_ten e).
Proof.
  intros eta fac [nx nz] e U E F. rewrite layered_dissipation, <- (frame_norm nx nz e U). cbv zeta.
  set (p := mul _ _). set (g := eta / fac).
  pose proof (Rmin_l eta g). pose proof (Rmin_r eta g). set (q := Rmin eta g) in *.
  pose proof (pow2_ge_0 (m11 p)). pose proof (pow2_ge_0 (m22 p)). pose proof (pow2_ge_0 (m12 p)).
  nra.
Qed.

Lemma inner_add_l : forall a b c, inner (add a b) c = inner a c + inner b c.
Proof. intros. unfold inner, add. cbn. ring. Qed.
Lemma inner_scl_l : forall s a c, inner (scl s a) c = s * inner a c.
Proof. intros. unfold inner, scl. cbn. ring. Qed.

Lemma mixed_coercive : forall eta fac l e, mixture l -> 0 <= eta -> 0 < fac ->
  2 * Rmin eta (eta / fac) * (txx e ^ 2 + tzz e ^ 2 + 2 * txz e ^ 2) <=
  inner (mixed_stress eta fac l (of_ten e)) (of_ten e).
Proof.
  intros eta fac l e (H & W) E F. unfold mixed_stress. rewrite inner_scl_l.
  set (q := 2 * Rmin eta (eta / fac) * (txx e ^ 2 + tzz e ^ 2 + 2 * txz e ^ 2)).
  assert (S : weights l * q <= inner (fold_right (fun p s =>
     add (scl (fst p) (layered_stress eta fac (snd p) (of_ten e))) s) zero l) (of_ten e)).
  { clear W. induction l as [|[w n] l IH].
    - unfold inner. cbn. lra.
    - cbn [fold_right]. rewrite inner_add_l, inner_scl_l.
      assert (IH' := IH (fun p Hp => H p (or_intror Hp))).
      destruct (H (w, n) (or_introl eq_refl)) as (Wp & U). cbn [fst snd] in *.
      assert (C := layered_coercive eta fac n e U E F). fold q in C.
      unfold weights in *. cbn [fold_right fst]. nra. }
  set (s := inner (fold_right _ _ _) _) in *.
  apply Rmult_le_reg_l with (weights l); [exact W|].
  replace (weights l * (/ weights l * s)) with s by (field; lra). exact S.
Qed.

(** Bounds on the averages. *)
Lemma quad_form : forall l s t, (forall p, In p l -> 0 <= fst p /\ unit_dir (snd p)) ->
  0 <= s ^ 2 * (2 * wsum (fun n => marker_d1 (fst n) (snd n)) l)
       - 2 * s * t * (2 * wsum (fun n => marker_d2 (fst n) (snd n)) l)
       + t ^ 2 * (weights l - 2 * wsum (fun n => marker_d1 (fst n) (snd n)) l).
Proof.
  intros l s t. induction l as [|[w [nx nz]] l IH]; intros H.
  - cbn. lra.
  - assert (IH' := IH (fun p Hp => H p (or_intror Hp))).
    destruct (H _ (or_introl eq_refl)) as (Wp & U). unfold unit_dir in U. cbn [fst snd] in *.
    set (a := wsum (fun n => marker_d1 (fst n) (snd n)) l) in *.
    set (b := wsum (fun n => marker_d2 (fst n) (snd n)) l) in *.
    assert (Ea : wsum (fun n => marker_d1 (fst n) (snd n)) ((w, (nx, nz)) :: l) = w * marker_d1 nx nz + a) by reflexivity.
    assert (Eb : wsum (fun n => marker_d2 (fst n) (snd n)) ((w, (nx, nz)) :: l) = w * marker_d2 nx nz + b) by reflexivity.
    assert (Ew : weights ((w, (nx, nz)) :: l) = w + weights l) by reflexivity.
    rewrite Ea, Eb, Ew. set (W := weights l) in *.
    assert (Q : 0 <= w * (s * (2 * nx * nz) - t * (nz ^ 2 - nx ^ 2)) ^ 2)
      by (apply Rmult_le_pos; [exact Wp|apply pow2_ge_0]).
    assert (Z2 : nz ^ 2 = 1 - nx ^ 2) by lra.
    unfold marker_d1, marker_d2.
    match goal with |- 0 <= ?x => replace x with
      (w * (s * (2 * nx * nz) - t * (nz ^ 2 - nx ^ 2)) ^ 2 + (s ^ 2 * (2 * a) - 2 * s * t * (2 * b) + t ^ 2 * (W - 2 * a)))
      by ring [Z2] end. lra.
Qed.

Lemma cauchy : forall A B C : R, (forall s t : R, 0 <= s ^ 2 * A - 2 * s * t * C + t ^ 2 * B) -> C ^ 2 <= A * B.
Proof.
  intros A B C H.
  assert (A0 := H 1 0). ring_simplify in A0.
  destruct (Rle_lt_or_eq_dec 0 A ltac:(lra)) as [Ap|Az].
  - assert (Q := H C A). nra.
  - subst A. destruct (Req_dec C 0) as [->|Cn]; [lra|].
    assert (Q := H ((B + 1) / (2 * C)) 1).
    replace (2 * ((B + 1) / (2 * C)) * 1 * C) with (B + 1) in Q by (field; exact Cn). lra.
Qed.

Lemma node_bounds : forall l, mixture l ->
  0 <= node_d1 l /\ 2 * node_d1 l <= 1 /\ 4 * node_d2 l ^ 2 <= 2 * node_d1 l * (1 - 2 * node_d1 l).
Proof.
  intros l (H & W). rewrite node_d1_eq, node_d2_eq.
  set (a := wsum (fun n => marker_d1 (fst n) (snd n)) l). set (b := wsum (fun n => marker_d2 _ _) l).
  set (w := weights l) in *.
  assert (Q := fun s t => quad_form l s t H). fold a b w in Q.
  assert (A0 := Q 1 0). assert (B0 := Q 0 1). ring_simplify in A0. ring_simplify in B0.
  assert (C := cauchy _ _ _ Q).
  assert (wi : 0 < / w) by (now apply Rinv_0_lt_compat).
  assert (ww : w * / w = 1) by (field; lra).
  unfold Rdiv. set (i := / w) in *. clearbody i.
  repeat split.
  - nra.
  - assert (2 * a <= w) by lra. nra.
  - replace (4 * (b * i) ^ 2) with ((2 * b) ^ 2 * (i * i)) by ring.
    replace (2 * (a * i) * (1 - 2 * (a * i))) with ((2 * a * (w - 2 * a)) * (i * i)
       + 2 * a * i * (1 - w * i)) by ring.
    rewrite ww. replace (2 * a * i * (1 - 1)) with 0 by ring. rewrite Rplus_0_r.
    apply Rmult_le_compat_r; [nra|lra].
Qed.

(** Elastic part: the effective strain rate shifts the stress by the old one. *)
Definition unit_op (fac d1 d2 : R) (e : ten) : ten := apply_op (picard_operator true 1 fac d1 d2) e.
Definition plus_ten (a b : ten) : ten := Ten (txx a + txx b) (tzz a + tzz b) (txz a + txz b).
Definition scale_ten (s : R) (a : ten) : ten := Ten (s * txx a) (s * tzz a) (s * txz a).

Lemma effective_shift : forall fac d1 d2 e t0 eta_e,
  fac <> 0 -> eta_e <> 0 ->
  (let a := 1 - 1 / fac in (1 - a + 2 * a * d1) * (1 - 2 * a * d1) - 4 * a ^ 2 * d2 ^ 2 <> 0) ->
  unit_op fac d1 d2 (effective_strain_rate e t0 d1 d2 (1 - 1 / fac) eta_e true) =
  plus_ten (unit_op fac d1 d2 e) (scale_ten (/ eta_e) t0).
Proof.
  intros fac d1 d2 e t0 eta_e F Ee D. cbv zeta in D.
  unfold unit_op, effective_strain_rate. set (a := 1 - 1 / fac) in *.
  assert (Da : aniS true fac = a) by reflexivity.
  unfold apply_op, picard_operator, plus_ten, scale_ten. rewrite Da. clearbody a. clear Da F.
  apply ten_eq; cbn [txx tzz txz k11 k12 k13 k21 k22 k23 k31 k32 k33].
  all: field; split; [exact Ee|].
  all: intro Z; apply D; apply Rmult_eq_reg_l with 4; [rewrite Rmult_0_r, <- Z; ring|lra].
Qed.

(** ** Director *)
Definition dot (a b : R * R) : R := fst a * fst b + snd a * snd b.
Definition layer_of (n : R * R) : R * R := (- snd n, fst n).
(** velocity gradient L = [dudx dudz; dvdx dvdz] applied to a vector *)
Definition grad_apply (dudx dudz dvdx dvdz : R) (t : R * R) : R * R :=
  (dudx * fst t + dudz * snd t, dvdx * fst t + dvdz * snd t).
(** Angular velocity of a material line along the layer: the part of its rate of
    change that points along the director, seen as a rotation of the pair (n,t). *)
Definition layer_spin (dudx dudz dvdx dvdz : R) (n : R * R) : R :=
  - dot n (grad_apply dudx dudz dvdx dvdz (layer_of n)).
Definition normalise (v : R * R) : R * R := let m := sqrt (dot v v) in (fst v / m, snd v / m).

Lemma director_update_spec : forall dt a b c d n, unit_dir n ->
  director_update dt a b c d n =
  normalise (fst n + dt * layer_spin a b c d n * fst (layer_of n),
             snd n + dt * layer_spin a b c d n * snd (layer_of n)).
Proof.
  intros dt a b c d [nx nz] U. unfold director_update, normalise, layer_spin, grad_apply, layer_of, dot.
  cbn [fst snd].
  assert (E1 : nx + dt * (- (a - d) * nx * nz - c * nz * nz + b * nx * nx) * nz =
    nx + dt * - (nx * (a * - nz + b * nx) + nz * (c * - nz + d * nx)) * - nz) by ring.
  assert (E2 : nz + dt * ((a - d) * nx * nz + c * nz * nz - b * nx * nx) * nx =
    nz + dt * - (nx * (a * - nz + b * nx) + nz * (c * - nz + d * nx)) * nx) by ring.
  rewrite E1, E2. set (p := _ + _ * - nz). set (q := _ + _ * nx).
  replace (p ^ 2 + q ^ 2) with (p * p + q * q) by ring. reflexivity.
Qed.

Lemma normalise_unit : forall v, 0 < dot v v -> unit_dir (normalise v).
Proof.
  intros [x z] H. unfold unit_dir, normalise, dot in *. cbn [fst snd] in *.
  assert (S := sqrt_sqrt (x * x + z * z) ltac:(lra)). assert (P := sqrt_lt_R0 _ H).
  set (m := sqrt _) in *.
  replace ((x / m) ^ 2 + (z / m) ^ 2) with ((x * x + z * z) / (m * m)) by (field; lra).
  rewrite S. field. lra.
Qed.

Lemma spin_norm : forall s n, unit_dir n ->
  dot (fst n + s * fst (layer_of n), snd n + s * snd (layer_of n))
      (fst n + s * fst (layer_of n), snd n + s * snd (layer_of n)) = 1 + s ^ 2.
Proof.
  intros s [nx nz] U. unfold unit_dir in U. unfold dot, layer_of. cbn [fst snd] in *.
  replace 1 with (nx ^ 2 + nz ^ 2) at 1. replace (s ^ 2) with (s ^ 2 * (nx ^ 2 + nz ^ 2)) by (rewrite U; ring). ring.
Qed.

Lemma normalise_rotates : forall s a,
  normalise (cos a + s * - sin a, sin a + s * cos a) = (cos (a + atan s), sin (a + atan s)).
Proof.
  intros s a.
  assert (U : unit_dir (cos a, sin a)).
  { unfold unit_dir. cbn [fst snd]. pose proof (sin2_cos2 a) as P. unfold Rsqr in P. nra. }
  assert (Nn := spin_norm s _ U). unfold layer_of in Nn. cbn [fst snd] in Nn.
  unfold normalise. rewrite Nn. cbn [fst snd].
  rewrite cos_plus, sin_plus, cos_atan, sin_atan.
  unfold Rsqr. replace (s ^ 2) with (s * s) by ring.
  assert (P : 0 < sqrt (1 + s * s)) by (apply sqrt_lt_R0; nra).
  f_equal; field; lra.
Qed.

(** ** Local rheology *)
Lemma local_Eii_invariant : forall angle e, local_Eii angle e = sqrt (I2 e).
Proof.
  intros angle [xx zz xz]. unfold local_Eii. f_equal.
  unfold I2, rotated_strain, layer_lxlz, layer_lx2. cbn [txx tzz txz].
  set (t := angle - PI / 2). pose proof (sin2_cos2 t) as P. unfold Rsqr in P.
  set (c := cos t) in *. set (s := sin t) in *. assert (Z2 : s ^ 2 = 1 - c ^ 2) by (cbn; lra).
  field_simplify [Z2]. field_simplify. ring.
Qed.

Lemma local_stress_layers : forall angle fac eta e,
  of_ten (local_stress angle fac eta e) = layered_stress eta fac (cos angle, sin angle) (of_ten e).
Proof.
  intros angle fac eta [xx zz xz].
  assert (C : cos (angle - PI / 2) = sin angle).
  { rewrite cos_minus, cos_PI2, sin_PI2. ring. }
  assert (S : sin (angle - PI / 2) = - cos angle).
  { rewrite sin_minus, cos_PI2, sin_PI2. ring. }
  unfold local_stress, rotated_strain, layer_lxlz, layer_lx2. rewrite C, S.
  pose proof (sin2_cos2 angle) as P. unfold Rsqr in P.
  set (c := cos angle) in *. set (s := sin angle) in *. assert (Z2 : s ^ 2 = 1 - c ^ 2) by (cbn; lra).
  apply M2_eq; unfold of_ten, layered_stress, layered_law, mul, frame, tr; cbn [m11 m12 m21 m22 txx tzz txz fst snd];
  unfold Rdiv; set (g := / fac); clearbody g; ring [Z2].
Qed.

Lemma angle_of_director : forall nx nz, unit_dir (nx, nz) ->
  cos (marker_angle nx) = nx /\ sin (marker_angle nx) = Rabs nz.
Proof.
  intros nx nz U. unfold unit_dir in U. cbn [fst snd] in U. unfold marker_angle.
  assert (B : -1 <= nx <= 1) by (split; nra).
  split; [now apply cos_acos|]. rewrite sin_acos by exact B.
  replace (1 - nx²) with (nz²) by (unfold Rsqr; nra). apply sqrt_Rsqr_abs.
Qed.
