(** * C81: accumulated strain; C82: deformation gradient; C83: finite-strain aspect ratio *)
From Coq Require Import ZArith Reals List Bool Lra Lia Psatz.
Import ListNotations.
From Verif Require Import P2GModel P2GProofs AdvModel AdvProofs ItpModel ItpProofs ItpProps FStrainModel SurfModel.
Local Open Scope R_scope.

(** ** C81 *)
Lemma dropped_add f g tag c a b : dropped (fun k => f k + g k) tag c a b = dropped f tag c a b + dropped g tag c a b.
Proof.
  unfold dropped. cbv zeta. set (s := when0 _ _ + when0 _ _ + when0 _ _ + when0 _ _). 
  match goal with |- normalise ?p ?w = normalise ?q _ + normalise ?r _ => set (P := p); set (Q := q); set (R1 := r); set (W := w) end.
  assert (E : P = Q + R1) by (unfold P, Q, R1, s, when0; destruct (rockb (tag (iSW c))), (rockb (tag (iSE c))), (rockb (tag (iNW c))), (rockb (tag (iNE c))); ring).
  unfold normalise. rewrite E. destruct (Rltb eps13 W); unfold Rdiv; ring.
Qed.
Lemma dropped_ext f g tag c a b : (forall k, f k = g k) -> dropped f tag c a b = dropped g tag c a b.
Proof. intros H. unfold dropped. rewrite !H. reflexivity. Qed.
Lemma inc_add m f g tag ph x z : strain_inc m (fun k => f k + g k) tag ph x z = strain_inc m f tag ph x z + strain_inc m g tag ph x z.
Proof. unfold strain_inc. destruct (ph =? -1)%Z; [ring|]. cbv zeta. apply dropped_add. Qed.
Lemma inc_ext m f g tag ph x z : (forall k, f k = g k) -> strain_inc m f tag ph x z = strain_inc m g tag ph x z.
Proof. intros H. unfold strain_inc. destruct (ph =? -1)%Z; [reflexivity|]. cbv zeta. apply dropped_ext. exact H. Qed.

(** The total grows by the sum of the mechanisms, constant-viscosity creep included
    (which has no memory of its own), wherever the marker is. *)
Theorem C81_total_is_sum : forall m dt r tag ph x z s,
  let s' := accumulate m dt r tag ph x z s in
  s_tot s' - s_tot s =
  (s_el s' - s_el s) + (s_pl s' - s_pl s) + (s_pwl s' - s_pwl s) + (s_exp s' - s_exp s) + (s_lin s' - s_lin s) + (s_gbs s' - s_gbs s)
  + strain_inc m (fun c => dt * r_cst r c) tag ph x z.
Proof.
  intros m dt r tag ph x z s s'. unfold s', accumulate. cbn [s_tot s_el s_pl s_pwl s_exp s_lin s_gbs].
  rewrite (inc_ext m (inc_total dt r) (fun k => (((((dt * r_el r k + dt * r_pl r k) + dt * r_pwl r k) + dt * r_exp r k) + dt * r_lin r k) + dt * r_gbs r k) + dt * r_cst r k))
    by (intros k; unfold inc_total; ring).
  rewrite !inc_add. ring.
Qed.
Print Assumptions C81_total_is_sum.

(** Position along one axis for markers between the first and the last centre. *)
Lemma hull : forall n p0 d x, (2 <= n)%Z -> 0 < d -> p0 <= x <= p0 + IZR (n - 1) * d ->
  let j0 := below (x - p0) d in let j1 := if (j0 <? 0)%Z then 0%Z else j0 in let j := if (n - 2 <? j1)%Z then (n - 2)%Z else j1 in
  (0 <= j <= n - 2)%Z /\ 0 <= (x - (p0 + IZR j * d)) / d <= 1.
Proof.
  intros n p0 d x Hn Hd Hx. cbv zeta. unfold below. destruct (Zceil_spec ((x - p0) / d)) as (C1 & C2).
  set (q := (x - p0) / d) in *.
  assert (Q : x = p0 + q * d) by (unfold q; field; lra).
  assert (Q0 : 0 <= q) by (unfold q; apply Rmult_le_pos; [lra|left; apply Rinv_0_lt_compat; exact Hd]).
  assert (Q1 : q <= IZR (n - 1)) by (apply Rmult_le_reg_r with d; [exact Hd|lra]).
  assert (T : forall t, (x - (p0 + IZR t * d)) / d = q - IZR t) by (intros t; rewrite Q; field; lra).
  assert (U : (Zceil q <= n - 1)%Z). { apply Z.lt_succ_r. apply lt_IZR. rewrite succ_IZR. lra. }
  destruct (Z.ltb_spec (Zceil q - 1) 0).
  - destruct (Z.ltb_spec (n - 2) 0); [lia|]. split; [lia|]. rewrite T.
    assert (IZR (Zceil q) <= 0) by (apply IZR_le; lia). lra.
  - destruct (Z.ltb_spec (n - 2) (Zceil q - 1)); [lia|]. split; [lia|]. rewrite T, minus_IZR. lra.
Qed.

(** Markers not in the outermost half cells: the increment lies between the smallest and
    largest increment of the rock cells around (or zero), so strain never decreases. *)
Theorem C81_strain_grows : forall m f tag ph x z hi, (3 <= NX m)%Z -> (3 <= NZ m)%Z -> 0 < DX m -> 0 < DZ m ->
  xc m 0 <= x <= xc m (NX m - 2) -> zc m 0 <= z <= zc m (NZ m - 2) ->
  (forall k, rock (tag k) -> 0 <= f k <= hi) -> 0 <= hi ->
  0 <= strain_inc m f tag ph x z <= hi.
Proof.
  intros m f tag ph x z hi NXp NZp DXp DZp Hx Hz HF Hh. unfold strain_inc. destruct (ph =? -1)%Z; [lra|]. cbv zeta.
  pose proof (hull (NX m - 1) (xc m 0) (DX m) x ltac:(lia) DXp) as HX.
  replace (NX m - 1 - 1)%Z with (NX m - 2)%Z in HX by ring. rewrite <- (xc_affine m (NX m - 2)) in HX.
  specialize (HX Hx). cbv zeta in HX.
  pose proof (hull (NZ m - 1) (zc m 0) (DZ m) z ltac:(lia) DZp) as HZ.
  replace (NZ m - 1 - 1)%Z with (NZ m - 2)%Z in HZ by ring. rewrite <- (zc_affine m (NZ m - 2)) in HZ.
  specialize (HZ Hz). cbv zeta in HZ.
  set (j := if (NX m - 1 - 2 <? _)%Z then _ else _) in *. set (i := if (NZ m - 1 - 2 <? _)%Z then _ else _) in *.
  rewrite <- (xc_affine m j) in HX. rewrite <- (zc_affine m i) in HZ.
  set (a := (x - xc m j) / DX m) in *. set (b := (z - zc m i) / DZ m) in *. destruct HX as [_ HA]. destruct HZ as [_ HB].
  unfold dropped. cbv zeta. set (c := square _ _ _).
  assert (G : forall k w, 0 < w -> rockb (tag k) = true -> bnd 0 hi (f k)).
  { intros k w _ Hk. unfold bnd. apply HF. destruct (rockb_spec (tag k)); [assumption|discriminate]. }
  destruct (dropped_weight 0 hi ((1 - a) * (1 - b)) (a * (1 - b)) ((1 - a) * b) (a * b) (f (iSW c)) (f (iSE c)) (f (iNW c)) (f (iNE c))
    (rockb (tag (iSW c))) (rockb (tag (iSE c))) (rockb (tag (iNW c))) (rockb (tag (iNE c)))) as [W0 W1]; try nra; try (intros; eapply G; eassumption).
  match goal with |- 0 <= normalise ?V ?W <= hi => destruct (normalise_bounds 0 hi V W W0 W1) as [N1 N2]; destruct (Rle_lt_dec W eps13) as [L|L];
    [rewrite (N2 L); assert (E13 := eps13_range); clear N1 N2 | apply (N1 L)] end.
  nra.
Qed.
Print Assumptions C81_strain_grows.
Example C81_strain_grows_ex :
  let m := Mesh 3 3 0 0 1 1 in
  (3 <= NX m)%Z /\ (3 <= NZ m)%Z /\ xc m 0 <= 1 <= xc m (NX m - 2) /\ zc m 0 <= 1 <= zc m (NZ m - 2).
Proof. cbn. unfold xc, zc. cbn. repeat split; lra || lia. Qed.

(** A uniform strain rate gives every active marker, also near the sides, exactly its
    product with the time step (no air). *)
Theorem C81_uniform : forall m e tag ph x z, ph <> (-1)%Z -> (forall k, rock (tag k)) ->
  strain_inc m (fun _ => e) tag ph x z = e.
Proof.
  intros m e tag ph x z Hp HT. unfold strain_inc. destruct (Z.eqb_spec ph (-1)); [contradiction|]. cbv zeta.
  rewrite dropped_no_air by exact HT. unfold replaced, pick. repeat destruct (rockb _); ring.
Qed.
Print Assumptions C81_uniform.

(** Refuted: strain never decreases. In the half cell next to a side the increments are
    extrapolated: with strain rate 0 in the first column and 1 elsewhere a marker at
    the side loses half of what its neighbours gain, although no rate is negative. *)
Theorem C81_side_refuted : exists m r tag x z, inside m x z /\ (forall k, rock (tag k)) /\
  (forall k, 0 <= r_pl r k /\ 0 <= r_pwl r k /\ 0 <= r_exp r k /\ 0 <= r_lin r k /\ 0 <= r_gbs r k /\ 0 <= r_el r k /\ 0 <= r_cst r k) /\
  s_tot (accumulate m 1 r tag 0 x z (Strains 0 0 0 0 0 0 0)) = - (1 / 2).
Proof.
  set (m := Mesh 3 3 0 0 1 1).
  set (r := Rates (fun k => if (k mod 2 =? 0)%Z then 0 else 1) (fun _ => 0) (fun _ => 0) (fun _ => 0) (fun _ => 0) (fun _ => 0) (fun _ => 0)).
  exists m, r, (fun _ => (-1)%Z), 0, 1.
  split; [unfold inside, xg, zg, m; cbn; lra|]. split; [intros k; split; discriminate|].
  split; [intros k; cbn [r_pl r_pwl r_exp r_lin r_gbs r_el r_cst r]; destruct (_ =? _)%Z; lra|].
  unfold accumulate. cbn [s_tot]. unfold strain_inc. cbn [Z.eqb]. cbv zeta. cbn [NX NZ m DX DZ].
  assert (J : below (0 - xc m 0) 1 = (-1)%Z). { unfold below. rewrite (Zceil_eq _ 0); [reflexivity|]. unfold xc, m; cbn. lra. }
  assert (I : below (1 - zc m 0) 1 = 0%Z). { unfold below. rewrite (Zceil_eq _ 1); [reflexivity|]. unfold zc, m; cbn. lra. }
  rewrite J, I. cbn [Z.ltb Z.compare Z.sub Z.add Z.opp Pos.add Pos.sub Z.pos_sub Pos.compare Pos.compare_cont].
  rewrite dropped_no_air by (intros k; split; discriminate). unfold replaced, pick, square. cbn [iSW iSE iNW iNE rockb negb andb Z.eqb].
  unfold inc_total. cbn [r_pl r_pwl r_exp r_lin r_gbs r_el r_cst r]. unfold xc, zc, m. cbn -[Rdiv]. lra.
Qed.
Print Assumptions C81_side_refuted.

(** Peak values never decrease and are at least the current value. *)
Theorem C81_peaks : forall now best, best <= max_update now best /\ now <= max_update now best /\
  (max_update now best = now \/ max_update now best = best).
Proof. intros now best. unfold max_update. destruct (Rltb_spec best now); repeat split; try lra; tauto. Qed.
Print Assumptions C81_peaks.

(** ** C82 *)
(** Specification: a tensor acts on vectors. *)
Definition act (t : tens) (v : R * R) : R * R := (xx t * fst v + xz t * snd v, zx t * fst v + zz t * snd v).
Definition vadd (a b : R * R) : R * R := (fst a + fst b, snd a + snd b).
Definition vscale (s : R) (a : R * R) : R * R := (s * fst a, s * snd a).
Definition det (t : tens) : R := xx t * zz t - xz t * zx t.
Definition identity : tens := Tens 1 0 0 1.

(** The vector into which a material line has been deformed changes by dt times the
    velocity gradient applied to it. *)
Theorem C82_material_line : forall dt l f v,
  act (stretch dt l f) v = vadd (act f v) (vscale dt (act l (act f v))).
Proof. intros. unfold act, stretch, vadd, vscale. cbn [xx xz zx zz fst snd]. f_equal; ring. Qed.
Print Assumptions C82_material_line.

(** A homogeneous flow, sampled at all velocity nodes, ghosts included: every active
    marker anywhere in a box without air is deformed by exactly its velocity gradient. *)
Lemma div_at j i n : (0 <= j < n)%Z -> ((j + i * n) mod n = j)%Z /\ ((j + i * n) / n = i)%Z.
Proof. intros H. rewrite Z.mod_add, Z.div_add by lia. rewrite Z.mod_small, Z.div_small by lia. split; lia. Qed.
Theorem C82_homogeneous : forall m per u v tagp tagg ph x z dt f (a b c d u0 v0 : R),
  mesh_ok m -> inside m x z -> ph <> (-1)%Z -> (forall k, rock (tagp k)) -> (forall k, rock (tagg k)) ->
  (forall j i, (0 <= j < NX m)%Z -> (0 <= i <= NZ m)%Z -> u (j + i * NX m)%Z = u0 + a * xg m j + b * zvx m i) ->
  (forall j i, (0 <= j <= NX m)%Z -> (0 <= i < NZ m)%Z -> v (j + i * (NX m + 1))%Z = v0 + c * xvz m j + d * zg m i) ->
  deform m u v per tagp tagg ph x z dt f = Some (stretch dt (Tens a b c d) f).
Proof.
  intros m per u v tagp tagg ph x z dt f a b c d u0 v0 OK Hin Hp RP RG HU HV.
  pose proof OK as (NXp & NZp & DXp & DZp).
  assert (Cen : forall g e, (forall j i, (0 <= j < NX m - 1)%Z -> (0 <= i < NZ m - 1)%Z -> g (j + i * (NX m - 1))%Z = e) -> from_centres per m g tagp ph x z = Val e).
  { intros g e Hg. destruct (C72_centres_bounded m per g tagp ph x z e e OK Hin Hp) as [w [-> Hw]].
    - intros j i [Hj _] [Hi _] _. rewrite Hg by assumption. lra.
    - intros j Hj. destruct (centre_facts m OK per x z Hin) as (cW & cE & rS & rN & _ & _ & _ & _ & _ & _ & NN & _).
      exists rN. split; [exact NN | apply RP].
    - f_equal. lra. }
  assert (Ver : forall g e, (forall j i, (0 <= j < NX m)%Z -> (0 <= i < NZ m)%Z -> g (j + i * NX m)%Z = e) -> from_vertices m g tagg ph x z = Val e).
  { intros g e Hg. rewrite (C72_vertices_linear m g tagg ph x z e 0 0 OK Hin Hp RG).
    - f_equal. ring.
    - intros j i Hj Hi. rewrite Hg by assumption. ring. }
  unfold deform.
  rewrite (Cen _ a), (Cen _ d), (Ver _ c), (Ver _ b); [reflexivity|..]; intros j i Hj Hi.
  - unfold g_dudz.
    replace (j + i * NX m + NX m)%Z with (j + (i + 1) * NX m)%Z by ring. rewrite !HU by lia.
    unfold zvx. rewrite plus_IZR. field. lra.
  - unfold g_dvdx. destruct (div_at j i (NX m) Hj) as [-> ->].
    replace (j + i * (NX m + 1) + 1)%Z with (j + 1 + i * (NX m + 1))%Z by ring. rewrite !HV by lia.
    unfold xvz. rewrite plus_IZR. field. lra.
  - unfold g_dvdz. destruct (div_at j i (NX m - 1) Hj) as [-> ->].
    replace (j + i * (NX m + 1) + 1 + (NX m + 1))%Z with (j + 1 + (i + 1) * (NX m + 1))%Z by ring.
    replace (j + i * (NX m + 1) + 1)%Z with (j + 1 + i * (NX m + 1))%Z by ring. rewrite !HV by lia.
    unfold zg. rewrite plus_IZR. field. lra.
  - unfold g_dudx. destruct (div_at j i (NX m - 1) Hj) as [-> ->].
    replace (j + i * NX m + NX m + 1)%Z with (j + 1 + (i + 1) * NX m)%Z by ring.
    replace (j + i * NX m + NX m)%Z with (j + (i + 1) * NX m)%Z by ring. rewrite !HU by lia.
    unfold xg. rewrite plus_IZR. field. lra.
Qed.
Print Assumptions C82_homogeneous.
Example C82_homogeneous_ex :
  let m := Mesh 3 3 0 0 1 1 in mesh_ok m /\ inside m 1 1 /\
  (forall j i, (0 <= j < NX m)%Z -> (0 <= i <= NZ m)%Z -> (fun k => - (1 / 2) + IZR (k / 3)) (j + i * NX m)%Z = 0 + 0 * xg m j + 1 * zvx m i).
Proof.
  split; [|split].
  - unfold mesh_ok. cbn. repeat split; lia || lra.
  - unfold inside, xg, zg. cbn. lra.
  - intros j i Hj Hi. cbn [NX] in *. rewrite Z.div_add, Z.div_small by lia. unfold zvx. cbn [Z0 DZ]. rewrite Z.add_0_l. lra.
Qed.

(** Several steps in the same flow. *)
Fixpoint steps (l : tens) (dts : list R) (f : tens) : tens := match dts with [] => f | dt :: r => steps l r (stretch dt l f) end.
Definition total (dts : list R) : R := fold_right Rplus 0 dts.
(** Simple shear is followed exactly, however the time is divided. *)
Theorem C82_simple_shear : forall g dts, steps (Tens 0 g 0 0) dts identity = Tens 1 (g * total dts) 0 1.
Proof.
  intros g dts. assert (G : forall dts s, steps (Tens 0 g 0 0) dts (Tens 1 s 0 1) = Tens 1 (s + g * total dts) 0 1).
  { clear. induction dts as [|dt r IH]; intros s; cbn [steps total fold_right].
    - f_equal; ring.
    - replace (stretch dt (Tens 0 g 0 0) (Tens 1 s 0 1)) with (Tens 1 (s + g * dt) 0 1) by (unfold stretch; cbn [xx xz zx zz]; f_equal; ring).
      rewrite IH. unfold total. f_equal; ring. }
  unfold identity. rewrite G. f_equal; ring.
Qed.
Print Assumptions C82_simple_shear.
(** Area: each step multiplies it by the determinant of the increment. *)
Theorem C82_area : forall dt l f, det (stretch dt l f) = (1 + dt * (xx l + zz l) + dt * dt * det l) * det f.
Proof. intros. unfold det, stretch. cbn [xx xz zx zz]. ring. Qed.
Print Assumptions C82_area.
(** Refuted: area is conserved in incompressible flow. Pure shear loses area, rotation
    gains it, in every step. *)
Theorem C82_area_refuted : forall e dt f, e <> 0 -> dt <> 0 -> 0 < det f ->
  det (stretch dt (Tens e 0 0 (- e)) f) < det f /\ det (stretch dt (Tens 0 (- e) e 0) f) > det f.
Proof.
  intros e dt f He Hdt Hf. rewrite !C82_area. cbn [xx xz zx zz].
  replace (det (Tens e 0 0 (- e))) with (- (e * e)) by (unfold det; cbn [xx xz zx zz]; ring).
  replace (det (Tens 0 (- e) e 0)) with (e * e) by (unfold det; cbn [xx xz zx zz]; ring).
  assert (P : 0 < (e * dt) * (e * dt)) by (apply Rsqr_pos_lt; apply Rmult_integral_contrapositive_currified; assumption).
  pose proof (Rmult_lt_0_compat _ _ P Hf). split; lra.
Qed.
Print Assumptions C82_area_refuted.

(** ** C83 *)
(** Specification: squared length of the image of a direction. *)
Definition len2 (v : R * R) : R := fst v * fst v + snd v * snd v.
(** [lo] and [hi] are the smallest and largest stretch of any line. *)
Definition principal_stretches (f : tens) (lo hi : R) : Prop :=
  0 <= lo /\ 0 <= hi /\
  (forall v, lo * lo * len2 v <= len2 (act f v) <= hi * hi * len2 v) /\
  (exists v, len2 v <> 0 /\ len2 (act f v) = lo * lo * len2 v) /\
  (exists v, len2 v <> 0 /\ len2 (act f v) = hi * hi * len2 v).

Lemma quad_bounds (p q r lo hi : R) : (* symmetric [[p, q], [q, r]] with eigenvalues lo, hi *)
  lo + hi = p + r -> lo * hi = p * r - q * q -> lo <= hi ->
  (forall v, lo * len2 v <= p * fst v * fst v + 2 * q * fst v * snd v + r * snd v * snd v <= hi * len2 v) /\
  (exists v, len2 v <> 0 /\ p * fst v * fst v + 2 * q * fst v * snd v + r * snd v * snd v = lo * len2 v) /\
  (exists v, len2 v <> 0 /\ p * fst v * fst v + 2 * q * fst v * snd v + r * snd v * snd v = hi * len2 v).
Proof.
  intros S P L.
  assert (Bp : lo <= p <= hi) by nra. assert (Br : lo <= r <= hi) by nra.
  assert (H1 : (hi - p) * (hi - r) = q * q) by nra. assert (H2 : (p - lo) * (r - lo) = q * q) by nra.
  assert (SQ : forall A B x y, 0 <= A -> 0 <= B -> A * B = q * q -> 0 <= A * x * x + 2 * q * x * y + B * y * y).
  { intros A B x y HA HB HAB. destruct (Req_dec A 0) as [-> | NA].
    - assert (q = 0) by nra. subst q. nra.
    - apply Rmult_le_reg_l with A; [lra|]. replace (A * (A * x * x + 2 * q * x * y + B * y * y)) with ((A * x + q * y) * (A * x + q * y) + (A * B - q * q) * (y * y)) by ring.
      rewrite HAB. pose proof (Rle_0_sqr (A * x + q * y)) as Q. unfold Rsqr in Q. lra. }
  split; [|split].
  - intros [x y]. unfold len2. cbn [fst snd]. split.
    + pose proof (SQ (p - lo) (r - lo) x y ltac:(lra) ltac:(lra) H2). nra.
    + pose proof (SQ (hi - p) (hi - r) x (- y) ltac:(lra) ltac:(lra) H1). nra.
  - destruct (Req_dec (p - lo) 0) as [E|E].
    + exists (1, 0). unfold len2; cbn [fst snd]. split; [lra|]. nra.
    + exists (- q, p - lo). unfold len2; cbn [fst snd]. split.
      * apply Rgt_not_eq. assert (0 < (p - lo) * (p - lo)) by (apply Rsqr_pos_lt; exact E). pose proof (Rle_0_sqr (- q)) as Q. unfold Rsqr in Q. lra.
      * replace (p * - q * - q + 2 * q * - q * (p - lo) + r * (p - lo) * (p - lo) - 0) with ((p - lo) * ((p - lo) * (r - lo) - q * q) + lo * (q * q + (p - lo) * (p - lo)) ) by ring.
        nra.
  - destruct (Req_dec (hi - p) 0) as [E|E].
    + exists (1, 0). unfold len2; cbn [fst snd]. split; [lra|]. nra.
    + exists (q, hi - p). unfold len2; cbn [fst snd]. split.
      * apply Rgt_not_eq. assert (0 < (hi - p) * (hi - p)) by (apply Rsqr_pos_lt; exact E). pose proof (Rle_0_sqr q) as Q. unfold Rsqr in Q. lra.
      * nra.
Qed.

Lemma cg_facts f : let c := cauchy_green f in
  xx c * zz c - xz c * zx c = det f * det f /\ 0 <= xx c /\ 0 <= zz c /\ zx c = xz c /\
  (forall v, len2 (act f v) = xx c * fst v * fst v + 2 * xz c * fst v * snd v + zz c * snd v * snd v).
Proof.
  cbv zeta. unfold cauchy_green, det. cbn [xx xz zx zz]. repeat split; try ring.
  - pose proof (Rle_0_sqr (xx f)). pose proof (Rle_0_sqr (zx f)). unfold Rsqr in *. lra.
  - pose proof (Rle_0_sqr (xz f)). pose proof (Rle_0_sqr (zz f)). unfold Rsqr in *. lra.
  - intros v. unfold len2, act. cbn [fst snd]. ring.
Qed.

(** Eigenvalues of the square root: e1 + e2 = t, e1 e2 = s. *)
Lemma root_facts f : 0 < xx (cauchy_green f) + zz (cauchy_green f) ->
  let u := tens_sqrt (cauchy_green f) in
  eigen1 u + eigen2 u = sqrt (xx (cauchy_green f) + zz (cauchy_green f) + 2 * Rabs (det f)) /\
  eigen1 u * eigen2 u = Rabs (det f) /\ 0 <= eigen2 u <= eigen1 u /\ 0 < eigen1 u /\
  eigen1 u * eigen1 u + eigen2 u * eigen2 u = xx (cauchy_green f) + zz (cauchy_green f).
Proof.
  intros HT. cbv zeta. destruct (cg_facts f) as (D & P1 & P2 & SY & _). set (c := cauchy_green f) in *.
  set (u := tens_sqrt c).
  set (s := Rabs (det f)). assert (Hs : 0 <= s) by apply Rabs_pos.
  assert (Es : sqrt (xx c * zz c - xz c * zx c) = s) by (rewrite D; apply sqrt_Rsqr_abs).
  assert (ss : s * s = det f * det f) by (unfold s; rewrite <- Rabs_mult; apply Rabs_right; pose proof (Rle_0_sqr (det f)) as Q; unfold Rsqr in Q; lra).
  set (T := xx c + zz c) in *.
  set (t := sqrt (T + 2 * s)). assert (tt : t * t = T + 2 * s) by (apply sqrt_sqrt; lra).
  assert (tp : 0 < t) by (apply sqrt_lt_R0; lra).
  assert (U : u = Tens (1 / t * (xx c + s)) (1 / t * xz c) (1 / t * zx c) (1 / t * (zz c + s))) by (unfold u, tens_sqrt; rewrite Es; reflexivity).
  assert (Tr : xx u + zz u = t). { rewrite U. cbn [xx zz]. apply Rmult_eq_reg_r with t; [|lra]. rewrite tt. unfold T. field. lra. }
  assert (De : xx u * zz u - xz u * zx u = s).
  { rewrite U. cbn [xx xz zx zz]. apply Rmult_eq_reg_r with (t * t); [|nra].
    replace ((1 / t * (xx c + s) * (1 / t * (zz c + s)) - 1 / t * xz c * (1 / t * zx c)) * (t * t)) with ((xx c + s) * (zz c + s) - xz c * zx c) by (field; lra).
    rewrite tt. replace ((xx c + s) * (zz c + s) - xz c * zx c) with ((xx c * zz c - xz c * zx c) + s * T + s * s) by (unfold T; ring). rewrite D, <- ss. ring. }
  unfold eigen1, eigen2. cbv zeta. rewrite Tr, De.
  assert (Disc : 0 <= t * t / 4 - s).
  { rewrite tt. assert (2 * s <= T); [|lra].
    (* T - 2s >= 0 : T^2 >= 4 s^2 *)
    assert (Q : 4 * (s * s) <= T * T). { rewrite ss, <- D. unfold T. rewrite SY. pose proof (Rle_0_sqr (xx c - zz c)) as Q1. pose proof (Rle_0_sqr (xz c)) as Q2. unfold Rsqr in *. lra. }
    nra. }
  set (d := sqrt (t * t / 4 - s)). assert (dd : d * d = t * t / 4 - s) by (apply sqrt_sqrt; exact Disc). assert (dp : 0 <= d) by apply sqrt_pos.
  assert (dl : d <= t / 2) by nra.
  repeat split; try lra; try nra.
Qed.

(** For every invertible deformation gradient the reported value is the ratio of the
    largest to the smallest stretch; it is at least 1. *)
Theorem C83_ratio : forall f, det f <> 0 -> exists lo hi r,
  aspect_ratio f = Some r /\ principal_stretches f lo hi /\ 0 < lo /\ r = hi / lo /\ 1 <= r.
Proof.
  intros f Hd. destruct (cg_facts f) as (D & P1 & P2 & SY & Q).
  assert (HT : 0 < xx (cauchy_green f) + zz (cauchy_green f)).
  { assert (0 < det f * det f) by (apply Rsqr_pos_lt; exact Hd). rewrite <- D in H. nra. }
  destruct (root_facts f HT) as (S & P & [O1 O2] & O3 & SS). set (u := tens_sqrt (cauchy_green f)) in *.
  assert (LP : 0 < eigen2 u). { assert (0 < Rabs (det f)) by (apply Rabs_pos_lt; exact Hd). nra. }
  exists (eigen2 u), (eigen1 u), (eigen1 u / eigen2 u).
  split; [|split; [|split; [|split]]].
  - unfold aspect_ratio. fold u. destruct (Req_EM_T (eigen2 u) 0); [lra|reflexivity].
  - destruct (quad_bounds (xx (cauchy_green f)) (xz (cauchy_green f)) (zz (cauchy_green f)) (eigen2 u * eigen2 u) (eigen1 u * eigen1 u)) as (B & E1 & E2).
    + lra.
    + replace (xx (cauchy_green f) * zz (cauchy_green f) - xz (cauchy_green f) * xz (cauchy_green f)) with (det f * det f) by (rewrite <- D, SY; ring).
      replace (eigen2 u * eigen2 u * (eigen1 u * eigen1 u)) with ((eigen1 u * eigen2 u) * (eigen1 u * eigen2 u)) by ring. rewrite P.
      rewrite <- Rabs_mult. apply Rabs_right. pose proof (Rle_0_sqr (det f)) as X. unfold Rsqr in X. lra.
    + nra.
    + repeat split; try lra; try (rewrite Q; apply B).
      * destruct E1 as [v [N E]]. exists v. split; [exact N|]. rewrite Q. exact E.
      * destruct E2 as [v [N E]]. exists v. split; [exact N|]. rewrite Q. exact E.
  - exact LP.
  - reflexivity.
  - apply Rmult_le_reg_r with (eigen2 u); [exact LP|]. unfold Rdiv. rewrite Rmult_assoc, Rinv_l by lra. lra.
Qed.
Print Assumptions C83_ratio.

(** That determines it: principal stretches are unique. *)
Theorem C83_unique : forall f lo hi lo' hi', principal_stretches f lo hi -> principal_stretches f lo' hi' -> lo = lo' /\ hi = hi'.
Proof.
  assert (L2 : forall v, len2 v <> 0 -> 0 < len2 v).
  { intros v H. unfold len2 in *. pose proof (Rle_0_sqr (fst v)) as A. pose proof (Rle_0_sqr (snd v)) as B. unfold Rsqr in *. lra. }
  assert (SQ : forall a b, 0 <= a -> 0 <= b -> a * a <= b * b -> a <= b) by (intros; nra).
  intros f lo hi lo' hi' (A0 & A1 & A2 & [v1 [N1 E1]] & [v2 [N2 E2]]) (B0 & B1 & B2 & [w1 [M1 F1]] & [w2 [M2 F2]]).
  apply L2 in N1, N2, M1, M2.
  pose proof (B2 v1) as X1. pose proof (A2 w1) as X2. pose proof (B2 v2) as X3. pose proof (A2 w2) as X4.
  split; apply Rle_antisym; apply SQ; try assumption.
  - apply Rmult_le_reg_r with (len2 w1); [exact M1|]. lra.
  - apply Rmult_le_reg_r with (len2 v1); [exact N1|]. lra.
  - apply Rmult_le_reg_r with (len2 v2); [exact N2|]. lra.
  - apply Rmult_le_reg_r with (len2 w2); [exact M2|]. lra.
Qed.
Print Assumptions C83_unique.

(** Rotating the deformed rock does not change the ratio. *)
Definition rotate (co si : R) (f : tens) : tens :=
  Tens (co * xx f - si * zx f) (co * xz f - si * zz f) (si * xx f + co * zx f) (si * xz f + co * zz f).
Theorem C83_rotation_invariant : forall co si f, co * co + si * si = 1 -> aspect_ratio (rotate co si f) = aspect_ratio f.
Proof.
  intros co si f H. unfold aspect_ratio. replace (cauchy_green (rotate co si f)) with (cauchy_green f); [reflexivity|].
  unfold cauchy_green, rotate. cbn [xx xz zx zz].
  assert (G : forall a b c d, (co * a - si * b) * (co * c - si * d) + (si * a + co * b) * (si * c + co * d) = a * c + b * d).
  { intros. replace ((co * a - si * b) * (co * c - si * d) + (si * a + co * b) * (si * c + co * d)) with ((co * co + si * si) * (a * c + b * d)) by ring. rewrite H. ring. }
  rewrite !G. reflexivity.
Qed.
Print Assumptions C83_rotation_invariant.
(** Undeformed rock, and rock turned in any number of time steps, has ratio exactly 1,
    although each step adds area (C82). *)
Lemma rotation_shape : forall w dts a b, exists a' b', steps (Tens 0 (- w) w 0) dts (Tens a (- b) b a) = Tens a' (- b') b' a' /\
  a * a + b * b <= a' * a' + b' * b'.
Proof.
  intros w. induction dts as [|dt r IH]; intros a b; cbn [steps]; [exists a, b; split; [reflexivity|lra]|].
  unfold stretch. cbn [xx xz zx zz].
  destruct (IH (a - w * dt * b) (b + w * dt * a)) as [a' [b' [E L]]]. exists a', b'. split.
  - rewrite <- E. f_equal. f_equal; ring.
  - apply Rle_trans with (2 := L). pose proof (Rle_0_sqr (w * dt * a)) as A. pose proof (Rle_0_sqr (w * dt * b)) as B. unfold Rsqr in *. lra.
Qed.
Theorem C83_rotation_is_no_strain : forall w dts, aspect_ratio (steps (Tens 0 (- w) w 0) dts identity) = Some 1.
Proof.
  intros w dts. destruct (rotation_shape w dts 1 0) as [a [b [E L]]]. unfold identity. replace (Tens 1 0 0 1) with (Tens 1 (- 0) 0 1) by (f_equal; ring).
  rewrite E. set (f := Tens a (- b) b a).
  assert (Df : det f = a * a + b * b) by (unfold det, f; cbn [xx xz zx zz]; ring).
  destruct (C83_ratio f ltac:(rewrite Df; lra)) as (lo & hi & r & -> & PS & LP & -> & _). f_equal.
  set (k := sqrt (a * a + b * b)).
  assert (kk : k * k = a * a + b * b) by (apply sqrt_sqrt; lra). assert (kp : 0 < k) by (apply sqrt_lt_R0; lra).
  assert (PK : principal_stretches f k k).
  { assert (EQ : forall v, len2 (act f v) = k * k * len2 v) by (intros v; rewrite kk; unfold len2, act, f; cbn [xx xz zx zz fst snd]; ring).
    repeat split; try lra; try (rewrite EQ; lra); exists (1, 0); (split; [unfold len2; cbn; lra | apply EQ]). }
  destruct (C83_unique f _ _ _ _ PS PK) as [-> ->]. field. lra.
Qed.
Print Assumptions C83_rotation_is_no_strain.
Example C83_pure_shear_ex : aspect_ratio (Tens 2 0 0 (1 / 2)) = Some 4.
Proof.
  set (f := Tens 2 0 0 (1 / 2)).
  destruct (C83_ratio f ltac:(unfold det, f; cbn; lra)) as (lo & hi & r & -> & PS & LP & -> & _). f_equal.
  assert (PK : principal_stretches f (1 / 2) 2).
  { assert (EQ : forall v, len2 (act f v) = 4 * (fst v * fst v) + 1 / 4 * (snd v * snd v)) by (intros v; unfold len2, act, f; cbn [xx xz zx zz fst snd]; field).
    split; [lra|]. split; [lra|]. split; [|split].
    - intros v. rewrite EQ. unfold len2. pose proof (Rle_0_sqr (fst v)) as A. pose proof (Rle_0_sqr (snd v)) as B. unfold Rsqr in *. lra.
    - exists (0, 1). rewrite EQ. unfold len2. cbn. lra.
    - exists (1, 0). rewrite EQ. unfold len2. cbn. lra. }
  destruct (C83_unique f _ _ _ _ PS PK) as [-> ->]. lra.
Qed.

(** Refuted: the ratio is defined for every marker. It is a division by zero for every
    singular gradient, in particular for all sediment markers (C56), which stay
    singular whatever deformation follows. *)
Theorem C83_sediment_refuted : forall x z ph (hist : list (R * tens)),
  let '(a, b, c, d) := nF (new_sed x z ph) in
  let f := fold_left (fun f s => stretch (fst s) (snd s) f) hist (Tens a b c d) in
  det f = 0 /\ (0 < xx (cauchy_green f) + zz (cauchy_green f) -> aspect_ratio f = None).
Proof.
  intros x z ph hist. cbn [nF new_sed]. cbv zeta. set (f := fold_left _ hist _).
  assert (D : det f = 0).
  { unfold f. assert (G : forall hist f0, det f0 = 0 -> det (fold_left (fun f s => stretch (fst s) (snd s) f) hist f0) = 0).
    { clear. induction hist as [|s r IH]; intros f0 H; cbn [fold_left]; [exact H|]. apply IH. rewrite C82_area, H. ring. }
    apply G. unfold det. cbn. ring. }
  split; [exact D|]. intros HT. destruct (root_facts f HT) as (_ & P & [O1 O2] & O3 & _).
  rewrite D, Rabs_R0 in P. unfold aspect_ratio. destruct (Req_EM_T (eigen2 (tens_sqrt (cauchy_green f))) 0) as [|N]; [reflexivity|].
  exfalso. apply Rmult_integral in P. lra.
Qed.
Print Assumptions C83_sediment_refuted.
Example C83_sediment_refuted_ex : aspect_ratio (Tens 1 0 1 0) = None.
Proof.
  destruct (C83_sediment_refuted 0 0 0%Z []) as [_ H]. cbn [fold_left] in H. apply H. unfold cauchy_green. cbn. lra.
Qed.
Example C82_area_refuted_ex : det (stretch (1 / 10) (Tens 1 0 0 (- 1)) identity) = 99 / 100.
Proof. unfold det, stretch, identity. cbn [xx xz zx zz]. lra. Qed.
