(** * C64: strain rates and rotation rate from the velocities *)
From Coq Require Import Reals List Bool ZArith Lra Lia Psatz.
From Verif Require Import RheoModel MatGridModel.
Local Open Scope R_scope.

(** Specification: positions of the velocity nodes on the staggered grid and velocities sampled there. *)
Record grid := Grid { g_nx : nat; g_nz : nat; g_x0 : R; g_z0 : R; g_dx : R; g_dz : R }.
Definition xv g (k : nat) := g_x0 g + INR k * g_dx g.                     (* vertices, Vx nodes *)
Definition xc g (k : nat) := g_x0 g + (INR k + / 2) * g_dx g.             (* centres *)
Definition xg g (k : nat) := g_x0 g + (INR k - / 2) * g_dx g.             (* Vz nodes, with ghosts *)
Definition zv g (l : nat) := g_z0 g + INR l * g_dz g.
Definition zc g (l : nat) := g_z0 g + (INR l + / 2) * g_dz g.
Definition zg g (l : nat) := g_z0 g + (INR l - / 2) * g_dz g.
Definition sampled_u g (U : R -> R -> R) (u : nat -> R) : Prop :=
  forall k l, (k < g_nx g)%nat -> (l <= g_nz g)%nat -> u (k + l * g_nx g)%nat = U (xv g k) (zg g l).
Definition sampled_v g (V : R -> R -> R) (v : nat -> R) : Prop :=
  forall k l, (k <= g_nx g)%nat -> (l < g_nz g)%nat -> v (k + l * (g_nx g + 1))%nat = V (xg g k) (zv g l).
(** Quadratic fields. *)
Record quad := Quad { q0 : R; q1 : R; q2 : R; q11 : R; q12 : R; q22 : R }.
Definition qv q x z := q0 q + q1 q * x + q2 q * z + q11 q * x * x + q12 q * x * z + q22 q * z * z.
Definition qx q x z := q1 q + 2 * q11 q * x + q12 q * z.
Definition qz q x z := q2 q + q12 q * x + 2 * q22 q * z.

(** These are the partial derivatives. *)
Theorem C64_derivatives : forall q x z,
  derivable_pt_lim (fun x => qv q x z) x (qx q x z) /\ derivable_pt_lim (fun z => qv q x z) z (qz q x z).
Proof.
  intros q x z. split; intros e He; exists (mkposreal (e / (1 + Rabs (q11 q) + Rabs (q22 q))) ltac:(apply Rdiv_lt_0_compat;
      [lra|pose proof (Rabs_pos (q11 q)); pose proof (Rabs_pos (q22 q)); lra])); intros h Hh Hl; cbn [pos] in Hl.
  all: pose proof (Rabs_pos (q11 q)) as A1; pose proof (Rabs_pos (q22 q)) as A2.
  - replace ((qv q (x + h) z - qv q x z) / h - qx q x z) with (q11 q * h) by (unfold qv, qx; field; exact Hh).
    rewrite Rabs_mult. apply Rle_lt_trans with ((1 + Rabs (q11 q) + Rabs (q22 q)) * Rabs h); [pose proof (Rabs_pos h); nra|].
    apply Rmult_lt_reg_r with (/ (1 + Rabs (q11 q) + Rabs (q22 q))); [apply Rinv_0_lt_compat; lra|].
    replace ((1 + Rabs (q11 q) + Rabs (q22 q)) * Rabs h * / (1 + Rabs (q11 q) + Rabs (q22 q))) with (Rabs h) by (field; lra). exact Hl.
  - replace ((qv q x (z + h) - qv q x z) / h - qz q x z) with (q22 q * h) by (unfold qv, qz; field; exact Hh).
    rewrite Rabs_mult. apply Rle_lt_trans with ((1 + Rabs (q11 q) + Rabs (q22 q)) * Rabs h); [pose proof (Rabs_pos h); nra|].
    apply Rmult_lt_reg_r with (/ (1 + Rabs (q11 q) + Rabs (q22 q))); [apply Rinv_0_lt_compat; lra|].
    replace ((1 + Rabs (q11 q) + Rabs (q22 q)) * Rabs h * / (1 + Rabs (q11 q) + Rabs (q22 q))) with (Rabs h) by (field; lra). exact Hl.
Qed.
Print Assumptions C64_derivatives.

Section S.
  Variables (g : grid) (U V : R -> R -> R) (u v : nat -> R).
  Hypotheses (Su : sampled_u g U u) (Sv : sampled_v g V v).
  Notation Nx := (g_nx g). Notation Nz := (g_nz g).
  Lemma u_at i k l : i = (k + l * Nx)%nat -> (k < Nx)%nat -> (l <= Nz)%nat -> u i = U (xv g k) (zg g l).
  Proof. intros ->. apply Su. Qed.
  Lemma v_at i k l : i = (k + l * (Nx + 1))%nat -> (k <= Nx)%nat -> (l < Nz)%nat -> v i = V (xg g k) (zv g l).
  Proof. intros ->. apply Sv. Qed.
  Lemma dvxdx_at k l : (k < Nx - 1)%nat -> (l < Nz - 1)%nat ->
    dvxdx Nx (g_dx g) u k l = (U (xv g (k + 1)) (zg g (l + 1)) - U (xv g k) (zg g (l + 1))) / g_dx g.
  Proof. intros Hk Hl. unfold dvxdx, c1. rewrite (u_at _ (k + 1) (l + 1)), (u_at _ k (l + 1)) by lia. reflexivity. Qed.
  Lemma dvzdz_at k l : (k < Nx - 1)%nat -> (l < Nz - 1)%nat ->
    dvzdz Nx (g_dz g) v k l = (V (xg g (k + 1)) (zv g (l + 1)) - V (xg g (k + 1)) (zv g l)) / g_dz g.
  Proof. intros Hk Hl. unfold dvzdz, c2. rewrite (v_at _ (k + 1) (l + 1)), (v_at _ (k + 1) l) by lia. reflexivity. Qed.
  Lemma dvxdz_at k l : (k < Nx)%nat -> (l < Nz)%nat ->
    dvxdz Nx (g_dz g) u k l = (U (xv g k) (zg g (l + 1)) - U (xv g k) (zg g l)) / g_dz g.
  Proof. intros Hk Hl. unfold dvxdz, c1. rewrite (u_at _ k (l + 1)), (u_at _ k l) by lia. reflexivity. Qed.
  Lemma dvzdx_at k l : (k < Nx)%nat -> (l < Nz)%nat ->
    dvzdx Nx (g_dx g) v k l = (V (xg g (k + 1)) (zv g l) - V (xg g k) (zv g l)) / g_dx g.
  Proof. intros Hk Hl. unfold dvzdx, c2. rewrite (v_at _ (k + 1) l), (v_at _ k l) by lia. reflexivity. Qed.
End S.

Definition on_c (t : nat -> Z) (g : grid) k l : Prop := t (k + l * (g_nx g - 1))%nat <> 30%Z /\ t (k + l * (g_nx g - 1))%nat <> 31%Z.
Definition on_v (t : nat -> Z) (g : grid) k l : Prop := t (k + l * g_nx g)%nat <> 30%Z.
Lemma in_model_on : forall t g k l, on_c t g k l -> in_model t (c0 (g_nx g) k l) = true.
Proof. intros t g k l [A B]. unfold in_model, c0. apply Z.eqb_neq in A, B. now rewrite A, B. Qed.
Lemma vert_on_on : forall t g i k l, i = (k + l * g_nx g)%nat -> on_v t g k l -> vert_on t i = true.
Proof. intros t g i k l -> A. unfold vert_on. apply Z.eqb_neq in A. now rewrite A. Qed.

(** For velocity fields up to second degree all strain rates and the rotation rate are exact: normal
    components at the centres, shear and rotation at the vertices, and the shear component handed to the
    centres where no vertex is in the air. *)
Theorem C64_quadratic_fields_exact : forall g qu qw u v bcp bcg comp oop w0, g_dx g <> 0 -> g_dz g <> 0 ->
  sampled_u g (qv qu) u -> sampled_v g (qv qw) v ->
  (forall k l, (k < g_nx g - 1)%nat -> (l < g_nz g - 1)%nat -> on_c bcp g k l ->
     let X := xc g k in let Z := zc g l in
     let D := (qx qu X Z + qz qw X Z) * (1 + oop / 2) in
     div_u (g_nx g) (g_dx g) (g_dz g) oop u v bcp k l = D /\
     exxd (g_nx g) (g_dx g) (g_dz g) comp oop u v bcp k l = qx qu X Z - comp / 3 * D /\
     ezzd (g_nx g) (g_dx g) (g_dz g) comp oop u v bcp k l = qz qw X Z - comp / 3 * D /\
     (on_v bcg g k l -> on_v bcg g (k + 1) l -> on_v bcg g k (l + 1) -> on_v bcg g (k + 1) (l + 1) ->
      exz_n (g_nx g) (g_dx g) (g_dz g) u v bcp bcg k l = (qz qu X Z + qx qw X Z) / 2)) /\
  (forall k l, (k < g_nx g)%nat -> (l < g_nz g)%nat -> on_v bcg g k l ->
     let X := xv g k in let Z := zv g l in
     exz (g_nx g) (g_dx g) (g_dz g) u v bcg k l = (qz qu X Z + qx qw X Z) / 2 /\
     wxz (g_nx g) (g_dx g) (g_dz g) u v bcg w0 k l = (qx qw X Z - qz qu X Z) / 2).
Proof.
  intros g qu qw u v bcp bcg comp oop w0 Hx Hz Su Sv.
  assert (SH : forall k l, (k < g_nx g)%nat -> (l < g_nz g)%nat ->
     dvxdz (g_nx g) (g_dz g) u k l = qz qu (xv g k) (zv g l) /\ dvzdx (g_nx g) (g_dx g) v k l = qx qw (xv g k) (zv g l)).
  { intros k l Hk Hl. rewrite (dvxdz_at g _ u Su k l Hk Hl), (dvzdx_at g _ v Sv k l Hk Hl).
    unfold qv, qx, qz, xv, zv, xg, zg. rewrite !plus_INR. cbn [INR]. split; field; assumption. }
  assert (EX : forall k l, (k < g_nx g)%nat -> (l < g_nz g)%nat -> on_v bcg g k l ->
     exz (g_nx g) (g_dx g) (g_dz g) u v bcg k l = (qz qu (xv g k) (zv g l) + qx qw (xv g k) (zv g l)) / 2 /\
     wxz (g_nx g) (g_dx g) (g_dz g) u v bcg w0 k l = (qx qw (xv g k) (zv g l) - qz qu (xv g k) (zv g l)) / 2).
  { intros k l Hk Hl Ho. unfold exz, wxz. rewrite (vert_on_on bcg g (c1 (g_nx g) k l) k l eq_refl Ho). destruct (SH k l Hk Hl) as [-> ->]. split; field. }
  split; [|intros k l Hk Hl Ho X Z; now apply EX].
  intros k l Hk Hl Ho X Z D.
  assert (NX : dvxdx (g_nx g) (g_dx g) u k l = qx qu X Z /\ dvzdz (g_nx g) (g_dz g) v k l = qz qw X Z).
  { rewrite (dvxdx_at g _ u Su k l Hk Hl), (dvzdz_at g _ v Sv k l Hk Hl). unfold X, Z, qv, qx, qz, xv, zv, xg, zg, xc, zc. rewrite !plus_INR. cbn [INR]. split; field; assumption. }
  destruct NX as [N1 N2].
  assert (ED : div_u (g_nx g) (g_dx g) (g_dz g) oop u v bcp k l = D).
  { unfold div_u. rewrite in_model_on by exact Ho. unfold dvydy. rewrite N1, N2. unfold D. field. }
  split; [exact ED|]. split; [|split].
  - unfold exxd. rewrite in_model_on by exact Ho. rewrite ED, N1. field.
  - unfold ezzd. rewrite in_model_on by exact Ho. rewrite ED, N2. field.
  - intros V1 V2 V3 V4. unfold exz_n. rewrite in_model_on by exact Ho.
    rewrite (vert_on_on bcg g _ k l), (vert_on_on bcg g _ (k + 1) l), (vert_on_on bcg g _ k (l + 1)), (vert_on_on bcg g _ (k + 1) (l + 1)) by (assumption || unfold c1; lia).
    rewrite (proj1 (EX k l ltac:(lia) ltac:(lia) V1)), (proj1 (EX (k + 1)%nat l ltac:(lia) ltac:(lia) V2)), (proj1 (EX k (l + 1)%nat ltac:(lia) ltac:(lia) V3)), (proj1 (EX (k + 1)%nat (l + 1)%nat ltac:(lia) ltac:(lia) V4)).
    unfold X, Z, qx, qz, xv, zv, xc, zc. rewrite !plus_INR. cbn [INR]. field.
Qed.
Print Assumptions C64_quadratic_fields_exact.

(** Any velocities whatever: superposing a rigid motion (translation [a],[b] and rotation at rate [w]) leaves
    every strain rate unchanged and adds [w] to the rotation rate. *)
Theorem C64_rigid_motion_invariance : forall g u v u' v' bcp bcg comp oop w0 a b w, g_dx g <> 0 -> g_dz g <> 0 ->
  (forall k l, (k < g_nx g)%nat -> (l <= g_nz g)%nat -> u' (k + l * g_nx g)%nat = u (k + l * g_nx g)%nat + (a - w * zg g l)) ->
  (forall k l, (k <= g_nx g)%nat -> (l < g_nz g)%nat -> v' (k + l * (g_nx g + 1))%nat = v (k + l * (g_nx g + 1))%nat + (b + w * xg g k)) ->
  (forall k l, (k < g_nx g - 1)%nat -> (l < g_nz g - 1)%nat ->
     div_u (g_nx g) (g_dx g) (g_dz g) oop u' v' bcp k l = div_u (g_nx g) (g_dx g) (g_dz g) oop u v bcp k l /\
     exxd (g_nx g) (g_dx g) (g_dz g) comp oop u' v' bcp k l = exxd (g_nx g) (g_dx g) (g_dz g) comp oop u v bcp k l /\
     ezzd (g_nx g) (g_dx g) (g_dz g) comp oop u' v' bcp k l = ezzd (g_nx g) (g_dx g) (g_dz g) comp oop u v bcp k l /\
     exz_n (g_nx g) (g_dx g) (g_dz g) u' v' bcp bcg k l = exz_n (g_nx g) (g_dx g) (g_dz g) u v bcp bcg k l) /\
  (forall k l, (k < g_nx g)%nat -> (l < g_nz g)%nat ->
     exz (g_nx g) (g_dx g) (g_dz g) u' v' bcg k l = exz (g_nx g) (g_dx g) (g_dz g) u v bcg k l /\
     (on_v bcg g k l -> wxz (g_nx g) (g_dx g) (g_dz g) u' v' bcg w0 k l = wxz (g_nx g) (g_dx g) (g_dz g) u v bcg w0 k l + w)).
Proof.
  intros g u v u' v' bcp bcg comp oop w0 a b w Hx Hz Hu Hv.
  assert (Gu : forall i k l, i = (k + l * g_nx g)%nat -> (k < g_nx g)%nat -> (l <= g_nz g)%nat -> u' i = u i + (a - w * zg g l)) by (intros; subst; now apply Hu).
  assert (Gv : forall i k l, i = (k + l * (g_nx g + 1))%nat -> (k <= g_nx g)%nat -> (l < g_nz g)%nat -> v' i = v i + (b + w * xg g k)) by (intros; subst; now apply Hv).
  assert (SH : forall k l, (k < g_nx g)%nat -> (l < g_nz g)%nat ->
     dvxdz (g_nx g) (g_dz g) u' k l = dvxdz (g_nx g) (g_dz g) u k l - w /\ dvzdx (g_nx g) (g_dx g) v' k l = dvzdx (g_nx g) (g_dx g) v k l + w).
  { intros k l Hk Hl. unfold dvxdz, dvzdx, c1, c2. rewrite (Gu (k + l * g_nx g + g_nx g)%nat k (l + 1)%nat), (Gu (k + l * g_nx g)%nat k l), (Gv (k + l * (g_nx g + 1) + 1)%nat (k + 1)%nat l), (Gv (k + l * (g_nx g + 1))%nat k l) by lia.
    unfold xg, zg. rewrite !plus_INR. cbn [INR]. split; field; assumption. }
  assert (EX : forall k l, (k < g_nx g)%nat -> (l < g_nz g)%nat ->
     exz (g_nx g) (g_dx g) (g_dz g) u' v' bcg k l = exz (g_nx g) (g_dx g) (g_dz g) u v bcg k l).
  { intros k l Hk Hl. unfold exz. destruct (vert_on bcg _); [|reflexivity]. destruct (SH k l Hk Hl) as [-> ->]. ring. }
  split.
  - intros k l Hk Hl.
    assert (N1 : dvxdx (g_nx g) (g_dx g) u' k l = dvxdx (g_nx g) (g_dx g) u k l).
    { unfold dvxdx, c1. rewrite (Gu (k + l * g_nx g + 1 + g_nx g)%nat (k + 1)%nat (l + 1)%nat), (Gu (k + l * g_nx g + g_nx g)%nat k (l + 1)%nat) by lia. field. assumption. }
    assert (N2 : dvzdz (g_nx g) (g_dz g) v' k l = dvzdz (g_nx g) (g_dz g) v k l).
    { unfold dvzdz, c2. rewrite (Gv (k + l * (g_nx g + 1) + g_nx g + 1 + 1)%nat (k + 1)%nat (l + 1)%nat), (Gv (k + l * (g_nx g + 1) + 1)%nat (k + 1)%nat l) by lia. field. assumption. }
    assert (ED : div_u (g_nx g) (g_dx g) (g_dz g) oop u' v' bcp k l = div_u (g_nx g) (g_dx g) (g_dz g) oop u v bcp k l).
    { unfold div_u, dvydy. now rewrite N1, N2. }
    split; [exact ED|]. split; [unfold exxd; now rewrite N1, ED|]. split; [unfold ezzd; now rewrite N2, ED|].
    unfold exz_n. destruct (in_model bcp _); [|reflexivity]. rewrite !EX by lia. reflexivity.
  - intros k l Hk Hl. split; [now apply EX|]. intros Ho. unfold wxz. rewrite (vert_on_on bcg g (c1 (g_nx g) k l) k l eq_refl Ho). destruct (SH k l Hk Hl) as [-> ->]. field.
Qed.
Print Assumptions C64_rigid_motion_invariance.

(** The three normal components of the compressible deviatoric strain rate sum to zero; in air all are zero. *)
Theorem C64_deviatoric : forall g u v bcp oop k l,
  let D := div_u (g_nx g) (g_dx g) (g_dz g) oop u v bcp k l in
  (on_c bcp g k l ->
   exxd (g_nx g) (g_dx g) (g_dz g) 1 oop u v bcp k l + ezzd (g_nx g) (g_dx g) (g_dz g) 1 oop u v bcp k l
     + (oop / 2 * (dvxdx (g_nx g) (g_dx g) u k l + dvzdz (g_nx g) (g_dz g) v k l) - D / 3) = 0) /\
  (~ on_c bcp g k l -> D = 0 /\ forall comp bcg, exxd (g_nx g) (g_dx g) (g_dz g) comp oop u v bcp k l = 0 /\
     ezzd (g_nx g) (g_dx g) (g_dz g) comp oop u v bcp k l = 0 /\ exz_n (g_nx g) (g_dx g) (g_dz g) u v bcp bcg k l = 0).
Proof.
  intros g u v bcp oop k l D. split.
  - intros Ho. unfold D, exxd, ezzd, div_u. rewrite in_model_on by exact Ho. unfold dvydy. field.
  - intros N. assert (F : in_model bcp (c0 (g_nx g) k l) = false).
    { unfold in_model, c0. unfold on_c in N. destruct (Z.eqb_spec (bcp (k + l * (g_nx g - 1))%nat) 30); [reflexivity|].
      destruct (Z.eqb_spec (bcp (k + l * (g_nx g - 1))%nat) 31); [reflexivity|]. exfalso. apply N. split; assumption. }
    unfold D, exxd, ezzd, exz_n, div_u. rewrite F. auto.
Qed.
Print Assumptions C64_deviatoric.

(** Refuted: uniform shear is reported uniformly up to the free surface. A cell of which only some of the four
    vertices are in the model gets that fraction of the shear strain rate. *)
Theorem C64_shear_below_surface_refuted : forall g qu qw u v bcp bcg, g_dx g <> 0 -> g_dz g <> 0 ->
  sampled_u g (qv qu) u -> sampled_v g (qv qw) v -> q11 qu = 0 -> q12 qu = 0 -> q22 qu = 0 -> q11 qw = 0 -> q12 qw = 0 -> q22 qw = 0 ->
  forall k l, (k < g_nx g - 1)%nat -> (l < g_nz g - 1)%nat -> on_c bcp g k l ->
  on_v bcg g k l -> on_v bcg g (k + 1) l -> ~ on_v bcg g k (l + 1) -> ~ on_v bcg g (k + 1) (l + 1) ->
  exz (g_nx g) (g_dx g) (g_dz g) u v bcg k l = (q2 qu + q1 qw) / 2 /\
  exz_n (g_nx g) (g_dx g) (g_dz g) u v bcp bcg k l = (q2 qu + q1 qw) / 4.
Proof.
  intros g qu qw u v bcp bcg Hx Hz Su Sv A1 A2 A3 A4 A5 A6 k l Hk Hl Ho V1 V2 V3 V4.
  destruct (C64_quadratic_fields_exact g qu qw u v bcp bcg 0 0 0 Hx Hz Su Sv) as [_ E].
  pose proof (proj1 (E k l ltac:(lia) ltac:(lia) V1)) as E1. pose proof (proj1 (E (k + 1)%nat l ltac:(lia) ltac:(lia) V2)) as E2.
  unfold qx, qz in E1, E2. rewrite ?A1, ?A2, ?A3, ?A4, ?A5, ?A6 in E1, E2.
  split; [rewrite E1; field|].
  assert (F : forall i k l, i = (k + l * g_nx g)%nat -> ~ on_v bcg g k l -> vert_on bcg i = false).
  { intros i k' l' -> N. unfold vert_on. unfold on_v in N. destruct (Z.eqb_spec (bcg (k' + l' * g_nx g)%nat) 30); [reflexivity|contradiction]. }
  unfold exz_n. rewrite in_model_on by exact Ho.
  rewrite (vert_on_on bcg g _ k l), (vert_on_on bcg g _ (k + 1) l), (F _ k (l + 1)%nat), (F _ (k + 1)%nat (l + 1)%nat) by (assumption || unfold c1; lia).
  rewrite E1, E2. field.
Qed.
Print Assumptions C64_shear_below_surface_refuted.

(** Refuted: the rotation rate in the air is zero. It keeps whatever it was. *)
Theorem C64_stale_rotation_refuted : forall g u v bcg w0 k l, ~ on_v bcg g k l -> wxz (g_nx g) (g_dx g) (g_dz g) u v bcg w0 k l = w0.
Proof.
  intros g u v bcg w0 k l N. unfold wxz, vert_on, c1. unfold on_v in N.
  destruct (Z.eqb_spec (bcg (k + l * g_nx g)%nat) 30); [reflexivity|contradiction].
Qed.
Print Assumptions C64_stale_rotation_refuted.

Example C64_ex :
  let g := Grid 3 3 0 0 1 1 in let q := Quad 0 0 1 0 0 0 in
  let u := fun i : nat => qv q (xv g (Nat.modulo i 3)) (zg g (Nat.div i 3)) in
  sampled_u g (qv q) u /\ sampled_v g (qv (Quad 0 0 0 0 0 0)) (fun _ => 0) /\
  exz 3 1 1 u (fun _ => 0) (fun _ => (-1)%Z) 1 1 = 1 / 2 /\
  exz_n 3 1 1 u (fun _ => 0) (fun _ => (-1)%Z) (fun i => if Nat.ltb i 6 then (-1)%Z else 30%Z) 1 1 = 1 / 4.
Proof.
  intros g q u. assert (Su : sampled_u g (qv q) u).
  { intros k l Hk Hl. cbn [g_nx g] in *. unfold u. rewrite Nat.add_mod, Nat.mod_mul, Nat.add_0_r, Nat.mod_mod, Nat.mod_small, Nat.div_add, Nat.div_small by lia. reflexivity. }
  assert (Sv : sampled_v g (qv (Quad 0 0 0 0 0 0)) (fun _ => 0)).
  { intros k l _ _. unfold qv. cbn [q0 q1 q2 q11 q12 q22]. ring. }
  split; [exact Su|]. split; [exact Sv|]. split.
  - destruct (C64_quadratic_fields_exact g q (Quad 0 0 0 0 0 0) u (fun _ => 0) (fun _ => (-1)%Z) (fun _ => (-1)%Z) 0 0 0 ltac:(cbn; lra) ltac:(cbn; lra) Su Sv) as [_ E].
    specialize (E 1%nat 1%nat ltac:(cbn; lia) ltac:(cbn; lia) ltac:(unfold on_v; lia)). cbn [g g_nx g_dx g_dz] in E. rewrite (proj1 E). unfold qx, qz. cbn [q q0 q1 q2 q11 q12 q22]. field.
  - pose proof (C64_shear_below_surface_refuted g q (Quad 0 0 0 0 0 0) u (fun _ => 0) (fun _ => (-1)%Z) (fun i => if Nat.ltb i 6 then (-1)%Z else 30%Z)
      ltac:(cbn; lra) ltac:(cbn; lra) Su Sv eq_refl eq_refl eq_refl eq_refl eq_refl eq_refl 1%nat 1%nat ltac:(cbn; lia) ltac:(cbn; lia)
      ltac:(split; lia) ltac:(unfold on_v; cbn; lia) ltac:(unfold on_v; cbn; lia) ltac:(unfold on_v; cbn; lia) ltac:(unfold on_v; cbn; lia)) as [_ E].
    cbn [g g_nx g_dx g_dz] in E. rewrite E. cbn [q q0 q1 q2 q11 q12 q22]. field.
Qed.
