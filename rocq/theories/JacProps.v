(** Theorems about the Newton linearisation. *)
From Coq Require Import ZArith Reals List Bool Lia Lra.
Import ListNotations.
From Verif Require Import StokesModel StokesProofs StokesX JacModel JacProofs JacX JacZ JacT JacPoint.
Local Open Scope R_scope.

(** ** C101: the tangent operator of a material point *)

(** Isotropic case. [l]: the phases with their fractions; [eta]: the averaged
    viscosity of the rheology (C36); [pc]: the corrected pressure. The four finite
    differences of the viscosity and of the plastic divergence converge, and the
    operator built from their limits gives the change of [2 eta Exx - pc],
    [2 eta Ezz - pc] and [2 eta Exz] along every direction. *)
Theorem C101_tangent_operator : forall avg l Kdt a b c q e v,
  present l (fun _ => 1) = 1 ->
  (forall p, In p l -> is_present p -> 0 < frac p /\ 0 < p_eta p a b c q /\ p_ref p = p_eta p a b c q /\
     total_derivative (p_eta p) a b c q (e1_of (e p)) (e2_of (e p)) (e3_of (e p)) (e4_of (e p)) /\
     total_derivative (p_divp p) a b c q (e1_of (v p)) (e2_of (v p)) (e3_of (v p)) (e4_of (v p))) ->
  let eta := fun a b c q => mean avg l (fun p => p_eta p a b c q) in
  let pc := fun a b c q => present l (fun p => q + Kdt * p_divp p a b c q) in
  exists e1 e2 e3 e4 v1 v2 v3 v4,
    tends (fun h => fd_eta avg (eta a b c q) Sxx h a b c q l) e1 /\ tends (fun h => fd_eta avg (eta a b c q) Szz h a b c q l) e2 /\
    tends (fun h => fd_eta avg (eta a b c q) Sxz h a b c q l) e3 /\ tends (fun h => fd_eta avg (eta a b c q) Sp h a b c q l) e4 /\
    tends (fun h => fd_divp Sxx h a b c q l) v1 /\ tends (fun h => fd_divp Szz h a b c q l) v2 /\
    tends (fun h => fd_divp Sxz h a b c q l) v3 /\ tends (fun h => fd_divp Sp h a b c q l) v4 /\
    forall x y g r,
      let E1 t := a + t * x in let E2 t := b + t * y in let E3 t := c + t * (g / 2) in let Q t := q + t * r in
      derivable_pt_lim (fun t => 2 * eta (E1 t) (E2 t) (E3 t) (Q t) * E1 t - pc (E1 t) (E2 t) (E3 t) (Q t)) 0
        (dot4 (row1 0 0 0 (eta a b c q) a e1 e2 e3 e4 Kdt v1 v2 v3 v4) x y g r - r) /\
      derivable_pt_lim (fun t => 2 * eta (E1 t) (E2 t) (E3 t) (Q t) * E2 t - pc (E1 t) (E2 t) (E3 t) (Q t)) 0
        (dot4 (row2 0 0 0 (eta a b c q) b e1 e2 e3 e4 Kdt v1 v2 v3 v4) x y g r - r) /\
      derivable_pt_lim (fun t => 2 * eta (E1 t) (E2 t) (E3 t) (Q t) * E3 t) 0
        (dot4 (row3 0 0 0 (eta a b c q) c e1 e2 e3 e4) x y g r).
Proof.
  intros avg l Kdt a b c q e v Hs H eta pc.
  assert (He := mean_total avg l a b c q e). specialize (He (fun p Hp A => let '(conj h1 (conj h2 (conj h3 (conj h4 _)))) := H p Hp A in conj h1 (conj h2 (conj h3 h4))) Hs).
  cbv zeta in He.
  assert (Hv := present_total l p_divp a b c q v (fun p Hp A => let '(conj _ (conj _ (conj _ (conj _ h5)))) := H p Hp A in h5)).
  assert (Te := fun s => fd_eta_tends avg s a b c q l e (eta a b c q) (fun p Hp A => let '(conj _ (conj _ (conj _ (conj h4 _)))) := H p Hp A in h4)).
  assert (Tv := fun s => fd_divp_tends s a b c q l v (fun p Hp A => let '(conj _ (conj _ (conj _ (conj _ h5)))) := H p Hp A in h5)).
  do 8 eexists.
  split; [exact (Te Sxx)|]. split; [exact (Te Szz)|]. split; [exact (Te Sxz)|]. split; [exact (Te Sp)|].
  split; [exact (Tv Sxx)|]. split; [exact (Tv Szz)|]. split; [exact (Tv Sxz)|]. split; [exact (Tv Sp)|].
  intros x y g r E1 E2 E3 Q.
  assert (Epc : forall a b c q, pc a b c q = q + Kdt * present l (fun p => p_divp p a b c q)) by (intros; unfold pc; now apply present_pressure).
  split; [|split].
  - pose proof (row1_tangent _ _ 0 0 0 Kdt a b c q _ _ _ _ _ _ _ _ He Hv x y g r) as D.
    replace (Dxx 0 0 0 a b (2 * c)) with a in D by (unfold Dxx; ring).
    refine (dlim_ext _ _ _ _ _ D). intros t. rewrite Epc. unfold eta, E1, E2, E3, Q, Dxx. ring.
  - pose proof (row2_tangent _ _ 0 0 0 Kdt a b c q _ _ _ _ _ _ _ _ He Hv x y g r) as D.
    replace (Dzz 0 0 0 a b (2 * c)) with b in D by (unfold Dzz; ring).
    refine (dlim_ext _ _ _ _ _ D). intros t. rewrite Epc. unfold eta, E1, E2, E3, Q, Dzz. ring.
  - pose proof (row3_tangent _ 0 0 0 a b c q _ _ _ _ He x y g r) as D.
    replace (Dxz 0 0 0 a b (2 * c)) with c in D by (unfold Dxz; field).
    refine (dlim_ext _ _ _ _ _ D). intros t. unfold eta, E1, E2, E3, Q, Dxz. field.
Qed.
Print Assumptions C101_tangent_operator.

(** Transversely isotropic case: any viscosity and plastic divergence with total
    derivatives; the stress is [2 eta] times the strain rate rotated by the director. *)
Theorem C101_tangent_operator_anisotropic : forall (eta dv : R -> R -> R -> R -> R) A d1 d2 Kdt a b c q e1 e2 e3 e4 v1 v2 v3 v4,
  total_derivative eta a b c q e1 e2 e3 e4 -> total_derivative dv a b c q v1 v2 v3 v4 ->
  forall x y g r,
    let E1 t := a + t * x in let E2 t := b + t * y in let E3 t := c + t * (g / 2) in let Q t := q + t * r in
    let et t := eta (E1 t) (E2 t) (E3 t) (Q t) in let pc t := Q t + Kdt * dv (E1 t) (E2 t) (E3 t) (Q t) in
    derivable_pt_lim (fun t => 2 * et t * (E1 t * (1 - A * d1) + E2 t * A * d1 - 2 * E3 t * A * d2) - pc t) 0
      (dot4 (row1 A d1 d2 (eta a b c q) (Dxx A d1 d2 a b (2 * c)) e1 e2 (e3 / 2) e4 Kdt v1 v2 (v3 / 2) v4) x y g r - r) /\
    derivable_pt_lim (fun t => 2 * et t * (E2 t * (1 - A * d1) + E1 t * A * d1 + 2 * E3 t * A * d2) - pc t) 0
      (dot4 (row2 A d1 d2 (eta a b c q) (Dzz A d1 d2 a b (2 * c)) e1 e2 (e3 / 2) e4 Kdt v1 v2 (v3 / 2) v4) x y g r - r) /\
    derivable_pt_lim (fun t => 2 * et t * (- E1 t * A * d2 + E2 t * A * d2 + 2 * E3 t * (A * (d1 - / 2) + / 2))) 0
      (dot4 (row3 A d1 d2 (eta a b c q) (Dxz A d1 d2 a b (2 * c)) e1 e2 (e3 / 2) e4) x y g r).
Proof.
  intros eta dv A d1 d2 Kdt a b c q e1 e2 e3 e4 v1 v2 v3 v4 He Hv x y g r. cbv zeta. split; [|split].
  - exact (row1_tangent _ _ A d1 d2 Kdt a b c q _ _ _ _ _ _ _ _ He Hv x y g r).
  - exact (row2_tangent _ _ A d1 d2 Kdt a b c q _ _ _ _ _ _ _ _ He Hv x y g r).
  - exact (row3_tangent _ A d1 d2 a b c q _ _ _ _ He x y g r).
Qed.
Print Assumptions C101_tangent_operator_anisotropic.

(** With the finite perturbation of the code: the difference is the slope (halved for
    the shear, because the unknown is Gxz = 2 Exz) at a state inside the perturbed
    interval, so it is exact when the slope is constant. *)
Theorem C101_finite_perturbation : forall s h val a b c q l dv, 0 < h ->
  (forall p x, In p l -> is_present p -> - h <= x <= h -> derivable_pt_lim (fun y => at_shift s (val p) y a b c q) x (dv p x)) ->
  exists xi, - h < xi < h /\ two_sided s h val a b c q l = present l (fun p => dv p xi) * (match s with Sxz => / 2 | _ => 1 end).
Proof. exact two_sided_mean_value. Qed.
Print Assumptions C101_finite_perturbation.

(** The perturbation is positive at every state, so no division by zero. *)
Theorem C101_perturbation_positive : forall tol x, 0 < tol -> 0 < pert tol x.
Proof.
  intros tol x Ht. unfold pert. pose proof (Rabs_pos x).
  assert (0 <= tol * Rabs x) by (apply Rmult_le_pos; lra). assert (0 < tol / 10 ^ 10) by (apply Rdiv_lt_0_compat; [exact Ht|apply pow_lt; lra]). lra.
Qed.
Print Assumptions C101_perturbation_positive.

(** The averages are those of the rheology. *)
Theorem C101_average_is_the_rheology_average : forall avg l v,
  mean avg l v = MatGridModel.cell_eta (match avg with Arithmetic => 0 | Harmonic => 1 | Geometric => 2 end)%nat (map (fun p => (frac p, v p)) l).
Proof. intros. rewrite mean_is_cell_eta. now destruct avg. Qed.
Print Assumptions C101_average_is_the_rheology_average.

(** Two phases, one with a viscosity varying with Exx and the pressure, and a
    dilation depending on Exz. *)
Definition ph_a : phase := Phase (/ 4) (fun a b c q => 1 + a * a) (fun a b c q => c) (fun _ _ _ _ => 1) 5.
Definition ph_b : phase := Phase (3 / 4) (fun a b c q => 3 + q) (fun a b c q => 0) (fun _ _ _ _ => 1) 4.
Lemma present_ab p : p = ph_a \/ p = ph_b -> is_present p.
Proof. intros [-> | ->]; unfold is_present, ph_a, ph_b; cbn [frac]; rewrite Rabs_pos_eq by lra; lra. Qed.
Definition e_ab (p : phase) : R * R * R * R := if Req_EM_T (frac p) (/ 4) then (2 * 2, 0, 0, 0) else (0, 0, 0, 1).
Definition v_ab (p : phase) : R * R * R * R := if Req_EM_T (frac p) (/ 4) then (0, 0, 1, 0) else (0, 0, 0, 0).
Lemma sum_ab v : present [ph_a; ph_b] v = / 4 * v ph_a + 3 / 4 * v ph_b.
Proof.
  cbn [present]. pose proof (present_ab ph_a (or_introl eq_refl)) as A. pose proof (present_ab ph_b (or_intror eq_refl)) as B. unfold is_present in A, B.
  destruct (Rlt_dec (/ 10 ^ 13) (Rabs (frac ph_a))); [|contradiction]. destruct (Rlt_dec (/ 10 ^ 13) (Rabs (frac ph_b))); [|contradiction]. cbn [frac ph_a ph_b]. ring.
Qed.
Example C101_ex : present [ph_a; ph_b] (fun _ => 1) = 1 /\
  (forall p, In p [ph_a; ph_b] -> is_present p -> 0 < frac p /\ 0 < p_eta p 2 3 5 1 /\ p_ref p = p_eta p 2 3 5 1 /\
     total_derivative (p_eta p) 2 3 5 1 (e1_of (e_ab p)) (e2_of (e_ab p)) (e3_of (e_ab p)) (e4_of (e_ab p)) /\
     total_derivative (p_divp p) 2 3 5 1 (e1_of (v_ab p)) (e2_of (v_ab p)) (e3_of (v_ab p)) (e4_of (v_ab p))) /\
  mean Arithmetic [ph_a; ph_b] (fun p => p_eta p 2 3 5 1) = 17 / 4.
Proof.
  split; [rewrite sum_ab; lra|]. split; [|unfold mean; rewrite sum_ab; cbn; lra].
  intros p Hp _. cbn [In] in Hp. destruct Hp as [<- | [<- | []]]; (split; [cbn; lra|]); (split; [cbn; lra|]); (split; [cbn; lra|]).
  - unfold e_ab, v_ab. cbn [frac ph_a]. destruct (Req_EM_T (/ 4) (/ 4)) as [_|N]; [|lra]. unfold e1_of, e2_of, e3_of, e4_of. cbn [fst snd]. split; intros x y z r; cbn [p_eta p_divp ph_a].
    + apply dlim_ext with (g := fun t => 1 + (2 + t * x) * (2 + t * x)); [reflexivity|].
      apply dlim_eq with (0 + (x * (2 + 0 * x) + (2 + 0 * x) * x)); [ring|]. apply dlim_plus; [apply derivable_pt_lim_const|].
      apply (derivable_pt_lim_mult (fun t => 2 + t * x) (fun t => 2 + t * x)); apply dlim_affine.
    + eapply dlim_eq; [|apply dlim_affine]. ring.
  - unfold e_ab, v_ab. cbn [frac ph_b]. destruct (Req_EM_T (3 / 4) (/ 4)) as [N|_]; [lra|]. unfold e1_of, e2_of, e3_of, e4_of. cbn [fst snd]. split; intros x y z r; cbn [p_eta p_divp ph_b].
    + apply dlim_ext with (g := fun t => 4 + t * r); [intros; ring|]. eapply dlim_eq; [|apply dlim_affine]. ring.
    + eapply dlim_eq; [|apply derivable_pt_lim_const]. ring.
Qed.

(** Known boundary of the statement: the tangent is built with the derivative of the
    pressure correction [K dt div_pl], but a point in the tensile cap of the rheology
    reports a plastic divergence without correcting the pressure (RheologyDensity.c,
    Pcorr = P there), which the hypothesis on [pc] excludes. *)

(** ** C102: the assembled Newton rows *)

(** Let the boundary types be those of one of the two templates and all nodes within
    two cells be rock, let the tangent operators be the derivatives of the stresses
    (C101), and let the surface stabilisation of the matrix agree with that of the
    residual. Then the row of a Vx (Vz) unknown applied to any increment [d] of the
    unknowns is the derivative of the residual along [d]. *)
Theorem C102_newton_row_x : forall k m w eu ev ep d ft L ix iz,
  tags_ok m -> (3 <= nx m)%Z -> path m eu ev ep d ft -> tangent_ok m w L (ft 0) ->
  perx w = periodic k -> wall_shear_free_of_p k m w -> rock k m ix iz -> jx_corr m w ix iz = x_corr m ix iz ->
  (0 < ix < nx m - 1 \/ ix = 0 /\ k = SimpleShear)%Z -> (0 < iz < nz m)%Z ->
  derivable_pt_lim (fun t => jx_residual m w ix iz L (ft t)) 0 (row_dot eu ev ep (jx_row m w ix iz) d).
Proof.
  intros k m w eu ev ep d ft L ix iz T N3 PA TG PX WS RK EC Hx Hz.
  apply (x_template k m w eu ev ep d ft L); auto. pose proof (ok_nx m T). lia.
Qed.
Print Assumptions C102_newton_row_x.

Theorem C102_newton_row_z : forall k m w eu ev ep d ft L ix iz,
  tags_ok m -> (3 <= nx m)%Z -> path m eu ev ep d ft -> tangent_ok m w L (ft 0) ->
  perx w = periodic k -> wall_shear_free_of_p k m w -> rock k m ix iz -> jz_corr m w ix iz = z_corr m ix iz ->
  (0 < ix < nx m)%Z -> (0 < iz < nz m - 1)%Z ->
  derivable_pt_lim (fun t => jz_residual m w ix iz L (ft t)) 0 (row_dot eu ev ep (jz_row m w ix iz) d).
Proof.
  intros k m w eu ev ep d ft L ix iz T N3 PA TG PX WS RK EC Hx Hz.
  apply (z_template k m w eu ev ep d ft L); auto. lia.
Qed.
Print Assumptions C102_newton_row_z.

(** The hypothesis [tangent_ok] from the finite differences: isotropic material with
    phases [cells c] at the centres and [verts v] at the vertices. *)
Definition iso_law (avg : averaging) (Kdt : Z -> R) (cells verts : Z -> list phase) : law :=
  let eta l Exx Ezz G P := mean avg l (fun p => p_eta p Exx Ezz (G / 2) P) in {|
  l_sxx := fun c Exx Ezz G P => 2 * eta (cells c) Exx Ezz G P * Exx;
  l_szz := fun c Exx Ezz G P => 2 * eta (cells c) Exx Ezz G P * Ezz;
  l_pc := fun c Exx Ezz G P => present (cells c) (fun p => P + Kdt c * p_divp p Exx Ezz (G / 2) P);
  l_sxz := fun v Exx Ezz G P => 2 * eta (verts v) Exx Ezz G P * (G / 2) |}.
(** Smooth phases whose stored viscosities are those of the state. *)
Definition smooth_phases (l : list phase) (a b c q : R) : Prop :=
  present l (fun _ => 1) = 1 /\ exists e v, forall p, In p l -> is_present p -> 0 < frac p /\ 0 < p_eta p a b c q /\ p_ref p = p_eta p a b c q /\
     total_derivative (p_eta p) a b c q (e1_of (e p)) (e2_of (e p)) (e3_of (e p)) (e4_of (e p)) /\
     total_derivative (p_divp p) a b c q (e1_of (v p)) (e2_of (v p)) (e3_of (v p)) (e4_of (v p)).
Lemma tends_unique F l l' : tends F l -> tends F l' -> l = l'.
Proof.
  intros H H'. destruct (Req_dec l l') as [|N]; [assumption|exfalso].
  destruct (H (Rabs (l - l') / 2)) as (d1 & p1 & H1). { apply Rdiv_lt_0_compat; [apply Rabs_pos_lt; lra|lra]. }
  destruct (H' (Rabs (l - l') / 2)) as (d2 & p2 & H2). { apply Rdiv_lt_0_compat; [apply Rabs_pos_lt; lra|lra]. }
  set (h := Rmin d1 d2 / 2). assert (0 < h /\ h < d1 /\ h < d2) as (a & b & c).
  { unfold h. pose proof (Rmin_l d1 d2). pose proof (Rmin_r d1 d2). assert (0 < Rmin d1 d2) by (apply Rmin_glb_lt; assumption). lra. }
  specialize (H1 h ltac:(lra)). specialize (H2 h ltac:(lra)).
  assert (Rabs (l - l') <= Rabs (F h - l) + Rabs (F h - l')).
  { replace (l - l') with (- (F h - l) + (F h - l')) by ring. eapply Rle_trans; [apply Rabs_triang|]. rewrite Rabs_Ropp. lra. }
  lra.
Qed.

Theorem C102_tangent_from_finite_differences : forall avg m w Kdt cells verts f,
  (forall c, air (tp m c) = false -> let a := nExx m f c in let b := nEzz m f c in let g := nGxz m w f c / 2 in let q := fp f c in let l := cells c in
     smooth_phases l a b g q /\
     let et := mean avg l (fun p => p_eta p a b g q) in
     exists e1 e2 e3 e4 v1 v2 v3 v4,
       tends (fun h => fd_eta avg et Sxx h a b g q l) e1 /\ tends (fun h => fd_eta avg et Szz h a b g q l) e2 /\
       tends (fun h => fd_eta avg et Sxz h a b g q l) e3 /\ tends (fun h => fd_eta avg et Sp h a b g q l) e4 /\
       tends (fun h => fd_divp Sxx h a b g q l) v1 /\ tends (fun h => fd_divp Szz h a b g q l) v2 /\
       tends (fun h => fd_divp Sxz h a b g q l) v3 /\ tends (fun h => fd_divp Sp h a b g q l) v4 /\
       (j11 w c, j12 w c, j13 w c, j14 w c) = row1 0 0 0 et a e1 e2 e3 e4 (Kdt c) v1 v2 v3 v4 /\
       (j21 w c, j22 w c, j23 w c, j24 w c) = row2 0 0 0 et b e1 e2 e3 e4 (Kdt c) v1 v2 v3 v4) ->
  (forall c, tg m c <> 30%Z -> let a := vExx m w f c in let b := vEzz m w f c in let g := vGxz m f c / 2 in let q := vP m w f c in let l := verts c in
     smooth_phases l a b g q /\
     let et := mean avg l (fun p => p_eta p a b g q) in
     exists e1 e2 e3 e4,
       tends (fun h => fd_eta avg et Sxx h a b g q l) e1 /\ tends (fun h => fd_eta avg et Szz h a b g q l) e2 /\
       tends (fun h => fd_eta avg et Sxz h a b g q l) e3 /\ tends (fun h => fd_eta avg et Sp h a b g q l) e4 /\
       (j31 w c, j32 w c, j33 w c, j34 w c) = row3 0 0 0 et g e1 e2 e3 e4) ->
  tangent_ok m w (iso_law avg Kdt cells verts) f.
Proof.
  intros avg m w Kdt cells verts f HC HV.
  assert (Ed : forall r (j1 j2 j3 j4 x y g p : R), (j1, j2, j3, j4) = r -> dot4 r x y g p = j1 * x + j2 * y + j3 * g + j4 * p) by (intros r j1 j2 j3 j4 x y g p <-; reflexivity).
  split.
  - intros c Hc x y g r. destruct (HC c Hc) as ((Hs & e & v & He) & e1 & e2 & e3 & e4 & v1 & v2 & v3 & v4 & t1 & t2 & t3 & t4 & s1 & s2 & s3 & s4 & R1 & R2).
    destruct (C101_tangent_operator avg (cells c) (Kdt c) _ _ _ _ e v Hs He) as (e1' & e2' & e3' & e4' & v1' & v2' & v3' & v4' & t1' & t2' & t3' & t4' & s1' & s2' & s3' & s4' & D).
    pose proof (tends_unique _ _ _ t1 t1'). pose proof (tends_unique _ _ _ t2 t2'). pose proof (tends_unique _ _ _ t3 t3'). pose proof (tends_unique _ _ _ t4 t4').
    pose proof (tends_unique _ _ _ s1 s1'). pose proof (tends_unique _ _ _ s2 s2'). pose proof (tends_unique _ _ _ s3 s3'). pose proof (tends_unique _ _ _ s4 s4'). subst e1' e2' e3' e4' v1' v2' v3' v4'.
    destruct (D x y g r) as (D1 & _ & _). rewrite (Ed _ _ _ _ _ _ _ _ _ R1) in D1.
    cbn [l_sxx l_pc iso_law]. refine (dlim_ext _ _ _ _ _ (dlim_eq _ _ _ _ _ D1)); [|ring].
    intros t. replace ((nGxz m w f c + t * g) / 2) with (nGxz m w f c / 2 + t * (g / 2)) by field. reflexivity.
  - intros c Hc x y g r. destruct (HC c Hc) as ((Hs & e & v & He) & e1 & e2 & e3 & e4 & v1 & v2 & v3 & v4 & t1 & t2 & t3 & t4 & s1 & s2 & s3 & s4 & R1 & R2).
    destruct (C101_tangent_operator avg (cells c) (Kdt c) _ _ _ _ e v Hs He) as (e1' & e2' & e3' & e4' & v1' & v2' & v3' & v4' & t1' & t2' & t3' & t4' & s1' & s2' & s3' & s4' & D).
    pose proof (tends_unique _ _ _ t1 t1'). pose proof (tends_unique _ _ _ t2 t2'). pose proof (tends_unique _ _ _ t3 t3'). pose proof (tends_unique _ _ _ t4 t4').
    pose proof (tends_unique _ _ _ s1 s1'). pose proof (tends_unique _ _ _ s2 s2'). pose proof (tends_unique _ _ _ s3 s3'). pose proof (tends_unique _ _ _ s4 s4'). subst e1' e2' e3' e4' v1' v2' v3' v4'.
    destruct (D x y g r) as (_ & D1 & _). rewrite (Ed _ _ _ _ _ _ _ _ _ R2) in D1.
    cbn [l_szz l_pc iso_law]. refine (dlim_ext _ _ _ _ _ (dlim_eq _ _ _ _ _ D1)); [|ring].
    intros t. replace ((nGxz m w f c + t * g) / 2) with (nGxz m w f c / 2 + t * (g / 2)) by field. reflexivity.
  - intros c Hc x y g r. destruct (HV c Hc) as ((Hs & e & v & He) & e1 & e2 & e3 & e4 & t1 & t2 & t3 & t4 & R1).
    destruct (C101_tangent_operator avg (verts c) 0 _ _ _ _ e v Hs He) as (e1' & e2' & e3' & e4' & v1' & v2' & v3' & v4' & t1' & t2' & t3' & t4' & s1' & s2' & s3' & s4' & D).
    pose proof (tends_unique _ _ _ t1 t1'). pose proof (tends_unique _ _ _ t2 t2'). pose proof (tends_unique _ _ _ t3 t3'). pose proof (tends_unique _ _ _ t4 t4'). subst e1' e2' e3' e4'.
    destruct (D x y g r) as (_ & _ & D1). rewrite (Ed _ _ _ _ _ _ _ _ _ R1) in D1.
    cbn [l_sxz iso_law]. refine (dlim_ext _ _ _ _ _ (dlim_eq _ _ _ _ _ D1)); [|ring].
    intros t. replace ((vGxz m f c + t * g) / 2) with (vGxz m f c / 2 + t * (g / 2)) by field. reflexivity.
Qed.
Print Assumptions C102_tangent_from_finite_differences.
