(** Paths of fields, strain rates along them and the contributions of the rows:
    lemmas shared by the x and z Newton rows. *)
From Coq Require Import ZArith Reals List Bool Lia Lra.
Import ListNotations.
From Verif Require Import StokesModel StokesProofs StokesX JacModel.
Local Open Scope R_scope.

(** ** Specification *)

(** The path of fields [f + t d]: unknowns move by [t d], everything prescribed or in
    the air stays, ghost nodes follow the boundary conditions. *)
Record path (m : mesh) (eu ev ep : Z -> Z) (d : Z -> R) (ft : R -> fields) : Prop := {
  path_bc : forall t, bc_ok m (ft t);
  path_inc : forall t, incremented m eu ev ep (fun i => t * d i) (ft 0) (ft t) }.

(** The tangent operators of [w] are the directional derivatives of the stresses
    [s - p] and of the shear stress of the rheology [L] at the state [f]. *)
Record tangent_ok (m : mesh) (w : newton) (L : law) (f : fields) : Prop := {
  tan_x : forall c, air (tp m c) = false -> forall a b g q,
    derivable_pt_lim (fun t => l_sxx L c (nExx m f c + t * a) (nEzz m f c + t * b) (nGxz m w f c + t * g) (fp f c + t * q)
                             - l_pc L c (nExx m f c + t * a) (nEzz m f c + t * b) (nGxz m w f c + t * g) (fp f c + t * q)) 0
      (j11 w c * a + j12 w c * b + j13 w c * g + (j14 w c - 1) * q);
  tan_z : forall c, air (tp m c) = false -> forall a b g q,
    derivable_pt_lim (fun t => l_szz L c (nExx m f c + t * a) (nEzz m f c + t * b) (nGxz m w f c + t * g) (fp f c + t * q)
                             - l_pc L c (nExx m f c + t * a) (nEzz m f c + t * b) (nGxz m w f c + t * g) (fp f c + t * q)) 0
      (j21 w c * a + j22 w c * b + j23 w c * g + (j24 w c - 1) * q);
  tan_s : forall c, tg m c <> 30%Z -> forall a b g q,
    derivable_pt_lim (fun t => l_sxz L c (vExx m w f c + t * a) (vEzz m w f c + t * b) (vGxz m f c + t * g) (vP m w f c + t * q)) 0
      (j31 w c * a + j32 w c * b + j33 w c * g + j34 w c * q) }.

(** ** Derivatives *)
Lemma dlim_ext f g x l : (forall t, f t = g t) -> derivable_pt_lim g x l -> derivable_pt_lim f x l.
Proof.
  intros E D eps He. destruct (D eps He) as [del Hd]. exists del. intros h H0 H1.
  rewrite !E. now apply Hd.
Qed.
Lemma dlim_eq f x l l' : l = l' -> derivable_pt_lim f x l -> derivable_pt_lim f x l'.
Proof. now intros ->. Qed.
Lemma dlim_affine a b x : derivable_pt_lim (fun t => a + t * b) x b.
Proof.
  apply dlim_eq with (0 + (1 * b + x * 0)); [ring|].
  apply (derivable_pt_lim_plus (fun _ => a) (fun t => t * b)); [apply derivable_pt_lim_const|].
  apply (derivable_pt_lim_mult (fun t => t) (fun _ => b)); [apply derivable_pt_lim_id|apply derivable_pt_lim_const].
Qed.
Lemma dlim_scal f x l a : derivable_pt_lim f x l -> derivable_pt_lim (fun t => f t * a) x (l * a).
Proof.
  intros D. apply dlim_eq with (l * a + f x * 0); [ring|].
  apply (derivable_pt_lim_mult f (fun _ => a)); [exact D|apply derivable_pt_lim_const].
Qed.
Lemma dlim_plus f g x l l' : derivable_pt_lim f x l -> derivable_pt_lim g x l' -> derivable_pt_lim (fun t => f t + g t) x (l + l').
Proof. apply (derivable_pt_lim_plus f g). Qed.
Lemma dlim_minus f g x l l' : derivable_pt_lim f x l -> derivable_pt_lim g x l' -> derivable_pt_lim (fun t => f t - g t) x (l - l').
Proof. apply (derivable_pt_lim_minus f g). Qed.
Lemma dlim_div f x l a : derivable_pt_lim f x l -> derivable_pt_lim (fun t => f t / a) x (l / a).
Proof. intros D. unfold Rdiv. now apply dlim_scal. Qed.

Section Path.
Variables (m : mesh) (w : newton) (eu ev ep : Z -> Z) (d : Z -> R) (ft : R -> fields).
Hypothesis T : tags_ok m.
Hypothesis PA : path m eu ev ep d ft.
Notation f := (ft 0).
Notation Dl := (delta (ft 0) (ft 1)).
Notation con := (contrib m eu ev ep d).
Notation third := (cp m * OOP m / 3).

Lemma path_unit : incremented m eu ev ep d (ft 0) (ft 1).
Proof.
  destruct (path_inc _ _ _ _ _ _ PA 1) as [a b c e g h i]. constructor; auto; cbv beta in *.
  - intros k H. rewrite (a k H). ring.
  - intros k H. rewrite (c k H). ring.
  - intros k H. destruct (g k H) as [-> ->]. split; ring.
Qed.
Lemma B0 : bc_ok m (ft 0). Proof. apply (path_bc _ _ _ _ _ _ PA). Qed.
Lemma B1 : bc_ok m (ft 1). Proof. apply (path_bc _ _ _ _ _ _ PA). Qed.

Ltac codes H := cbn [In] in H; repeat (destruct H as [H|H]; [symmetry in H|]); [..|contradiction H].

(** Away from ghosts the field moves linearly. *)
Lemma aff_u0 i j t : (0 <= i < nx m)%Z -> (0 <= j <= nz m)%Z -> ~ In (tu m (Ui m i j)) [11; 13]%Z ->
  fu (ft t) (Ui m i j) = fu f (Ui m i j) + t * Dl (U (Ui m i j)).
Proof.
  intros Hi Hj N. unfold delta.
  pose proof (path_inc _ _ _ _ _ _ PA t) as It. pose proof path_unit as I1.
  pose proof (path_bc _ _ _ _ _ _ PA t) as Bt.
  pose proof (ok_u m T i j Hi Hj) as C.
  assert (K : forall c, In (tu m c) [-1; 2; -2]%Z -> fu (ft t) c = fu f c + t * (fu (ft 1) c - fu f c)).
  { intros c H. rewrite (inc_u _ _ _ _ _ _ _ I1 c H). rewrite <- (inc_u _ _ _ _ _ _ _ It c H). ring. }
  assert (K0 : forall c, In (tu m c) [0; 30; 31]%Z -> fu (ft t) c = fu f c + t * (fu (ft 1) c - fu f c)).
  { intros c H. rewrite (inc_u0 _ _ _ _ _ _ _ I1 c H), (inc_u0 _ _ _ _ _ _ _ It c H). ring. }
  codes C.
  - apply K. rewrite C. cbn; tauto.
  - apply K0. rewrite C. cbn; tauto.
  - apply K. rewrite C. cbn; tauto.
  - apply K. rewrite C. cbn; tauto.
  - destruct (ok_u_east m T i j Hi Hj C) as (-> & Hj' & P).
    rewrite (bc_per_u m _ Bt j ltac:(lia) C), (bc_per_u m f B0 j ltac:(lia) C), (bc_per_u m _ B1 j ltac:(lia) C).
    apply K. rewrite P. cbn; tauto.
  - exfalso. apply N. rewrite C. cbn. tauto.
  - exfalso. apply N. rewrite C. cbn. tauto.
  - apply K0. rewrite C. cbn; tauto.
Qed.

Lemma u_not_ghost i j : (0 <= i < nx m)%Z -> (0 < j < nz m)%Z -> ~ In (tu m (Ui m i j)) [11; 13]%Z.
Proof. intros Hi Hj G. destruct (ok_u_ghost m T i j Hi ltac:(lia) G); lia. Qed.
Lemma v_not_ghost i j : (0 < i < nx m)%Z -> (0 <= j < nz m)%Z -> ~ In (tv m (Vi m i j)) [11; 13; -12]%Z.
Proof. intros Hi Hj G. destruct (ok_v_ghost m T i j ltac:(lia) Hj G); lia. Qed.

Lemma aff_u i j t : (0 <= i < nx m)%Z -> (0 <= j <= nz m)%Z ->
  fu (ft t) (Ui m i j) = fu f (Ui m i j) + t * Dl (U (Ui m i j)).
Proof.
  intros Hi Hj. pose proof (ok_nz m T) as Hnz.
  destruct (in_dec Z.eq_dec (tu m (Ui m i j)) [11; 13]%Z) as [G|G]; [|now apply aff_u0].
  pose proof (path_bc _ _ _ _ _ _ PA t) as Bt.
  destruct (ok_u_ghost m T i j Hi Hj G) as [-> | ->].
  - pose proof (aff_u0 i 1 t Hi ltac:(lia) (u_not_ghost i 1 Hi ltac:(lia))) as E. unfold delta in *.
    cbn [In] in G. destruct G as [G|[G|[]]]; symmetry in G.
    + pose proof (proj2 (bc_S m _ Bt i Hi) G). pose proof (proj2 (bc_S m _ B0 i Hi) G). pose proof (proj2 (bc_S m _ B1 i Hi) G).
      nra.
    + rewrite (proj1 (bc_S m _ Bt i Hi) G), (proj1 (bc_S m _ B0 i Hi) G), (proj1 (bc_S m _ B1 i Hi) G). exact E.
  - pose proof (aff_u0 i (nz m - 1) t Hi ltac:(lia) (u_not_ghost i (nz m - 1) Hi ltac:(lia))) as E. unfold delta in *.
    cbn [In] in G. destruct G as [G|[G|[]]]; symmetry in G.
    + pose proof (proj2 (bc_N m _ Bt i Hi) G). pose proof (proj2 (bc_N m _ B0 i Hi) G). pose proof (proj2 (bc_N m _ B1 i Hi) G).
      nra.
    + rewrite (proj1 (bc_N m _ Bt i Hi) G), (proj1 (bc_N m _ B0 i Hi) G), (proj1 (bc_N m _ B1 i Hi) G). exact E.
Qed.

Lemma aff_v0 i j t : (0 <= i <= nx m)%Z -> (0 <= j < nz m)%Z -> ~ In (tv m (Vi m i j)) [11; 13; -12]%Z ->
  fv (ft t) (Vi m i j) = fv f (Vi m i j) + t * Dl (V (Vi m i j)).
Proof.
  intros Hi Hj N. unfold delta.
  pose proof (path_inc _ _ _ _ _ _ PA t) as It. pose proof path_unit as I1.
  pose proof (ok_v m T i j Hi Hj) as C.
  assert (K : forall c, In (tv m c) [-1; 2]%Z -> fv (ft t) c = fv f c + t * (fv (ft 1) c - fv f c)).
  { intros c H. rewrite (inc_v _ _ _ _ _ _ _ I1 c H). rewrite <- (inc_v _ _ _ _ _ _ _ It c H). ring. }
  assert (K0 : forall c, In (tv m c) [0; 30; 31]%Z -> fv (ft t) c = fv f c + t * (fv (ft 1) c - fv f c)).
  { intros c H. rewrite (inc_v0 _ _ _ _ _ _ _ I1 c H), (inc_v0 _ _ _ _ _ _ _ It c H). ring. }
  codes C; try (exfalso; apply N; rewrite C; cbn; tauto); try (apply K; rewrite C; cbn; tauto); apply K0; rewrite C; cbn; tauto.
Qed.

Lemma aff_v i j t : (0 <= i <= nx m)%Z -> (0 <= j < nz m)%Z ->
  fv (ft t) (Vi m i j) = fv f (Vi m i j) + t * Dl (V (Vi m i j)).
Proof.
  intros Hi Hj. pose proof (ok_nx m T) as Hnx.
  destruct (in_dec Z.eq_dec (tv m (Vi m i j)) [11; 13; -12]%Z) as [G|G]; [|now apply aff_v0].
  pose proof (path_bc _ _ _ _ _ _ PA t) as Bt.
  pose proof (aff_v0 1 j t ltac:(lia) Hj (v_not_ghost 1 j ltac:(lia) Hj)) as E1.
  pose proof (aff_v0 (nx m - 1) j t ltac:(lia) Hj (v_not_ghost (nx m - 1) j ltac:(lia) Hj)) as E2.
  unfold delta in *.
  destruct (ok_v_ghost m T i j Hi Hj G) as [-> | ->].
  - cbn [In] in G. destruct G as [G|[G|[G|[]]]]; symmetry in G;
      destruct (bc_W m _ Bt j Hj) as (a1 & a2 & a3); destruct (bc_W m _ B0 j Hj) as (b1 & b2 & b3); destruct (bc_W m _ B1 j Hj) as (c1 & c2 & c3).
    + specialize (a2 G); specialize (b2 G); specialize (c2 G). nra.
    + now rewrite (a1 G), (b1 G), (c1 G).
    + now rewrite (a3 G), (b3 G), (c3 G).
  - cbn [In] in G. destruct G as [G|[G|[G|[]]]]; symmetry in G;
      destruct (bc_E m _ Bt j Hj) as (a1 & a2 & a3); destruct (bc_E m _ B0 j Hj) as (b1 & b2 & b3); destruct (bc_E m _ B1 j Hj) as (c1 & c2 & c3).
    + specialize (a2 G); specialize (b2 G); specialize (c2 G). nra.
    + now rewrite (a1 G), (b1 G), (c1 G).
    + now rewrite (a3 G), (b3 G), (c3 G).
Qed.

(** Changes at ghosts and walls. *)
Lemma D_fixed_u c : In (tu m c) [0; 30; 31]%Z -> Dl (U c) = 0.
Proof. intros H. unfold delta. rewrite (inc_u0 _ _ _ _ _ _ _ path_unit c H). ring. Qed.
Lemma D_fixed_v c : In (tv m c) [0; 30; 31]%Z -> Dl (V c) = 0.
Proof. intros H. unfold delta. rewrite (inc_v0 _ _ _ _ _ _ _ path_unit c H). ring. Qed.
Lemma D_S i : (0 <= i < nx m)%Z ->
  (tu m (Ui m i 0) = 13%Z -> Dl (U (Ui m i 0)) = Dl (U (Ui m i 1))) /\ (tu m (Ui m i 0) = 11%Z -> Dl (U (Ui m i 0)) = - Dl (U (Ui m i 1))).
Proof.
  intros Hi. destruct (bc_S m _ B0 i Hi) as [a b], (bc_S m _ B1 i Hi) as [a' b']. unfold delta. split; intros G.
  - rewrite (a G), (a' G). ring.
  - specialize (b G). specialize (b' G). lra.
Qed.
Lemma D_N i : (0 <= i < nx m)%Z ->
  (tu m (Ui m i (nz m)) = 13%Z -> Dl (U (Ui m i (nz m))) = Dl (U (Ui m i (nz m - 1)))) /\
  (tu m (Ui m i (nz m)) = 11%Z -> Dl (U (Ui m i (nz m))) = - Dl (U (Ui m i (nz m - 1)))).
Proof.
  intros Hi. destruct (bc_N m _ B0 i Hi) as [a b], (bc_N m _ B1 i Hi) as [a' b']. unfold delta. split; intros G.
  - rewrite (a G), (a' G). ring.
  - specialize (b G). specialize (b' G). lra.
Qed.
Lemma D_W j : (0 <= j < nz m)%Z ->
  (tv m (Vi m 0 j) = 13%Z -> Dl (V (Vi m 0 j)) = Dl (V (Vi m 1 j))) /\ (tv m (Vi m 0 j) = 11%Z -> Dl (V (Vi m 0 j)) = - Dl (V (Vi m 1 j))) /\
  (tv m (Vi m 0 j) = (-12)%Z -> Dl (V (Vi m 0 j)) = Dl (V (Vi m (nx m - 1) j))).
Proof.
  intros Hj. destruct (bc_W m _ B0 j Hj) as (a & b & c), (bc_W m _ B1 j Hj) as (a' & b' & c'). unfold delta. repeat split; intros G.
  - rewrite (a G), (a' G). ring.
  - specialize (b G). specialize (b' G). lra.
  - rewrite (c G), (c' G). ring.
Qed.
Lemma D_E j : (0 <= j < nz m)%Z ->
  (tv m (Vi m (nx m) j) = 13%Z -> Dl (V (Vi m (nx m) j)) = Dl (V (Vi m (nx m - 1) j))) /\
  (tv m (Vi m (nx m) j) = 11%Z -> Dl (V (Vi m (nx m) j)) = - Dl (V (Vi m (nx m - 1) j))) /\
  (tv m (Vi m (nx m) j) = (-12)%Z -> Dl (V (Vi m (nx m) j)) = Dl (V (Vi m 1 j))).
Proof.
  intros Hj. destruct (bc_E m _ B0 j Hj) as (a & b & c), (bc_E m _ B1 j Hj) as (a' & b' & c'). unfold delta. repeat split; intros G.
  - rewrite (a G), (a' G). ring.
  - specialize (b G). specialize (b' G). lra.
  - rewrite (c G), (c' G). ring.
Qed.
Lemma D_per j : (0 <= j <= nz m)%Z -> tu m (Ui m (nx m - 1) j) = (-12)%Z -> Dl (U (Ui m (nx m - 1) j)) = Dl (U (Ui m 0 j)).
Proof. intros Hj G. unfold delta. now rewrite (bc_per_u m _ B0 j Hj G), (bc_per_u m _ B1 j Hj G). Qed.

(** ** Strain rates along the path *)
Notation ex := (dex m (ft 0) (ft 1)).
Notation ez := (dez m (ft 0) (ft 1)).
Definition eX i j := ex i j - third * (ex i j + ez i j).
Definition eZ i j := ez i j - third * (ex i j + ez i j).
Definition gam i j := (Dl (U (Ui m i (j + 1))) - Dl (U (Ui m i j))) / dz m + (Dl (V (Vi m (i + 1) j)) - Dl (V (Vi m i j))) / dx m.

Lemma path_exx i j t : (0 <= i < nx m - 1)%Z -> (0 <= j < nz m - 1)%Z -> tp m (Pi m i j) = (-1)%Z ->
  exxd m (ft t) (Pi m i j) = exxd m f (Pi m i j) + t * eX i j.
Proof.
  intros Hi Hj A. unfold exxd, div_u. rewrite A. cbn [air Z.eqb Pos.eqb orb]. cbv zeta.
  rewrite !cell_dvx_eq, !cell_dvz_eq by exact Hi.
  rewrite (aff_u (i + 1) (j + 1) t), (aff_u i (j + 1) t), (aff_v (i + 1) (j + 1) t), (aff_v (i + 1) j t) by lia.
  unfold eX, dex, dez. rewrite OOP_val. unfold cp. field.
  split; [apply (ok_dz m T)|apply (ok_dx m T)].
Qed.
Lemma path_ezz i j t : (0 <= i < nx m - 1)%Z -> (0 <= j < nz m - 1)%Z -> tp m (Pi m i j) = (-1)%Z ->
  ezzd m (ft t) (Pi m i j) = ezzd m f (Pi m i j) + t * eZ i j.
Proof.
  intros Hi Hj A. unfold ezzd, div_u. rewrite A. cbn [air Z.eqb Pos.eqb orb]. cbv zeta.
  rewrite !cell_dvx_eq, !cell_dvz_eq by exact Hi.
  rewrite (aff_u (i + 1) (j + 1) t), (aff_u i (j + 1) t), (aff_v (i + 1) (j + 1) t), (aff_v (i + 1) j t) by lia.
  unfold eZ, dex, dez. rewrite OOP_val. unfold cp. field.
  split; [apply (ok_dz m T)|apply (ok_dx m T)].
Qed.
Lemma path_exz i j t : (0 <= i < nx m)%Z -> (0 <= j < nz m)%Z -> tg m (Ui m i j) <> 30%Z ->
  exz m (ft t) (Ui m i j) = exz m f (Ui m i j) + t * (/ 2 * gam i j).
Proof.
  intros Hi Hj A. unfold exz. destruct (Ui_mod m i j Hi) as [-> ->]. cbv zeta.
  change (i + j * nx m)%Z with (Ui m i j). destruct (Z.eqb_spec (tg m (Ui m i j)) 30) as [E|_]; [contradiction|].
  replace (Ui m i j + nx m)%Z with (Ui m i (j + 1)) by (unfold Ui; ring).
  replace (i + j * (nx m + 1) + 1)%Z with (Vi m (i + 1) j) by (unfold Vi; ring).
  change (i + j * (nx m + 1))%Z with (Vi m i j).
  rewrite (aff_u i (j + 1) t), (aff_u i j t), (aff_v (i + 1) j t), (aff_v i j t) by lia.
  unfold gam. field. split; [apply (ok_dx m T)|apply (ok_dz m T)].
Qed.
Lemma path_p i j t : (0 <= i < nx m - 1)%Z -> (0 <= j < nz m - 1)%Z -> tp m (Pi m i j) = (-1)%Z ->
  fp (ft t) (Pi m i j) = fp f (Pi m i j) + t * Dl (P (Pi m i j)).
Proof.
  intros Hi Hj A. destruct (inc_p _ _ _ _ _ _ _ path_unit _ A) as [E1 E2].
  destruct (inc_p _ _ _ _ _ _ _ (path_inc _ _ _ _ _ _ PA t) _ A) as [_ E3].
  unfold delta. rewrite E1. rewrite <- E3. ring.
Qed.

(** Exz at a centre: a quarter of the four vertices. *)
Definition gamn i j := / 4 * (gam i j + gam (i + 1) j + gam i (j + 1) + gam (i + 1) (j + 1)).
Lemma path_gxz i j t : (0 <= i < nx m - 1)%Z -> (0 <= j < nz m - 1)%Z -> tp m (Pi m i j) = (-1)%Z ->
  (forall i' j', (i <= i' <= i + 1)%Z -> (j <= j' <= j + 1)%Z -> tg m (Ui m i' j') <> 30%Z) ->
  nGxz m w (ft t) (Pi m i j) = nGxz m w f (Pi m i j) + t * gamn i j.
Proof.
  intros Hi Hj A G. unfold nGxz, exz_n. destruct (Pi_mod m i j Hi) as [-> ->]. cbv zeta. rewrite A. cbn [air Z.eqb Pos.eqb orb].
  change (i + j * nx m)%Z with (Ui m i j).
  replace (Ui m i j + nx m + 1)%Z with (Ui m (i + 1) (j + 1)) by (unfold Ui; ring).
  replace (Ui m i j + nx m)%Z with (Ui m i (j + 1)) by (unfold Ui; ring).
  replace (Ui m i j + 1)%Z with (Ui m (i + 1) j) by (unfold Ui; ring).
  rewrite !(proj2 (Z.eqb_neq _ _)) by (apply G; lia).
  rewrite !(path_exz _ _ t) by (try lia; apply G; lia).
  unfold gamn. field.
Qed.

(** Values at vertices: a quarter of the four cells. *)
Lemma vavg_eq C i j iw ie js jn : (0 <= i < nx m)%Z -> tg m (Ui m i j) <> 30%Z ->
  iw = (if (i =? 0)%Z then (if perx w then ncx m - 1 else 0) else i - 1)%Z ->
  ie = (if (i =? nx m - 1)%Z then (if perx w then 0 else ncx m - 1) else i)%Z ->
  js = (if (j =? 0)%Z then 0 else j - 1)%Z -> jn = (if (j =? nz m - 1)%Z then nz m - 2 else j)%Z ->
  (forall i' j', i' = iw \/ i' = ie -> j' = js \/ j' = jn -> tp m (Pi m i' j') = (-1)%Z) ->
  vavg m w C (Ui m i j) = / 4 * (C (Pi m iw js) + C (Pi m ie js) + C (Pi m iw jn) + C (Pi m ie jn)).
Proof.
  intros Hi G E1 E2 E3 E4 R. unfold vavg. destruct (Ui_mod m i j Hi) as [-> ->]. cbv zeta.
  rewrite <- E1, <- E2, <- E3, <- E4. rewrite (proj2 (Z.eqb_neq _ _) G).
  change (iw + js * ncx m)%Z with (Pi m iw js). change (ie + js * ncx m)%Z with (Pi m ie js).
  change (iw + jn * ncx m)%Z with (Pi m iw jn). change (ie + jn * ncx m)%Z with (Pi m ie jn).
  rewrite !R by tauto. reflexivity.
Qed.

(** ** Contributions *)
Lemma con_off t a : con (false, t, a) = 0.
Proof. reflexivity. Qed.
Lemma con_rhs b t a : to_rhs (type_of m t) = true -> con (b, t, a) = 0.
Proof. intros H. unfold contrib. rewrite H. destruct b; reflexivity. Qed.

(** A node of the row below (above) the wall: the entry plus what is folded into the
    node above (below) amounts to the coefficient times the true change. *)
Lemma fold_U i j j' a v : (0 <= i < nx m)%Z -> (j = 0%Z /\ j' = 1%Z \/ j = nz m /\ j' = (nz m - 1)%Z \/ (0 < j < nz m)%Z) ->
  (tu m (Ui m i j) = 13%Z -> a = 0) ->
  con (negb (tu m (Ui m i j) =? 30)%Z, U (Ui m i j), a * v) =
  a * v * Dl (U (Ui m i j)) + dirichlet (tu m (Ui m i j)) a * v * Dl (U (Ui m i j')).
Proof.
  intros Hi Hj Ha. pose proof (ok_nz m T). unfold dirichlet.
  destruct (in_dec Z.eq_dec (tu m (Ui m i j)) [11; 13]%Z) as [G|G].
  - assert (con (negb (tu m (Ui m i j) =? 30)%Z, U (Ui m i j), a * v) = 0) as ->.
    { apply con_rhs. cbn [type_of]. unfold to_rhs. cbn [In] in G. destruct G as [G|[G|[]]]; rewrite <- G; reflexivity. }
    assert (Hjj : (0 <= j <= nz m)%Z) by lia.
    pose proof (ok_u_ghost m T i j Hi Hjj G) as E.
    cbn [In] in G. destruct G as [G|[G|[]]]; symmetry in G.
    + rewrite G. cbn [Z.eqb Pos.eqb]. destruct Hj as [[-> ->]|[[-> ->]|Hj]]; [| |lia].
      * rewrite (proj2 (D_S i Hi) G). ring.
      * rewrite (proj2 (D_N i Hi) G). ring.
    + rewrite (Ha G), G. cbn [Z.eqb Pos.eqb]. ring.
  - rewrite (con_U m eu ev ep d _ _ T B0 B1 path_unit i j (a * v) Hi ltac:(lia) G).
    destruct (Z.eqb_spec (tu m (Ui m i j)) 11) as [E|E]; [exfalso; apply G; rewrite E; cbn; tauto|ring].
Qed.
Lemma fold_V i i' j a v : (0 <= j < nz m)%Z -> (i = 0%Z /\ i' = 1%Z \/ i = nx m /\ i' = (nx m - 1)%Z \/ (0 < i < nx m)%Z) ->
  (tv m (Vi m i j) = 13%Z -> a = 0) -> tv m (Vi m i j) <> (-12)%Z ->
  con (negb (tv m (Vi m i j) =? 30)%Z, V (Vi m i j), a * v) =
  a * v * Dl (V (Vi m i j)) + dirichlet (tv m (Vi m i j)) a * v * Dl (V (Vi m i' j)).
Proof.
  intros Hj Hi Ha Np. pose proof (ok_nx m T). unfold dirichlet.
  destruct (in_dec Z.eq_dec (tv m (Vi m i j)) [11; 13; -12]%Z) as [G|G].
  - assert (Hii : (0 <= i <= nx m)%Z) by lia.
    pose proof (ok_v_ghost m T i j Hii Hj G) as E.
    cbn [In] in G. destruct G as [G|[G|[G|[]]]]; symmetry in G; [| |contradiction].
    + rewrite con_rhs by (cbn [type_of]; rewrite G; reflexivity).
      rewrite G. cbn [Z.eqb Pos.eqb]. destruct Hi as [[-> ->]|[[-> ->]|Hi]]; [| |lia].
      * rewrite (proj1 (proj2 (D_W j Hj)) G). ring.
      * rewrite (proj1 (proj2 (D_E j Hj)) G). ring.
    + rewrite con_rhs by (cbn [type_of]; rewrite G; reflexivity).
      rewrite (Ha G), G. cbn [Z.eqb Pos.eqb]. ring.
  - rewrite (con_V m eu ev ep d _ _ T path_unit i j (a * v) ltac:(lia) Hj G).
    destruct (Z.eqb_spec (tv m (Vi m i j)) 11) as [E|E]; [exfalso; apply G; rewrite E; cbn; tauto|ring].
Qed.
End Path.

Lemma inv4 : inv_count (1 + 1 + 1 + 1) = / 4.
Proof. unfold inv_count. destruct (Rlt_dec 1 (1 + 1 + 1 + 1)); lra. Qed.
Lemma inv2 : inv_count (1 + 1 + 0 + 0) = / 2.
Proof. unfold inv_count. destruct (Rlt_dec 1 (1 + 1 + 0 + 0)); lra. Qed.
