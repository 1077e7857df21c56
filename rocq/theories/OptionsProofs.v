(** Specification and lemmas for switches and scaling. *)
From Coq Require Import ZArith Reals List Lra Lia Bool.
From Verif Require Import ParamModel OptionsModel.
Import ListNotations.

(** ** Switches: specification *)
Definition stencil_ok (s : switches) : Prop :=
  (interp_stencil s = 1 \/ interp_stencil s = 9)%Z.

Definition coherent (s : switches) : Prop :=
  (stencil_ok s /\
  (shear_style s = 1 -> periodic_x s = 1) /\
  (shear_style s = 0 -> periodic_x s = 0) /\
  (anisotropy s = 1 -> finite_strain s = 1) /\
  (newton s = 0 -> picard2newton s = 0) /\
  (newton s = 1 -> line_search s = 1) /\
  lin_solver s <> 0 /\
  (newton s = 1 -> lin_solver s = 2) /\
  (anisotropy s = 1 -> lin_solver s = 2))%Z.

Lemma consequences_cases : forall s,
  (stencil_ok s /\ exists s', consequences s = Val s' /\
     interp_stencil s' = interp_stencil s /\ shear_style s' = shear_style s /\
     anisotropy s' = anisotropy s /\ newton s' = newton s /\ others s' = others s /\
     periodic_x s' = (if shear_style s =? 0 then 0 else if shear_style s =? 1 then 1 else periodic_x s)%Z /\
     finite_strain s' = (if anisotropy s =? 1 then 1 else finite_strain s)%Z /\
     picard2newton s' = (if newton s =? 0 then 0 else picard2newton s)%Z /\
     line_search s' = (if newton s =? 1 then 1 else line_search s)%Z /\
     lin_solver s' = (if ((lin_solver s =? 0) || (newton s =? 1) || (anisotropy s =? 1))%bool
                      then 2 else lin_solver s)%Z)
  \/ (~ stencil_ok s /\ consequences s = Stop).
Proof.
  intros [st sh px an fs nw pn ls lin oth]. unfold consequences, stencil_ok, when; cbn.
  assert (D : ((st =? 1) = true \/ (st =? 9) = true \/ ((st =? 1) = false /\ (st =? 9) = false))%Z)
    by (destruct (st =? 1)%Z; destruct (st =? 9)%Z; auto).
  assert (Dsh : ((sh =? 1) = true /\ (sh =? 0) = false \/ (sh =? 1) = false)%Z)
    by (destruct (Z.eqb_spec sh 1); [left; subst; auto|auto]).
  assert (Hok : (negb (st =? 1) && negb (st =? 9))%Z%bool = false ->
    exists s', (if (negb (st =? 1) && negb (st =? 9))%Z%bool then Stop else
      consequences (mkswitches st sh px an fs nw pn ls lin oth)) = Val s' /\
      True) by (intros E; rewrite E; unfold consequences; cbn; rewrite E; eauto).
  clear Hok.
  destruct (negb (st =? 1) && negb (st =? 9))%Z%bool eqn:Est.
  - right. split; [|reflexivity].
    destruct D as [D|[D|[D1 D2]]]; [rewrite D in Est; discriminate|
      rewrite D in Est; rewrite andb_false_r in Est; discriminate|].
    apply Z.eqb_neq in D1, D2. tauto.
  - left. split.
    { destruct D as [D|[D|[D1 D2]]]; [left|right|]; try (apply Z.eqb_eq; assumption).
      rewrite D1, D2 in Est. discriminate. }
    clear D Est.
    eexists. split; [reflexivity|].
    destruct (an =? 1)%Z eqn:Ea; destruct (nw =? 0)%Z eqn:En0; destruct (nw =? 1)%Z eqn:En1;
      destruct (lin =? 0)%Z eqn:El;
      (destruct Dsh as [[D1 D2]|D1]; rewrite D1; [|destruct (sh =? 0)%Z eqn:D2]);
      repeat (cbn; rewrite ?D1, ?D2, ?Ea, ?En0, ?En1, ?El); repeat split; reflexivity.
Qed.

Lemma consequences_coherent : forall s s', consequences s = Val s' -> coherent s'.
Proof.
  intros s s' H. destruct (consequences_cases s) as [(Hst & s1 & E & H1)|(_ & E)].
  - rewrite H in E. inversion E; subst s1. clear E.
    destruct H1 as (A1 & A2 & A3 & A4 & A5 & A6 & A7 & A8 & A9 & A10).
    unfold coherent, stencil_ok in *. rewrite A1, A2, A3, A4, A6, A7, A8, A9, A10.
    destruct (Z.eqb_spec (shear_style s) 0); destruct (Z.eqb_spec (shear_style s) 1);
    destruct (Z.eqb_spec (anisotropy s) 1); destruct (Z.eqb_spec (newton s) 0);
    destruct (Z.eqb_spec (newton s) 1); destruct (Z.eqb_spec (lin_solver s) 0); cbn;
    repeat split; intros; lia.
  - rewrite H in E. discriminate.
Qed.

Lemma consequences_stop_iff : forall s, consequences s = Stop <-> ~ stencil_ok s.
Proof.
  intros s. destruct (consequences_cases s) as [(Hst & s1 & E & _)|(Hn & E)].
  - rewrite E. split; [discriminate|tauto].
  - tauto.
Qed.

(* coherent switches are left alone; hence the rules are idempotent *)
Lemma when_id : forall b g s, (b = true -> g s = s) -> when b g s = s.
Proof. intros [] g s H; cbn; auto. Qed.

Lemma consequences_fixpoint : forall s, coherent s -> consequences s = Val s.
Proof.
  intros s (H1 & H2 & H3 & H4 & H5 & H6 & H7 & H8 & H9).
  unfold stencil_ok in H1. unfold consequences.
  replace (negb (interp_stencil s =? 1) && negb (interp_stencil s =? 9))%Z%bool with false
    by (destruct H1 as [E|E]; rewrite E; reflexivity).
  rewrite (when_id _ _ s) by (intros E; apply Z.eqb_eq in E; apply H2 in E;
    destruct s; cbn in *; unfold set_periodic; cbn; rewrite E; reflexivity).
  rewrite (when_id _ _ s) by (intros E; apply Z.eqb_eq in E; apply H3 in E;
    destruct s; cbn in *; unfold set_periodic; cbn; rewrite E; reflexivity).
  rewrite (when_id _ _ s) by (intros E; apply Z.eqb_eq in E; apply H4 in E;
    destruct s; cbn in *; unfold set_finite; cbn; rewrite E; reflexivity).
  rewrite (when_id _ _ s) by (intros E; apply Z.eqb_eq in E; apply H5 in E;
    destruct s; cbn in *; unfold set_p2n; cbn; rewrite E; reflexivity).
  rewrite (when_id _ _ s) by (intros E; apply Z.eqb_eq in E; apply H6 in E;
    destruct s; cbn in *; unfold set_ls; cbn; rewrite E; reflexivity).
  rewrite (when_id _ _ s); [reflexivity|].
  intros E. apply orb_true_iff in E. destruct E as [E|E].
  - apply orb_true_iff in E. destruct E as [E|E]; apply Z.eqb_eq in E; [contradiction|].
    apply H8 in E. destruct s; cbn in *; unfold set_solver; cbn; rewrite E; reflexivity.
  - apply Z.eqb_eq in E. apply H9 in E.
    destruct s; cbn in *; unfold set_solver; cbn; rewrite E; reflexivity.
Qed.

(* what is not covered by a rule keeps the user's value *)
Lemma consequences_frame : forall s s', consequences s = Val s' ->
  (interp_stencil s' = interp_stencil s /\ shear_style s' = shear_style s /\
   anisotropy s' = anisotropy s /\ newton s' = newton s /\ others s' = others s /\
   (shear_style s <> 0 -> shear_style s <> 1 -> periodic_x s' = periodic_x s) /\
   (anisotropy s <> 1 -> finite_strain s' = finite_strain s) /\
   (newton s <> 0 -> picard2newton s' = picard2newton s) /\
   (newton s <> 1 -> line_search s' = line_search s) /\
   (lin_solver s <> 0 -> newton s <> 1 -> anisotropy s <> 1 -> lin_solver s' = lin_solver s))%Z.
Proof.
  intros s s' H. destruct (consequences_cases s) as [(Hst & s1 & E & H1)|(_ & E)].
  - rewrite H in E. inversion E; subst s1. clear E.
    destruct H1 as (A1 & A2 & A3 & A4 & A5 & A6 & A7 & A8 & A9 & A10).
    rewrite A6, A7, A8, A9, A10.
    repeat split; auto; intros;
    repeat match goal with H : ?a <> ?b |- _ => apply Z.eqb_neq in H; try rewrite H; clear H end;
    reflexivity.
  - rewrite H in E. discriminate.
Qed.

(** ** Scaling: specification.  Physical dimension as exponents of
    kilogram, metre, second, kelvin; the coherent unit of a dimension. *)
Open Scope R_scope.
Record dim := mkdim { d_kg : Z; d_m : Z; d_s : Z; d_K : Z }.

Definition coherent_unit (M L t T : R) (d : dim) : R :=
  powerRZ M (d_kg d) * powerRZ L (d_m d) * powerRZ t (d_s d) * powerRZ T (d_K d).

Definition dimension_of (q : quantity) : dim :=
  match q with
  | q_length      => mkdim 0 1 0 0
  | q_time        => mkdim 0 0 1 0
  | q_viscosity   => mkdim 1 (-1) (-1) 0     (* Pa s *)
  | q_rate        => mkdim 0 0 (-1) 0
  | q_stress      => mkdim 1 (-1) (-2) 0     (* Pa *)
  | q_temperature => mkdim 0 0 0 1
  | q_velocity    => mkdim 0 1 (-1) 0
  | q_diffusivity => mkdim 0 2 (-1) 0
  | q_accel       => mkdim 0 1 (-2) 0
  | q_density     => mkdim 1 (-3) 0 0
  | q_heatcap     => mkdim 0 2 (-2) (-1)     (* J/kg/K *)
  | q_conduct     => mkdim 1 1 (-3) (-1)     (* W/m/K *)
  | q_heatprod    => mkdim 1 (-1) (-3) 0     (* W/m^3 *)
  | q_expansion   => mkdim 0 0 0 (-1)
  | q_compress    => mkdim (-1) 1 2 0        (* 1/Pa *)
  | q_vpvisc      => mkdim 1 (-1) (-1) 0
  | q_gasconst    => mkdim 1 2 (-2) (-1)     (* J/K(/mol) *)
  | q_gibbs       => mkdim 1 2 (-2) 0        (* J(/mol) *)
  end.

(* the unit of mass is the one that makes eta the coherent viscosity unit *)
Definition mass_unit (eta L V : R) : R := eta * L * (L / V).

Lemma pz0 : forall x, powerRZ x 0 = 1. Proof. reflexivity. Qed.
Lemma pz1 : forall x, powerRZ x 1 = x.
Proof. intros x. change (x ^ 1 = x). ring. Qed.
Lemma pz2 : forall x, powerRZ x 2 = x * x.
Proof. intros x. change (x ^ 2 = x * x). ring. Qed.
Lemma pzm1 : forall x, powerRZ x (-1) = / x.
Proof. intros x. change (/ x ^ 1 = / x). f_equal; ring. Qed.
Lemma pzm2 : forall x, powerRZ x (-2) = / (x * x).
Proof. intros x. change (/ x ^ 2 = / (x * x)). f_equal; ring. Qed.
Lemma pzm3 : forall x, powerRZ x (-3) = / (x * x * x).
Proof. intros x. change (/ x ^ 3 = / (x * x * x)). f_equal; ring. Qed.

Lemma divisor_coherent : forall eta L V T q,
  0 < eta -> 0 < L -> 0 < V -> 0 < T ->
  divisor (ScaleMe eta L V T) q =
  coherent_unit (mass_unit eta L V) L (L / V) T (dimension_of q).
Proof.
  intros eta L V T q He HL HV HT.
  unfold coherent_unit, mass_unit, dimension_of, divisor, ScaleMe.
  destruct q; cbn [d_kg d_m d_s d_K s_eta s_L s_V s_T s_t s_a s_E s_S s_m s_rho s_F s_J s_W s_Cp s_k s_rhoE];
    rewrite ?pz0, ?pz1, ?pz2, ?pzm1, ?pzm2, ?pzm3; field; repeat split; lra.
Qed.

(* remaining derived units *)
Lemma derived_units : forall eta L V T,
  0 < eta -> 0 < L -> 0 < V -> 0 < T ->
  let s := ScaleMe eta L V T in
  let u d := coherent_unit (mass_unit eta L V) L (L / V) T d in
  s_m s = u (mkdim 1 0 0 0) /\ s_F s = u (mkdim 1 1 (-2) 0) /\
  s_J s = u (mkdim 1 2 (-2) 0) /\ s_W s = u (mkdim 1 2 (-3) 0) /\
  s_rhoE s = u (mkdim 1 (-1) (-2) 0).
Proof.
  intros eta L V T He HL HV HT.
  unfold coherent_unit, mass_unit, ScaleMe.
  repeat split; cbn [d_kg d_m d_s d_K s_eta s_L s_V s_T s_t s_a s_E s_S s_m s_rho s_F s_J s_W s_Cp s_k s_rhoE];
    rewrite ?pz0, ?pz1, ?pz2, ?pzm1, ?pzm2, ?pzm3; field; repeat split; lra.
Qed.

(* consequence: a steady momentum balance holds in SI units iff it holds in
   scaled units (stress gradient, density times gravity) *)
Lemma momentum_form_invariant : forall eta L V T dtau dx rho g,
  0 < eta -> 0 < L -> 0 < V -> 0 < T -> dx <> 0 ->
  let s := ScaleMe eta L V T in
  (dtau / dx + rho * g = 0 <->
   (dtau / s_S s) / (dx / s_L s) + (rho / s_rho s) * (g / s_a s) = 0).
Proof.
  intros eta L V T dtau dx rho g He HL HV HT Hdx s.
  assert (E : (dtau / s_S s) / (dx / s_L s) + (rho / s_rho s) * (g / s_a s)
              = (dtau / dx + rho * g) * (L * L / (eta * V))).
  { subst s. unfold ScaleMe; cbn -[pow]. field. repeat split; lra. }
  rewrite E. split; intros H.
  - rewrite H. ring.
  - assert (0 < L * L / (eta * V)).
    { apply Rdiv_lt_0_compat; apply Rmult_lt_0_compat; assumption. }
    apply Rmult_integral in H. destruct H; [assumption|lra].
Qed.

(* heat balance: rho Cp dT/dt = k d2T/dx2 + Qr *)
Lemma energy_form_invariant : forall eta L V T rho Cp dT dt k d2T dx2 Qr,
  0 < eta -> 0 < L -> 0 < V -> 0 < T -> dt <> 0 -> dx2 <> 0 ->
  let s := ScaleMe eta L V T in
  (rho * Cp * (dT / dt) = k * (d2T / dx2) + Qr <->
   (rho / s_rho s) * (Cp / s_Cp s) * ((dT / s_T s) / (dt / s_t s)) =
   (k / s_k s) * ((d2T / s_T s) / (dx2 / s_L s ^ 2)) + Qr / (s_W s / s_L s ^ 3)).
Proof.
  intros eta L V T rho Cp dT dt k d2T dx2 Qr He HL HV HT Hdt Hdx s.
  set (c := L * L / (eta * V * V)).
  assert (Hc : 0 < c).
  { unfold c. apply Rdiv_lt_0_compat; repeat apply Rmult_lt_0_compat; assumption. }
  assert (E1 : (rho / s_rho s) * (Cp / s_Cp s) * ((dT / s_T s) / (dt / s_t s))
               = (rho * Cp * (dT / dt)) * c).
  { subst s c. unfold ScaleMe; cbn -[pow]. field. repeat split; lra. }
  assert (E2 : (k / s_k s) * ((d2T / s_T s) / (dx2 / s_L s ^ 2)) + Qr / (s_W s / s_L s ^ 3)
               = (k * (d2T / dx2) + Qr) * c).
  { subst s c. unfold ScaleMe; cbn -[pow]. field. repeat split; lra. }
  rewrite E1, E2. split; intros H.
  - rewrite H. reflexivity.
  - apply Rmult_eq_reg_r in H; [assumption|lra].
Qed.
