(** Property theorems C06-C07. *)
From Coq Require Import ZArith Reals List Lra.
From Verif Require Import ParamModel OptionsModel OptionsProofs.
Import ListNotations.

(** *** C06 *)
Theorem C06_switches_coherent : forall s s', consequences s = Val s' -> coherent s'.
Proof. exact consequences_coherent. Qed.
Print Assumptions C06_switches_coherent.

Theorem C06_stops_iff_bad_stencil : forall s, consequences s = Stop <-> ~ stencil_ok s.
Proof. exact consequences_stop_iff. Qed.
Print Assumptions C06_stops_iff_bad_stencil.

Theorem C06_coherent_input_unchanged : forall s, coherent s -> consequences s = Val s.
Proof. exact consequences_fixpoint. Qed.
Print Assumptions C06_coherent_input_unchanged.

Theorem C06_user_values_kept : forall s s', consequences s = Val s' ->
  (interp_stencil s' = interp_stencil s /\ shear_style s' = shear_style s /\
   anisotropy s' = anisotropy s /\ newton s' = newton s /\ others s' = others s /\
   (shear_style s <> 0 -> shear_style s <> 1 -> periodic_x s' = periodic_x s) /\
   (anisotropy s <> 1 -> finite_strain s' = finite_strain s) /\
   (newton s <> 0 -> picard2newton s' = picard2newton s) /\
   (newton s <> 1 -> line_search s' = line_search s) /\
   (lin_solver s <> 0 -> newton s <> 1 -> anisotropy s <> 1 -> lin_solver s' = lin_solver s))%Z.
Proof. exact consequences_frame. Qed.
Print Assumptions C06_user_values_kept.

Example C06_ex : consequences (mkswitches 9 1 0 1 0 1 1 0 0 [7%Z]) =
  Val (mkswitches 9 1 1 1 1 1 1 1 2 [7%Z]).
Proof. reflexivity. Qed.

(** *** C07 *)
Theorem C07_input_divisors_coherent : forall eta L V T q,
  (0 < eta -> 0 < L -> 0 < V -> 0 < T ->
  divisor (ScaleMe eta L V T) q =
  coherent_unit (mass_unit eta L V) L (L / V) T (dimension_of q))%R.
Proof. exact divisor_coherent. Qed.
Print Assumptions C07_input_divisors_coherent.

Theorem C07_derived_units_coherent : forall eta L V T,
  (0 < eta -> 0 < L -> 0 < V -> 0 < T ->
  let s := ScaleMe eta L V T in
  let u d := coherent_unit (mass_unit eta L V) L (L / V) T d in
  s_m s = u (mkdim 1 0 0 0) /\ s_F s = u (mkdim 1 1 (-2) 0) /\
  s_J s = u (mkdim 1 2 (-2) 0) /\ s_W s = u (mkdim 1 2 (-3) 0) /\
  s_rhoE s = u (mkdim 1 (-1) (-2) 0))%R.
Proof. exact derived_units. Qed.
Print Assumptions C07_derived_units_coherent.

Theorem C07_momentum_form : forall eta L V T dtau dx rho g,
  (0 < eta -> 0 < L -> 0 < V -> 0 < T -> dx <> 0 ->
  let s := ScaleMe eta L V T in
  (dtau / dx + rho * g = 0 <->
   (dtau / s_S s) / (dx / s_L s) + (rho / s_rho s) * (g / s_a s) = 0))%R.
Proof. exact momentum_form_invariant. Qed.
Print Assumptions C07_momentum_form.

Theorem C07_energy_form : forall eta L V T rho Cp dT dt k d2T dx2 Qr,
  (0 < eta -> 0 < L -> 0 < V -> 0 < T -> dt <> 0 -> dx2 <> 0 ->
  let s := ScaleMe eta L V T in
  (rho * Cp * (dT / dt) = k * (d2T / dx2) + Qr <->
   (rho / s_rho s) * (Cp / s_Cp s) * ((dT / s_T s) / (dt / s_t s)) =
   (k / s_k s) * ((d2T / s_T s) / (dx2 / s_L s ^ 2)) + Qr / (s_W s / s_L s ^ 3)))%R.
Proof. exact energy_form_invariant. Qed.
Print Assumptions C07_energy_form.

Example C07_ex : (s_rho (ScaleMe 2 4 8 3) = 1 / 16 /\ 0 < 2 /\ 0 < 4 /\ 0 < 8 /\ 0 < 3)%R.
Proof. unfold ScaleMe; cbn [s_rho]. repeat split; lra. Qed.
