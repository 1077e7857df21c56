(** Consequential behaviour of the input switches and the scaling units. *)
From Coq Require Import ZArith Reals List.
From Verif Require Import ParamModel.
Import ListNotations.

(** ** Switches (InputOutput.c 1225-1236).  Only the switches that the block
    reads or writes are listed individually; [others] stands for all remaining
    fields of params/Nparams, which the block does not mention. *)
Record switches := mkswitches {
  interp_stencil : Z;
  shear_style : Z;
  periodic_x : Z;
  anisotropy : Z;
  finite_strain : Z;
  newton : Z;
  picard2newton : Z;
  line_search : Z;
  lin_solver : Z;
  others : list Z
}.

Definition set_periodic v s := mkswitches (interp_stencil s) (shear_style s) v
  (anisotropy s) (finite_strain s) (newton s) (picard2newton s) (line_search s)
  (lin_solver s) (others s).
Definition set_finite v s := mkswitches (interp_stencil s) (shear_style s) (periodic_x s)
  (anisotropy s) v (newton s) (picard2newton s) (line_search s) (lin_solver s) (others s).
Definition set_p2n v s := mkswitches (interp_stencil s) (shear_style s) (periodic_x s)
  (anisotropy s) (finite_strain s) (newton s) v (line_search s) (lin_solver s) (others s).
Definition set_ls v s := mkswitches (interp_stencil s) (shear_style s) (periodic_x s)
  (anisotropy s) (finite_strain s) (newton s) (picard2newton s) v (lin_solver s) (others s).
Definition set_solver v s := mkswitches (interp_stencil s) (shear_style s) (periodic_x s)
  (anisotropy s) (finite_strain s) (newton s) (picard2newton s) (line_search s) v (others s).

Definition when (b : bool) (g : switches -> switches) (s : switches) : switches :=
  if b then g s else s.

(* InputOutput.c 1225-1236, statement by statement *)
Definition consequences (s : switches) : outcome switches :=
  if (negb (interp_stencil s =? 1) && negb (interp_stencil s =? 9))%Z%bool then Stop (* 1225 *)
  else
    let s := when (shear_style s =? 1)%Z (set_periodic 1) s in                     (* 1226 *)
    let s := when (shear_style s =? 0)%Z (set_periodic 0) s in                     (* 1227 *)
    let s := when (anisotropy s =? 1)%Z (set_finite 1) s in                        (* 1228 *)
    let s := when (newton s =? 0)%Z (set_p2n 0) s in                               (* 1231 *)
    let s := when (newton s =? 1)%Z (set_ls 1) s in                                (* 1232 *)
    let s := when ((lin_solver s =? 0) || (newton s =? 1) || (anisotropy s =? 1))%Z%bool
                  (set_solver 2) s in                                              (* 1233-1236 *)
    Val s.

(* InputOutput.c 1028-1031: irestart is forced to 0 when istep is 0 *)
Definition restart_flag (istep irestart : Z) : Z :=
  if (istep =? 0)%Z then 0%Z else irestart.

(** ** Scaling (InputOutput.c ScaleMe 1681-1695).  Reals instead of doubles;
    pow(x,2.0) and pow(x,3.0) are exact powers. *)
Open Scope R_scope.
Record scale := mkscale {
  s_eta : R; s_L : R; s_V : R; s_T : R;      (* inputs *)
  s_t : R; s_a : R; s_E : R; s_S : R; s_m : R; s_rho : R; s_F : R; s_J : R;
  s_W : R; s_Cp : R; s_k : R; s_rhoE : R
}.

Definition ScaleMe (eta L V T : R) : scale :=
  let t    := L / V in
  let a    := V / t in
  let E    := 1 / t in
  let S    := eta / t in
  let m    := S * L * t ^ 2 in
  let rho  := m / L ^ 3 in
  let F    := m * L / t ^ 2 in
  let J    := m * L ^ 2 / t ^ 2 in
  let W    := J / t in
  let Cp   := J / m / T in
  let k    := W / L / T in
  let rhoE := J / m * rho in
  mkscale eta L V T t a E S m rho F J W Cp k rhoE.

(** Divisors applied to the input parameters (InputOutput.c, line in comment). *)
Inductive quantity :=
| q_length      (* 1065-1068 xmin.. / L; 1176-1177, 1186-1189, 1220 *)
| q_time        (* 1073, 1078-1079 dt, dt_max, dt_min; 1155; 1337 tau_kin / t *)
| q_viscosity   (* 1119-1120 min_eta/max_eta / eta; 1325 eta0 *)
| q_rate        (* 1166-1167 bkg_strain_rate / E; 1323 eps0 *)
| q_stress      (* 1168 bkg_pressure, 1181-1183, 1253, 1263 G, 1276-1279, 1283, 1324, 1334-1335 / S *)
| q_temperature (* 1169 bkg_temperature, 1190, 1357 / T *)
| q_velocity    (* 1175, 1178 surf_sedirate, surf_Vinc / V *)
| q_diffusivity (* 1172 surf_diff / (L^2/t); 1338 k_chem / (L*L/t) *)
| q_accel       (* 1222-1223 gx, gz / a *)
| q_density     (* 1262 rho, 1270 drho / rho *)
| q_heatcap     (* 1264 Cp / Cp *)
| q_conduct     (* 1265 k / k *)
| q_heatprod    (* 1267 Qr / (W / L^3) *)
| q_expansion   (* 1268 alp / (1/T) *)
| q_compress    (* 1269 bet / (1/S) *)
| q_vpvisc      (* 1291 eta_vp / S / t^(1/n), n_vp = 1 *)
| q_gasconst    (* 1395 R / (J/T) *)
| q_gibbs.      (* 1662 kin_dG / J *)

Definition divisor (s : scale) (q : quantity) : R :=
  match q with
  | q_length => s_L s
  | q_time => s_t s
  | q_viscosity => s_eta s
  | q_rate => s_E s
  | q_stress => s_S s
  | q_temperature => s_T s
  | q_velocity => s_V s
  | q_diffusivity => s_L s ^ 2 / s_t s
  | q_accel => s_a s
  | q_density => s_rho s
  | q_heatcap => s_Cp s
  | q_conduct => s_k s
  | q_heatprod => s_W s / s_L s ^ 3
  | q_expansion => 1 / s_T s
  | q_compress => 1 / s_S s
  | q_vpvisc => s_S s * s_t s
  | q_gasconst => s_J s / s_T s
  | q_gibbs => s_J s
  end.
