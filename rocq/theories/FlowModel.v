(** * Flow laws: data base, scaling, correction factors, prefactors

    Transcription of MDLIB/FlowLaws.c 44-573 (ReadDataPowerLaw), 575-704 (ReadDataLinear), 706-769
    (ReadDataGBS), 775-838 (ReadDataExponential), of the order of the calls in InputOutput.c 1387-1390, of
    the prefactors in MDLIB/RheologyDensity.c 448-500 (ViscosityConcise) and of HuetAveragingModel
    (RheologyDensity.c 1550-1592). Doubles are reals; [pow(x,y)] is [Rpower x y], which is C's [pow] for
    [x > 0] and also for [y = 0] (both give 1, [pow(0,0)] included: the laws without water have [f = 0] and
    [r = 0]). Not represented: printing, the grain-size evolution and kinetics tables (844-960, see GSModel). *)
From Coq Require Import Reals ZArith List Bool.
From Verif Require Import OptionsModel RheoModel.
Import ListNotations.
Local Open Scope R_scope.

(** One creep law in SI units: type of experiment, stress exponent, grain-size exponent, water exponent,
    activation energy and volume, prefactor, water fugacity, melt factor (mdoodz-private.h, [mat_prop]). *)
Record law : Type := Law { l_t : Z; l_n : R; l_m : R; l_r : R; l_Q : R; l_V : R; l_A : R; l_f : R; l_a : R }.
(** The same law after reading: scaled, with its correction factor. *)
Record slaw : Type := Slaw { s_law : law; s_F : R }.

(** User input that the laws 1, 2 and 40 use (InputOutput.c 1192-1196, 1320-1324). [i_eps0], [i_tau0] and
    [i_eta0] are stored divided by their units. *)
Record linput : Type := Linput {
  i_n : R; i_Q : R; i_eps0 : R; i_tau0 : R; i_eta0 : R;
  i_forceV : bool; i_Vdis : R; i_Vdif : R; i_forcea : bool; i_melt : R }.

(** FlowLaws.c 86-540: the laws from the literature. *)
Definition db_pwl (k : Z) : option law :=
  match k with
  | 10 => Some (Law 1 3.3 0.0 0.0 186.5e3 0.0e-6 3.1623e-26 0.0 0.0) (* 87 *)
  | 11 => Some (Law 1 4.7 0.0 0.0 485.0e3 0.0e-6 5.0477e-28 0.0 0.0) (* 101 *)
  | 12 => Some (Law 1 3.0 0.0 0.0 276.0e3 0.0e-6 3.2e-20 0.0 0.0) (* 115 *)
  | 13 => Some (Law 1 2.3 0.0 0.0 154.0e3 0.0e-6 5.0717e-18 0.0 0.0) (* 129 *)
  | 14 => Some (Law 1 5.3 0.0 0.0 102.0e3 0.0e-6 9.9848e-32 0.0 0.0) (* 143 *)
  | 15 => Some (Law 1 4.7 0.0 0.0 297.0e3 0.0e-6 1.5849e-25 0.0 0.0) (* 157 *)
  | 16 => Some (Law 1 3.1 0.0 0.0 243.0e3 0.0e-6 2.0095e-21 0.0 0.0) (* 171 *)
  | 17 => Some (Law 1 4.2 0.0 0.0 445.0e3 0.0e-6 8.8334e-22 0.0 0.0) (* 185 *)
  | 18 => Some (Law 1 4.7 0.0 0.0 297.0e3 0.0e-6 1.5849e-25 0.0 0.0) (* 199 *)
  | 19 => Some (Law 1 3.0 0.0 0.0 356.0e3 0.0e-6 3.9811e-16 0.0 0.0) (* 213 *)
  | 20 => Some (Law 1 2.22 0.0 0.0 485.0e3 0.0e-6 2.7952e-07 0.0 0.0) (* 227 *)
  | 21 => Some (Law 1 3.5 0.0 0.0 310.0e3 0.0e-6 1.0e-23 0.0 0.0) (* 241 *)
  | 22 => Some (Law 1 2.72 0.0 0.0 134.0e3 0.0e-6 7.3191e-24 0.0 0.0) (* 255 *)
  | 23 => Some (Law 1 3.2 0.0 0.0 238.0e3 0.0e-6 2.0632e-23 0.0 0.0) (* 269 *)
  | 24 => Some (Law 1 18.0 0.0 0.0 51.0e3 0.0e-6 1.0000e-138 0.0 0.0) (* 283 *)
  | 25 => Some (Law 1 4.0 0.0 0.0 431.0e3 0.0e-6 7.9433e-24 0.0 0.0) (* 297 *)
  | 26 => Some (Law 1 2.4 0.0 0.0 160.0e3 0.0e-6 3.981e-19 0.0 0.0) (* 311 *)
  | 27 => Some (Law 1 2.4 0.0 0.0 156.0e3 0.0e-6 2.667e-20 0.0 0.0) (* 325 *)
  | 28 => Some (Law 1 4.0 0.0 0.0 135.0e3 0.0e-6 6.3096e-36 0.0 0.0) (* 340 *)
  | 29 => Some (Law 0 3.7 0.0 0.0 244e3 0.0 6.9405e-27 0.0 0.0) (* 354 *)
  | 30 => Some (Law 1 3.0 0.0 0.0 648.0e3 0.0e-6 5.0119e-06 0.0 0.0) (* 369 *)
  | 31 => Some (Law 1 4.7 0.0 0.0 760.0e3 0.0e-6 3.9811e-19 0.0 0.0) (* 383 *)
  | 32 => Some (Law 1 3.0 0.0 0.0 235.0e3 0.0e-6 3.16228e-20 0.0 0.0) (* 397 *)
  | 33 => Some (Law 1 2.22 0.0 0.0 485.0e3 10e-6 2.7952e-07 0.0 0.0) (* 411 *)
  | 34 => Some (Law 1 3.3 0.0 0.0 186.5e3 0.0e-6 3.1623e-26 0.0 50.0) (* 425 *)
  | 40 => Some (Law 1 3.5 0.0 0.0 530.0e3 11.0e-6 1.1000e-16 0.0 0.0) (* 441 *)
  | 41 => Some (Law 1 3.5 0.0 1.2 480.0e3 11.0e-6 5.6786e-27 1.0e9 0.0) (* 456 *)
  | 42 => Some (Law 1 3.5 0.0 0.0 532.0e3 0.0e-6 2.5119e-17 0.0 0.0) (* 470 *)
  | 43 => Some (Law 1 4.0 0.0 0.0 471.0e3 0.0e-6 1.9953e-21 0.0 0.0) (* 484 *)
  | 44 => Some (Law 1 3.0 0.0 0.0 520.0e3 0.0e-6 1.0e-14 0.0 0.0) (* 498 *)
  | 45 => Some (Law 1 3.5 0.0 0.0 520.0e3 0.0e-6 1.60e-18 0.0 0.0) (* 512 *)
  | 46 => Some (Law 1 5.8 0.0 0.0 17.6e3 0.0e-6 5.3443e-41 0.0 0.0) (* 526 *)
  | _ => None
  end%Z.
(** FlowLaws.c 603-672, 716-742. *)
Definition db_lin (k : Z) : option law :=
  match k with
  | 15 => Some (Law 1 1.1 3.3 0.0 200e3 0e-6 1.7119e-19 0.0 0.0) (* 604 *)
  | 19 => Some (Law 1 1.0 3.0 0.0 170e3 0e-6 5.0119e-23 0.0 0.0) (* 618 *)
  | 25 => Some (Law 1 1.0 3.0 0.0 268e3 0e-6 1.2589e-19 0.0 0.0) (* 632 *)
  | 40 => Some (Law 1 1.0 3.0 0.0 375e3 4.0e-6 1.5000e-15 0.0 0.0) (* 646 *)
  | 41 => Some (Law 1 1.0 3.0 1.0 375e3 7e-6 2.5000e-23 1e9 0.0) (* 661 *)
  | _ => None
  end%Z.
Definition db_gbs (k : Z) : option law :=
  match k with
  | 40 => Some (Law 1 3.5 2.0 0.0 400e3 0.0 6.5000e-30 0.0 0.0) (* 717 *)
  | 41 => Some (Law 1 3.5 2.0 0.0 600e3 0.0 4.7000e-23 0.0 0.0) (* 731 *)
  | _ => None
  end%Z.

Definition set_V (l : law) (V : R) : law := Law (l_t l) (l_n l) (l_m l) (l_r l) (l_Q l) V (l_A l) (l_f l) (l_a l).
Definition set_a (l : law) (a : R) : law := Law (l_t l) (l_n l) (l_m l) (l_r l) (l_Q l) (l_V l) (l_A l) (l_f l) a.

(** FlowLaws.c 56-84 and 441-446: the two user-defined laws, the forced activation volume of law 40. *)
Definition raw_pwl (s : scale) (i : linput) (k : Z) : option law :=
  if Z.eqb k 1 then Some (Law 0 (i_n i) 0 0 (i_Q i) 0 (Rpower (i_eta0 i * s_eta s) (- i_n i)) 0 0)
  else if Z.eqb k 2 then
    Some (Law 0 (i_n i) 0 0 (i_Q i) 0 (Rpower (Rpower 2 (i_n i) * i_eps0 i / Rpower (i_tau0 i) (i_n i)) (- i_n i)) 0 0)
  else if Z.eqb k 40 && i_forceV i then option_map (fun l => set_V l (i_Vdis i)) (db_pwl 40)
  else db_pwl k.
(** FlowLaws.c 542-553 (power law), 676-685, 746-755: [A] is divided by [S^-n S^-r L^m / t]. *)
Definition scale_law (s : scale) (l : law) : law :=
  Law (l_t l) (l_n l) (l_m l) (l_r l) (l_Q l / s_J s) (l_V l / s_L s ^ 3)
      (l_A l / (Rpower (s_S s) (- l_n l) * Rpower (s_S s) (- l_r l) * Rpower (s_L s) (l_m l) / s_t s))
      (l_f l / s_S s) (l_a l).
(** FlowLaws.c 556-561, 687-693, 757-763: correction factor; a negative number cancels it. For any other
    type the factor is left unset ([None]); no law of the data base has one. *)
Definition corr (t : Z) (n : R) : option R :=
  if Z.eqb t 0 then Some 1
  else if Z.eqb t 1 then Some (1 / 6 * Rpower 2 (1 / n) * Rpower 3 ((n - 1) / 2 / n))
  else if Z.eqb t 2 then Some (1 / 4 * Rpower 2 (1 / n))
  else None.
Definition corr_num (number : Z) (t : Z) (n : R) : option R :=
  if Z.ltb number 0 then Some 1 else corr t n.
Definition finish_law (s : scale) (number : Z) (l : law) : option slaw :=
  match corr_num number (l_t l) (l_n l) with Some F => Some (Slaw (scale_law s l) F) | None => None end.

(** FlowLaws.c 44-573: [None] is [exit(12)] (564). The forced melt factor replaces that of any law (543). *)
Definition read_pwl (s : scale) (i : linput) (number : Z) : option slaw :=
  match raw_pwl s i (Z.abs number) with
  | Some l => finish_law s number (if i_forcea i then set_a l (i_melt i) else l)
  | None => None
  end.
Definition read_gbs (s : scale) (number : Z) : option slaw :=
  match db_gbs (Z.abs number) with Some l => finish_law s number l | None => None end.

(** The two families touched by ReadDataLinear; [None] in [st_lin] means parameters never written. *)
Record lstate : Type := Lstate { st_pwl : option slaw; st_lin : option slaw }.
(** FlowLaws.c 588-600: law 1 writes the fields of the power law, unscaled, keeping its correction factor
    (0 stands for the unwritten one); the fields of the linear law stay unwritten. *)
Definition siltstone : law := Law 1 3.3 0 0 186.5e3 0 3.1623e-26 0 0.
Definition read_lin (s : scale) (i : linput) (number : Z) (st : lstate) : option lstate :=
  let k := Z.abs number in
  if Z.eqb k 1 then Some (Lstate (Some (Slaw siltstone (match st_pwl st with Some p => s_F p | None => 0 end))) (st_lin st))
  else match (if Z.eqb k 40 && i_forceV i then option_map (fun l => set_V l (i_Vdif i)) (db_lin 40) else db_lin k) with
       | Some l => match finish_law s number l with Some p => Some (Lstate (st_pwl st) (Some p)) | None => None end
       | None => None
       end.

(** InputOutput.c 1395 with [Rg] (include/mdoodz.h 5). *)
Definition Rgas : R := 8.314510.
Definition scaled_R (s : scale) : R := Rgas / (s_J s / s_T s).
(** RheologyDensity.c 468 with [zeroC] (mdoodz-private.h): temperature is at least 0 C. *)
Definition zeroC : R := 273.15.
Definition floor_T (s : scale) (T : R) : R := if Rlt_dec T (zeroC / s_T s) then zeroC / s_T s else T.

(** RheologyDensity.c 474 and 489: prefactor with all dependences ([pre] is [pref_pwl], 1 for sliding);
    484: the same without the grain-size factor. Arguments are the scaled quantities. *)
Definition Bnod (l : slaw) (pre Rg T P phi : R) : R :=
  let q := s_law l in
  pre * s_F l * Rpower (l_A q) (-1 / l_n q) * exp ((l_Q q + P * l_V q) / Rg / l_n q / T)
  * Rpower (l_f q) (- l_r q / l_n q) * exp (- l_a q * phi / l_n q).
Definition Bfull (l : slaw) (pre Rg T P d phi : R) : R :=
  let q := s_law l in
  pre * s_F l * Rpower (l_A q) (-1 / l_n q) * exp ((l_Q q + P * l_V q) / Rg / l_n q / T)
  * Rpower d (l_m q / l_n q) * Rpower (l_f q) (- l_r q / l_n q) * exp (- l_a q * phi / l_n q).

(** ** Peierls creep (FlowLaws.c 775-838; RheologyDensity.c 491-499) *)
Record plaw : Type := Plaw { p_t : Z; p_G : R; p_S : R; p_Q : R; p_E : R; p_n : R }.
Definition db_exp (k : Z) : option plaw :=
  match k with
  | 25 => Some (Plaw 1 0.2 9.831e9 431.0e3 3.02e-9 2.0)
  | 40 => Some (Plaw 1 0.1 8.5e9 5.4e5 5.7e11 0.0)
  | _ => None
  end%Z.
(** FlowLaws.c 816-826: a negative number sets the type to 0, which nothing reads. *)
Definition read_exp (s : scale) (number : Z) : option plaw :=
  option_map (fun p => Plaw (if Z.ltb number 0 then 0%Z else p_t p) (p_G p) (p_S p / s_S s) (p_Q p / s_J s)
                            (p_E p / (s_E s * Rpower (s_S s) (- p_n p))) (p_n p))
             (db_exp (Z.abs number)).
(** RheologyDensity.c 492. *)
Definition ST (p : plaw) (Rg T : R) : R := p_Q p / Rg / T * 2 * p_G p * (1 - p_G p).
(** RheologyDensity.c 494-497. *)
Definition Bexp (p : plaw) (Rg T : R) : R :=
  let st := ST p Rg T in let n := st + p_n p in
  let arr := exp (- p_Q p / Rg / T * (1 - p_G p) ^ 2) in
  Rpower (Rpower 2 (1 - st - p_n p) / Rpower (sqrt 3) (st + p_n p + 1)) (1 / n)
  * (Rpower (p_G p * p_S p) (st / n) / Rpower (p_E p * arr) (1 / n)).

(** ** Mixtures (RheologyDensity.c 1550-1592, HuetAveragingModel)

    [l1] and [l2] are the scaled laws of the phase and of its reaction product, [X] the progress. The
    correction factor is recomputed from the type of the phase; result: exponent and prefactor. *)
Definition huet_n (l1 l2 : law) (X : R) : R :=
  let a1 := l_n l2 + 1 in let a2 := l_n l1 + 1 in
  ((1 - X) * a1 * l_n l1 + X * a2 * l_n l2) / ((1 - X) * a1 + X * a2).
Definition huet_Q (l1 l2 : law) (X : R) : R :=
  let a1 := l_n l2 + 1 in let a2 := l_n l1 + 1 in
  ((1 - X) * a1 * l_Q l1 + X * a2 * l_Q l2) / ((1 - X) * a1 + X * a2).
Definition huet_A (l1 l2 : law) (X : R) : R :=
  let a1 := l_n l2 + 1 in let a2 := l_n l1 + 1 in
  let dn := (1 - X) * a1 + X * a2 in
  Rpower (l_A l1) ((1 - X) * a1 / dn) * Rpower (l_A l2) (X * a2 / dn)
  * Rpower ((1 - X) * l_n l1 / (l_n l1 + 1) + X * l_n l2 / (l_n l2 + 1)) (- huet_n l1 l2 X)
  * (Rpower (l_n l1 / (l_n l1 + 1)) ((1 - X) * a1 * l_n l1 / dn)
     * Rpower (l_n l2 / (l_n l2 + 1)) (X * a2 * l_n l2 / dn)).
Definition huet_B (l1 l2 : law) (X pre Rg T : R) : option R :=
  let n := huet_n l1 l2 X in
  option_map (fun F => pre * F * Rpower (huet_A l1 l2 X) (-1 / n) * exp (huet_Q l1 l2 X / Rg / n / T)) (corr (l_t l1) n).
