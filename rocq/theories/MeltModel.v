(** * Partial melting

    Transcription of MDLIB/MeltingRoutines.c 44-134 (PartialMelting), 136-157
    (MeltFractionGrid), 163-219 (UpdateAlphaCp), 225-252 (MassSourceTerm) and of
    MDLIB/RheologyParticles.c 811-842 (UpdateParticlePhi, the bounds). Doubles are
    reals; decimal constants are the written decimals. The loops over cells write
    distinct entries, so one cell is modelled. *)
From Coq Require Import ZArith Reals List Bool.
Import ListNotations.
From Verif Require Import P2GModel AdvModel ReseedModel.
Local Open Scope R_scope.

(** scaling->T, S, J, m. *)
Record unit : Type := Unit { uT : R; uS : R; uJ : R; um : R }.

(** 1e-13 *)
Definition tiny : R := / 10 ^ 13.

(** 54-106: solidus, liquidus (K, for a pressure in MPa), latent heat (J/kg) and
    exponent of each law; [None]: a positive number that is none of them, for which Ts
    and Tl keep the temperature and Ql is never set. In law 11 the comma operator
    ends the expression after "+ 20" (80). *)
Definition solidus (law : Z) (p : R) : option R :=
  if (law =? 1)%Z then Some (600 + 27315 / 100)
  else if (law =? 10)%Z then
    Some (if Rltb 1600 p then 935 + 35 / 10000 * p + 62 / 10000000 * p ^ 2
          else 973 - 70400 / (p + 354) + 77800000 / (p + 354) ^ 2)
  else if (law =? 11)%Z then
    Some (if Rltb 1200 p then 831 + 6 / 100 * p else 889 - 17900 / (p + 54) + 20)
  else if (law =? 40)%Z then
    Some (if Rltb 10000 p then 2212 + 30819 / 1000000 * (p - 10000)
          else 1394 + 132899 / 1000000 * p - 5014 / 1000000000 * p ^ 2)
  else if (law =? 41)%Z then
    Some (if Rltb 10000 p then 2212 + 30819 / 1000000 * (p - 10000)
          else 1394 + 132899 / 1000000 * p - 5014 / 1000000000 / p ^ 2)
  else None.
Definition liquidus (law : Z) (p : R) : R :=
  if (law =? 1)%Z then 1200 + 27315 / 100
  else if (law =? 10)%Z then 1423 + 105 / 1000 * p
  else if (law =? 11)%Z then 1262 + 9 / 100 * p
  else 2073 + 114 / 1000 * p.
Definition latent (law : Z) : R :=
  if (law =? 1)%Z then 320000 else if (law =? 10)%Z then 380000 else if (law =? 11)%Z then 300000
  else if (law =? 40)%Z then 400000 else 300000.
(** 51 and 62. *)
Definition steepness (law : Z) (u : unit) : R := if (law =? 1)%Z then - (1 / 10) else / 10 ^ 7 / (1 / uT u).

(** 117-119 *)
Definition apart (ts tl : R) : R := if Rltb (tl - 100) ts then tl - 100 else ts.
(** 122 *)
Definition equilibrium (al ts tl t : R) : R := (exp (al * t) - exp (al * ts)) / (exp (al * tl) - exp (al * ts)).
(** 124-125 *)
Definition unit_clamp (x : R) : R := let x := if Rltb x 0 then 0 else x in if Rltb 1 x then 1 else x.

(** 44-134: (phi, hlat). *)
Definition partial_melting (u : unit) (P T phi0 tk dt : R) (law : Z) : result (R * R) :=
  if (0 <? law)%Z && Rltb tiny T && Rltb tiny P then
    let p := P / 10 ^ 6 * uS u in
    let t := T * uT u in
    match solidus law p with
    | None => UB
    | Some ts =>
        let tl := liquidus law p in
        if Rltb 0 tl then
          let phi_eq := equilibrium (steepness law u) (apart ts tl) tl t in
          Done (unit_clamp (dt / (tk + dt) * phi_eq + tk / (tk + dt) * phi0), latent law / (uJ u / um u))
        else Done (0, 0)
    end
  else Done (0, 0).

(** ** Cells *)
(** A phase of a cell: phase_perc_n, melt, tau_kin, Cp, alp, rho. *)
Record phase : Type := Phase { share : R; plaw : Z; ptk : R; pCp : R; palp : R; prho : R }.
(** p_in, T, phi0_n, rho_n, T0_n of the cell; model->dt. *)
Record cellv : Type := Cellv { cP : R; cT : R; cphi0 : R; crho : R; cT0 : R; cdt : R }.
Definition present (f : phase) : bool := Rltb tiny (Rabs (share f)).

(** 146-155 *)
Definition melt_of (u : unit) (c : cellv) (P T : R) (f : phase) : result (R * R) :=
  partial_melting u P T (cphi0 c) (ptk f) (cdt c) (plaw f).
Fixpoint melt_fraction (u : unit) (c : cellv) (fs : list phase) (acc : R) : result R :=
  match fs with
  | [] => Done acc
  | f :: fs =>
      if present f then
        match melt_of u c (cP c) (cT c) f with
        | Done (phi, _) => melt_fraction u c fs (acc + share f * phi)
        | Exits k => Exits k | UB => UB
        end
      else melt_fraction u c fs acc
  end.

(** mesh->BCp.type[0]: the tag of cell 0, whatever the cell (188, 243). *)
Definition rock0 (tag : nat -> Z) : bool := negb (tag 0%nat =? 30)%Z && negb (tag 0%nat =? 31)%Z.

(** 191-213: contributions to Cp and alpha. *)
Definition millionth : R := / 10 ^ 6.
Definition melt_terms (u : unit) (c : cellv) (f : phase) : result (R * R) :=
  match melt_of u c (cP c) (cT c) f with
  | Done (phi, Ql) =>
      if Rltb tiny phi then
        let dP := cP c * millionth in
        match melt_of u c (cP c - dP) (cT c) f, melt_of u c (cP c + dP) (cT c) f with
        | Done (m, _), Done (p, _) =>
            let dMdP := (p - m) / (2 * dP) in
            let dT := cT c * millionth in
            match melt_of u c (cP c) (cT c - dT) f, melt_of u c (cP c) (cT c + dT) f with
            | Done (m, _), Done (p, _) =>
                let dMdT := (p - m) / (2 * dT) in
                Done (Ql * dMdT, Ql * dMdP / cT c * crho c)
            | _, _ => UB
            end
        | _, _ => UB
        end
      else Done (0, 0)
  | Exits k => Exits k | UB => UB
  end.
Fixpoint alpha_cp (u : unit) (tag : nat -> Z) (c : cellv) (fs : list phase) (acc : R * R) : result (R * R) :=
  match fs with
  | [] => Done acc
  | f :: fs =>
      if present f && rock0 tag then
        match melt_terms u c f with
        | Done (cpm, alm) =>
            alpha_cp u tag c fs (fst acc + share f * (pCp f + cpm), snd acc + share f * (palp f - alm))
        | Exits k => Exits k | UB => UB
        end
      else alpha_cp u tag c fs acc
  end.

(** 235-252 *)
Definition mass_source (tag : nat -> Z) (c : cellv) (fs : list phase) : R :=
  fold_left (fun acc f =>
    if present f && rock0 tag then
      acc + share f * (palp f * prho f / crho c * (cT c - cT0 c) / cdt c)
    else acc) fs 0.

(** RheologyParticles.c 829-838: marker melt fraction plus interpolated increment. *)
Definition marker_phi (phi inc : R) : R :=
  let x := phi + inc in
  let x := if Rgeb 0 x then 0 else x in
  if Rgeb x 1 then 1 else x.
