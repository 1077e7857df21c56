(** * Line search on the step length

    Transcription of MDLIB/StokesRoutines.c 580-769 (LineSearchDecoupled). The
    residual norms at a trial step are an arbitrary function of the step
    ([UpdateNonLinearity] + [EvaluateStokesResidualDecoupled], 648-655). Doubles are
    reals. The saving and restoring of the fields (621-624, 641-645, 757-760) is
    not represented. *)
From Coq Require Import Reals List Bool.
Import ListNotations.
Local Open Scope R_scope.

(** The three residual norms stored per trial (StokesRoutines.c 657-659) and their combinations. *)
Record res3 : Type := Res { rx : R; rz : R; rp : R }.
Definition nxzp (r : res3) : R := sqrt (rx r ^ 2 + rz r ^ 2 + rp r ^ 2).
Definition nxz (r : res3) : R := sqrt (rx r ^ 2 + rz r ^ 2).

(** MDLIB/StokesRoutines.c 602-611: end points of the interval. *)
Definition min_alpha (newton : nat) : R := if Nat.eqb newton 1 then -1 else - 5 / 2.
Definition max_alpha (newton : nat) (min_step : R) : R := if Nat.eqb newton 0 then 0 else - min_step.
Definition ntry : nat := 6.
Definition dalpha newton min_step : R := Rabs (max_alpha newton min_step - min_alpha newton) / (INR ntry - 1).
(** MDLIB/StokesRoutines.c 631-639: [alpha] after [kk] decrements. *)
Definition alphas newton min_step : list R :=
  map (fun kk => max_alpha newton min_step - INR kk * dalpha newton min_step) (seq 0 ntry).

(** MDLIB/StokesRoutines.c 667-702: index of the first minimum, scanning from entry 1 with a strict test;
    [start] is the value of the index variable before the scan. *)
Definition Rltb (a b : R) : bool := if Rlt_dec a b then true else false.
Fixpoint scan {A} (f : A -> R) (k : nat) (l : list A) (best : R) (idx : option nat) : option nat :=
  match l with
  | [] => idx
  | x :: l' => if Rltb (f x) best then scan f (S k) l' (f x) (Some k) else scan f (S k) l' best idx
  end.
Definition argmin {A} (f : A -> R) (start : option nat) (l : list A) : option nat :=
  match l with [] => start | x :: l' => scan f 1 l' (f x) start end.

Inductive outcome := Undefined | Step (alpha : R) (stagnated : bool).

(** MDLIB/StokesRoutines.c 704-769. [ip] (665) is not initialised: [rp[ip]] at 707 is undefined when no
    later entry is smaller than the first. *)
Definition line_search (res : R -> res3) (initial : res3) (newton : nat) (min_step : R) (let_res_grow : bool) : outcome :=
  let al := alphas newton min_step in
  let rs := map res al in
  let at_ {A} (i : option nat) (l : list A) (d : A) := match i with Some k => nth k l d | None => d end in
  let d0 := res 0 in
  let ixzp := argmin nxzp (Some 0%nat) rs in
  let ixz := argmin nxz (Some 0%nat) rs in
  let ix := argmin rx (Some 0%nat) rs in
  let iz := argmin rz (Some 0%nat) rs in
  match argmin rp None rs with
  | None => Undefined
  | Some _ =>
      let frac := 1 in
      let found :=
        if Rltb (nxzp (at_ ixzp rs d0)) (frac * nxzp initial) then Some (at_ ixzp al 0)
        else if Rltb (rx (at_ ixz rs d0)) (frac * rx initial) && Rltb (rz (at_ ixz rs d0)) (frac * rz initial) then Some (at_ ixz al 0)
        else if Rltb (rx (at_ ix rs d0)) (frac * rx initial) then Some (at_ ix al 0)
        else if Rltb (rz (at_ iz rs d0)) (frac * rz initial) then Some (at_ iz al 0)
        else None in
      let stuck := if let_res_grow then Step min_step false else Step 0 true in
      match found with
      | None => stuck
      | Some a => if Rltb (Rabs a) (/ 10 ^ 13) then stuck else Step a false
      end
  end.
