(** * The nonlinear iteration cycle of one time step and its sequence over steps

    Transcription of MDLIB/Main_DOODZ.c 94-102 (flags before the time loop),
    446-458 (clock), 648-843 (nonlinear cycle, safe mode), 858-873 (final
    report), and MDLIB/InputOutput.c 1231 ([Picard2Newton] switched off when
    [Newton] is 0).

    The linear algebra is an oracle: for every pass through the loop an arbitrary
    observation says which of the comparisons on residuals hold and whether the
    line search reported stagnation.  Comparisons are booleans, so NaN and
    infinite residuals are covered (all comparisons false). *)
From Coq Require Import List ZArith Bool Reals.
Import ListNotations.
Open Scope Z_scope.

(** Input parameters (InputOutput.c 1107-1124). *)
Record nl_cfg := NlCfg {
  nit_max      : Z;
  max_num_stag : Z;
  safe_mode    : Z;
  elastic      : bool;    (* [elastic == 1] *)
  newton_in    : Z;       (* [Newton] in the input file *)
  p2n_in       : bool;    (* [Picard2Newton == 1] in the input file *)
  max_its_pic  : Z;
  aniso        : bool }.  (* [anisotropy == 1] *)

(** InputOutput.c 1231. *)
Definition p2n (c : nl_cfg) : bool := if newton_in c =? 0 then false else p2n_in c.

(** What the solver reports in one pass. *)
Record obs := Obs {
  x_abs : bool; x_rel : bool;    (* resx < nonlin_abs_mom, resx/resx0 < nonlin_rel_mom *)
  z_abs : bool; z_rel : bool;
  p_abs : bool; p_rel : bool;
  tol_x : bool; tol_z : bool; tol_p : bool;   (* relative residual < Picard2Newton_tol *)
  stag  : bool }.                (* [Nmodel.stagnated == 1] after the solve *)

(** Main_DOODZ.c 792. *)
Definition converged (o : obs) : bool :=
  (x_abs o || x_rel o) && (z_abs o || z_rel o) && (p_abs o || p_rel o).

(** Variables of the cycle. [first] is [IsFirstNewtonStep], a block-local
    variable without initialiser (668): [None] is "indeterminate". [logw] is
    the list of indices written into the residual logs (703-707, 783-785) and
    [jac_touch] records that Jacobian arrays were used (762). *)
Record nl_state := NlState {
  nit : Z; nstag : Z;
  newton : bool;            (* [input.model.Newton == 1] *)
  is_newton : bool;         (* [IsNewtonStep == 1] *)
  first : option bool;
  jac : bool;               (* [IsJacobianUsed == 1] *)
  prev : option obs;        (* residuals logged in the preceding pass *)
  logw : list Z;
  solves : nat;             (* linear solves done *)
  ndiv : nat }.             (* times the time step was divided *)

Inductive nl_end :=
| Converged          (* 792-796: tolerances met, [break] *)
| IterLimit          (* loop condition false *)
| Stagnated          (* 803-808: [break] *)
| ExitZero           (* 830-832: [exit(0)] *)
| Indeterminate.     (* a branch was decided by an uninitialised variable *)

(** Main_DOODZ.c 650-676: start of the cycle in a time step; [n] and [isn] are
    the values left by the previous time step. *)
Definition nl_start (c : nl_cfg) (n isn : bool) : nl_state :=
  if isn && p2n c
  then NlState 0 0 false false (Some true) false None [] 0 0
  else NlState 0 0 n isn None false None [] 0 0.

(** Main_DOODZ.c 683-695: decision to switch to Newton. [None]: decided by an
    uninitialised variable. *)
Definition switch (c : nl_cfg) (s : nl_state) : option nl_state :=
  if (0 <? nit s) && p2n c then
    match prev s with
    | None => Some s
    | Some o =>
      if tol_x o || tol_z o || tol_p o || (max_its_pic c <=? nit s) then
        match first s with
        | None => None
        | Some _ => Some (NlState (nit s) (nstag s) true true (Some false) (jac s) (prev s)
                                  (logw s) (solves s) (ndiv s))
        end
      else Some s
    end
  else Some s.

(** One pass (Main_DOODZ.c 681-837). *)
Definition nl_pass (c : nl_cfg) (o : obs) (s : nl_state) : nl_state * option nl_end :=
  match switch c s with
  | None => (s, Some Indeterminate)
  | Some s =>
    (* 698 *)
    let j := jac s || newton s || aniso c in
    let lw := nit s :: logw s in
    let s1 := NlState (nit s) (nstag s) (newton s) (is_newton s) (first s) j (Some o) lw (solves s) (ndiv s) in
    if converged o then (s1, Some Converged) else
    (* 800-801 *)
    let s2 := NlState (nit s) (nstag s) (newton s) (is_newton s) (first s) j (Some o) lw (S (solves s)) (ndiv s) in
    if stag o && (safe_mode c <=? 0) then (s2, Some Stagnated) else
    (* 811-834 *)
    if stag o && elastic c && (safe_mode c =? 1) then
      let s3 := NlState 0 (nstag s + 1) (newton s) (is_newton s) (first s) j (Some o) lw (S (solves s)) (S (ndiv s)) in
      if nstag s + 1 =? max_num_stag c then (s3, Some ExitZero) else (s3, None)
    else
      (* 836 *)
      (NlState (nit s + 1) (nstag s) (newton s) (is_newton s) (first s) j (Some o) lw (S (solves s)) (ndiv s), None)
  end.

(** The [while] loop (Main_DOODZ.c 681). [env i] is the observation of the
    [i]-th pass. [None]: fuel used up. *)
Fixpoint nl_loop (fuel : nat) (c : nl_cfg) (env : nat -> obs) (i : nat) (s : nl_state)
  : option (nl_state * nl_end) :=
  if (nit s <=? nit_max c) && (nstag s <? max_num_stag c) then
    match fuel with
    | O => None
    | S f => match nl_pass c (env i) s with
             | (s', Some e) => Some (s', e)
             | (s', None) => nl_loop f c env (S i) s'
             end
    end
  else Some (s, IterLimit).

(** Main_DOODZ.c 858-872: after the cycle, in safe mode reaching iteration
    [nit_max] stops the program with status 1 unless the absolute tolerances
    hold ([abs_ok]). Returns whether the run continues. *)
Definition nl_report (c : nl_cfg) (s : nl_state) (abs_ok : bool) : bool :=
  let n := if nit_max c <=? nit s then nit_max c else nit s in
  if (n =? nit_max c) && (0 <=? nit_max c) && (safe_mode c =? 1) then abs_ok else true.

(** ** Several time steps *)

(** Main_DOODZ.c 97-102. *)
Definition need_jacobian (c : nl_cfg) : bool := (newton_in c =? 1) || aniso c.
Definition newton0 (c : nl_cfg) : bool := (newton_in c =? 1) || aniso c.

(** Fuel that always suffices (proved). *)
Definition nl_fuel (c : nl_cfg) : nat :=
  Z.to_nat ((nit_max c + 1) * max_num_stag c + 1).

(** The cycles of successive time steps; the flags [newton], [is_newton] are
    carried over. Stops at the first step that does not end normally. *)
Fixpoint nl_steps (c : nl_cfg) (envs : list (nat -> obs)) (n isn : bool)
  : list (nl_state * nl_end) :=
  match envs with
  | [] => []
  | env :: rest =>
    match nl_loop (nl_fuel c) c env 0 (nl_start c n isn) with
    | None => []
    | Some (s, e) =>
      (s, e) :: match e with
                | ExitZero | Indeterminate => []
                | _ => nl_steps c rest (newton s) (is_newton s)
                end
    end
  end.

(** ** The clock (Main_DOODZ.c 446-458, 819, 1177) *)

(** [dts]: for every time step the length chosen before the solve and the
    outcome of its nonlinear cycle. [time += dt] happens before the solve (454);
    each stagnation in safe mode divides [dt] (819) without touching the clock;
    the advection ends with [dt] equal to the length used in the last solve. *)
Definition dt_used (div : R) (d : R * nl_state) : R := (fst d / div ^ ndiv (snd d))%R.

Fixpoint clock (t0 : R) (dts : list (R * nl_state)) : R :=
  match dts with
  | [] => t0
  | d :: rest => clock (t0 + fst d)%R rest
  end.
