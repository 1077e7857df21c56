(** * Functions of the set-up: which must be given, and what the boundary functions are asked

    Transcription of MDLIB/Setup.c 783-898 (ValidateSetup), 618-773 (the temperature and composition part of
    SetBCs) and of the places in MDLIB/Main_DOODZ.c that use the structures of the set-up (144, 153-154, 170, 211,
    237, 627, 1057, 1066). Coordinates passed to the functions are represented by the cell (k, l). *)
From Coq Require Import Reals ZArith List Bool Arith.
Import ListNotations.
Local Open Scope nat_scope.

(** ** Structures and functions given by the user (mdoodz.h, MdoodzSetup, SetBCs_ff, BuildInitialTopography_ff,
    SetParticles_ff): true = not NULL. *)
Record bc_ptrs : Type := BcPtrs { b_vx : bool; b_vz : bool; b_p : bool; b_t : bool; b_fix : bool }.
Record topo_ptrs : Type := TopoPtrs { t_z : bool; t_phase : bool }.
(** The eleven functions of SetParticles looked at by ValidateSetup, in its order. *)
Record setup : Type := Setup { s_parts : option (list bool); s_bcs : option bc_ptrs; s_topo : option topo_ptrs }.
(** Options of the input file. *)
Record options : Type := Options {
  x_free_surface : Z; x_irestart : Z; x_fix : Z; x_mechanical : Z; x_thermal : Z; x_advection : Z; x_ale : Z; x_periodic : Z }.

Inductive use := UseBCs | UseTopo | UseParticles | CallVx | CallVz | CallFix.
(** Setup.c 205-781: the structure is copied for the call; SetBCVx (258) and SetBCVz (476) are called without a test
    (at least one velocity node of each kind is outside the air), FixTemperature (622) as well if the option is on;
    all other functions are tested before the call. *)
Definition setbcs_uses (o : options) : list use :=
  [UseBCs; CallVx; CallVz] ++ (if (x_fix o =? 1)%Z then [CallFix] else []).
(** Main_DOODZ.c 126-240. *)
Definition start_uses (o : options) : list use :=
  if (x_irestart o =? 0)%Z then
    setbcs_uses o ++ (if (x_free_surface o =? 1)%Z then [UseTopo; UseTopo] else []) ++ [UseParticles] ++
    setbcs_uses o ++ setbcs_uses o
  else [].
(** Main_DOODZ.c 615-627, 1013, 1057, 1066; one advection sub-step stands for all. *)
Definition step_uses (o : options) : list use :=
  (if (x_mechanical o =? 1)%Z then setbcs_uses o else []) ++
  (if (x_advection o =? 1)%Z && (x_ale o =? -1)%Z && (x_periodic o =? 0)%Z then [UseParticles; UseParticles] else []).
Fixpoint steps_uses (o : options) (n : nat) : list use :=
  match n with O => [] | S n => step_uses o ++ steps_uses o n end.
Definition run_uses (o : options) (n : nat) : list use := start_uses o ++ steps_uses o n.

Definition given (s : setup) (u : use) : bool :=
  match u with
  | UseBCs => match s_bcs s with Some _ => true | None => false end
  | UseTopo => match s_topo s with Some _ => true | None => false end
  | UseParticles => match s_parts s with Some _ => true | None => false end
  | CallVx => match s_bcs s with Some b => b_vx b | None => false end
  | CallVz => match s_bcs s with Some b => b_vz b | None => false end
  | CallFix => match s_bcs s with Some b => b_fix b | None => false end
  end.
(** Using a NULL pointer is undefined behaviour. Main_DOODZ.c 78: the check of the set-up is commented out, so the
    first use decides. *)
Inductive run_result := RanThrough | UBNull (u : use).
Fixpoint use_all (s : setup) (l : list use) : run_result :=
  match l with [] => RanThrough | u :: l => if given s u then use_all s l else UBNull u end.
Definition run (s : setup) (o : options) (n : nat) : run_result := use_all s (run_uses o n).

(** Setup.c 783-898: number of errors and of warnings; with an error the process ends with code 144. *)
Definition one (b : bool) : nat := if b then 1 else 0.
Definition errors (s : setup) (o : options) : nat :=
  (if (x_free_surface o =? 0)%Z then 0 else match s_topo s with None => 1 | Some _ => 0 end) +
  (match s_parts s with None => 1 | Some _ => 0 end) +
  (match s_bcs s with
   | None => 1
   | Some b => one (negb (b_vx b)) + one (negb (b_vz b)) + (if (x_thermal o =? 0)%Z then 0 else one (negb (b_t b)))
   end).
Definition warnings (s : setup) (o : options) : nat :=
  (if (x_free_surface o =? 0)%Z then 0 else match s_topo s with None => 0 | Some t => one (negb (t_z t)) + one (negb (t_phase t)) end) +
  (match s_parts s with None => 0 | Some l => fold_right (fun b n => one (negb b) + n) 0 l end) +
  (match s_bcs s with None => 0 | Some b => one (negb (b_p b)) end).

(** ** Boundary conditions of temperature and composition *)
Inductive side := West | East | South | North | Surface.
(** Type and value stored for an entry of the extended arrays BCT_exp, BCC_exp. *)
Definition entry : Type := (Z * R)%type.
Definition field : Type := nat -> entry.
(** What a boundary function is given: side, cell, temperature; it returns type and value. *)
Definition bc_fun : Type := side -> nat -> nat -> R -> entry.

(** A store to the arrays: the entry of one index is replaced, or only its type. *)
Inductive write := Both (i : nat) (e : entry) | TypeOnly (i : nat) (t : Z).
Definition store (f : field) (w : write) : field :=
  match w with
  | Both i e => fun j => if Nat.eqb j i then e else f j
  | TypeOnly i t => fun j => if Nat.eqb j i then (t, snd (f j)) else f j
  end.
Definition ask (user : option bc_fun) (i : nat) (s : side) (k l : nat) (T : R) : list write :=
  match user with Some f => [Both i (f s k l T)] | None => [] end.

(** 627-698 with [inner] = BCt.type; 700-773 with [inner] = BCc.type: [op c] tells whether the type of cell c
    allows the free surface test, [t] = BCt.type, [T] = mesh->T. *)
Definition cell_writes (ncx ncz : nat) (inner : nat -> Z) (op : nat -> bool) (t : nat -> Z) (T : nat -> R)
    (user : option bc_fun) (k l : nat) : list write :=
  let c := k + l * ncx in
  let c1 := (k + 1) + (l + 1) * (ncx + 2) in
  TypeOnly c1 (inner c) ::
  (if Z.eqb (inner c) 30 then [] else
    (if Nat.eqb k 0 then ask user (c1 - 1) West k l (T c) else []) ++
    (if Nat.eqb k (ncx - 1) then ask user (c1 + 1) East k l (T c) else []) ++
    (if Nat.eqb l 0 then ask user (c1 - (ncx + 2)) South k l (T c) else []) ++
    (if Nat.eqb l (ncz - 1) then ask user (c1 + (ncx + 2)) North k l (T c) else []) ++
    (if Nat.ltb l (ncz - 1) then if op c && Z.eqb (t (c + ncx)) 30 then ask user c1 Surface k l (T c) else [] else [])).
Definition all_cells (ncx ncz : nat) : list (nat * nat) := flat_map (fun l => map (fun k => (k, l)) (seq 0 ncx)) (seq 0 ncz).
Definition set_field (ncx ncz : nat) inner op t T user (f : field) : field :=
  fold_left store (flat_map (fun kl => cell_writes ncx ncz inner op t T user (fst kl) (snd kl)) (all_cells ncx ncz)) f.

(** 687 *)
Definition open_T (t : nat -> Z) (c : nat) : bool := (t c =? -1)%Z || (t c =? 1)%Z || (t c =? 0)%Z.
(** 761: the third test looks at the type for temperature. *)
Definition open_C (tc t : nat -> Z) (c : nat) : bool := (tc c =? -1)%Z || (tc c =? 1)%Z || (t c =? 0)%Z.
Definition set_T (ncx ncz : nat) (t : nat -> Z) (T : nat -> R) (user : option bc_fun) : field -> field :=
  set_field ncx ncz t (open_T t) t T user.
(** BCc.type is allocated with zeros (MemoryAllocFree.c 504) and not assigned anywhere. *)
Definition bcc_type : nat -> Z := fun _ => 0%Z.
Definition set_C (ncx ncz : nat) (t : nat -> Z) (T : nat -> R) (user : option bc_fun) : field -> field :=
  set_field ncx ncz bcc_type (open_C bcc_type t) t T user.
(** ChemicalRoutines.c 38-56: number of equations of the composition problem. *)
Definition chem_equations (ncx ncz : nat) : nat :=
  fold_left (fun n kl => if Z.eqb (bcc_type (fst kl + snd kl * ncx)) 30 then n else S n) (all_cells ncx ncz) 0.

(** 618-625: temperature of the cells with the option fix_temperature, [f] = FixTemperature, [p] = p_in. *)
Definition fix_temperature (on : bool) (f : R -> R) (p : nat -> R) (T : nat -> R) : nat -> R :=
  fun c => if on then f (p 0) else T c.
