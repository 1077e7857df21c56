(** * Boundary set-up: positions, user callbacks, balancing, smoothing, templates

    Transcription of MDLIB/Setup.c 187-199 (ValidateInternalPoint), 205-561
    (SetBCs, velocity parts), 564-608 (pressure part), 906-1007 (templates).
    Velocities are reals. Arrays are functions of (k, l) instead of the flat
    index k + l*w (a bijection, C21). Only the velocity sums used afterwards are
    kept. *)
From Coq Require Import Reals ZArith List Bool.
Import ListNotations.
From Verif Require Import GridModel P2GModel.
Local Open Scope R_scope.

(** mdoodz.h, enum POSITION *)
Inductive position := NE | NW | SE | SW | INTERNAL | North | South | West | East | FreeSurface.

(** Setup.c 228-251 (Vx), 446-469 (Vz), 571-595 (P): [kE], [lN] = last column and row. *)
Definition classify (kE lN k l : nat) : position :=
  if Nat.eqb k 0 then (if Nat.eqb l lN then NW else if Nat.eqb l 0 then SW else West)
  else if Nat.eqb k kE then (if Nat.eqb l lN then NE else if Nat.eqb l 0 then SE else East)
  else if Nat.eqb l 0 then South
  else if Nat.eqb l lN then North
  else INTERNAL.
Definition pos_vx (nx nz : nat) := classify (nx - 1) nz.
Definition pos_vz (nx nz : nat) := classify nx (nz - 1).
(** 571-595: the pressure position also tells the free surface. [tp] = BCp.type. *)
Definition pos_p (ncx ncz : nat) (tp : nat -> nat -> Z) (k l : nat) : position :=
  match classify (ncx - 1) (ncz - 1) k l with
  | INTERNAL => if ((tp k l =? -1)%Z || (tp k l =? 1)%Z || (tp k l =? 0)%Z) && (tp k (S l) =? 30)%Z
                then FreeSurface else INTERNAL
  | p => p
  end.

(** 187-199: true = the program goes on. *)
Definition validate_internal (p : position) (type : Z) : bool :=
  match p with INTERNAL => (type =? -1)%Z | _ => negb (type =? -1)%Z end.

Record bcs := BCs { bt : nat -> nat -> Z; bv : nat -> nat -> R; wsum : R; esum : R; ssum : R }.
Definition upd2 {A} (f : nat -> nat -> A) (k l : nat) (x : A) : nat -> nat -> A :=
  fun k' l' => if Nat.eqb k' k && Nat.eqb l' l then x else f k' l'.

(** 225-270 and 442-490: one node. [None] = exit(144). (For Vx the code keeps no
    south sum; it is never used there.) *)
Definition set_node (kE lN : nat) (cb : position -> nat -> nat -> Z * R) (o : option bcs) (kl : nat * nat) : option bcs :=
  match o with
  | None => None
  | Some s =>
      let (k, l) := kl in
      if (bt s k l =? 30)%Z then Some s else
      let p := classify kE lN k l in
      let (ty, va) := cb p k l in
      if validate_internal p ty then
        Some (BCs (upd2 (bt s) k l ty) (upd2 (bv s) k l (if (ty =? 11)%Z then 2 * va else va))
                  (if Nat.eqb k 0 then wsum s + va else wsum s)
                  (if negb (Nat.eqb k 0) && Nat.eqb k kE then esum s + va else esum s)
                  (if negb (Nat.eqb k 0) && negb (Nat.eqb k kE) && Nat.eqb l 0 then ssum s + va else ssum s))
      else None
  end.
Definition nodes (kE lN : nat) : list (nat * nat) :=
  flat_map (fun l => map (fun k => (k, l)) (seq 0 (kE + 1))) (seq 0 (lN + 1)).
Definition set_bcs (kE lN : nat) (cb : position -> nat -> nat -> Z * R) (t : nat -> nat -> Z) (v : nat -> nat -> R) : option bcs :=
  fold_left (set_node kE lN cb) (nodes kE lN) (Some (BCs t v 0 0 0)).

(** ** Balancing *)
Definition tolerance : R := 1 / 1000000.            (* 273 *)
Definition is0 (x : R) : bool := if Req_EM_T x 0 then true else false.
Definition Rltb (a b : R) : bool := if Rlt_dec a b then true else false.
Definition beyond (x : R) : bool := Rltb tolerance x || Rltb x (- tolerance).

(** 320-334: one diffusion sweep over [n] values; the coefficient is not a number
    when the spacing is 0. *)
Definition kappa (dx : R) : option R := if Req_EM_T dx 0 then None else Some (3 / 10 * (15 / 10 * dx ^ 2) / dx ^ 2).
Definition sweep (kap : R) (n : nat) (b : nat -> R) : nat -> R :=
  fun l => if Nat.leb 1 l && Nat.ltb l (n - 1) then b l + kap * (b (l + 1)%nat - 2 * b l + b (l - 1)%nat) else b l.
Definition smooth (kap : R) (n : nat) (b : nat -> R) : nat -> R := Nat.iter 20 (sweep kap n) b.

Inductive balanced :=
| Unchanged                      (* balance below the tolerance *)
| Exit144                        (* no zero value left to correct *)
| BadMemory                      (* write to an allocation of 0 bytes, 331 *)
| NotANumber
| Balanced (corrected : nat -> R) (nz : nat) (final : nat -> R).

(** Values at rows [1 .. m] where [isair l = false]. *)
Definition rows (isair : nat -> bool) (from count : nat) : list nat := filter (fun l => negb (isair l)) (seq from count).

(** 294-306, 310-342: [v1] = values after the correction, of which rows 1 .. n are
    copied, smoothed and written back; [space] = 318, 388, 529. *)
Definition write_back (n : nat) (v1 b : nat -> R) : nat -> R :=
  fun l => if Nat.leb 1 l && Nat.leb l n then b (l - 1)%nat else v1 l.
Definition smoothed (n : nat) (space : R) (v1 : nat -> R) : balanced :=
  let b := fun i => v1 (i + 1)%nat in
  if Nat.leb n 2 then Balanced v1 n (write_back n v1 b) else
  match kappa (space / (INR n - 1)) with
  | None => NotANumber
  | Some kap => Balanced v1 n (write_back n v1 (smooth kap n b))
  end.
Definition fill (lo hi : nat) (t : nat -> Z) (v : nat -> R) (c : R) : nat -> R :=
  fun l => if Nat.leb lo l && Nat.leb l hi && negb (t l =? 30)%Z && is0 (v l) then c else v l.
Definition zero_count (t : nat -> Z) (v : nat -> R) (from count : nat) : nat :=
  length (filter (fun l => is0 (v l)) (rows (fun l => (t l =? 30)%Z) from count)).
Definition beyond_count (t : nat -> Z) (v : nat -> R) (from count : nat) : nat :=
  length (filter (fun l => beyond (v l)) (rows (fun l => (t l =? 30)%Z) from count)).

(** 275-343 (west) and 345-413 (east): [t], [v] = type and value in the column,
    [S] = VxWestSum or VxEastSum. *)
Definition balance_side (nz : nat) (t : nat -> Z) (v : nat -> R) (S space : R) : balanced :=
  if negb (beyond S) then Unchanged else
  let count := zero_count t v 1 (nz - 1) in
  if Nat.eqb count 0 then Exit144 else
  let v1 := fill 1 nz t v (- S / INR count) in
  let n := beyond_count t v1 1 nz in
  if Nat.eqb n 0 then BadMemory else smoothed n space v1.

(** 495-553 (south), columns 0 .. Nx. *)
Definition balance_south (nx : nat) (t : nat -> Z) (v : nat -> R) (S space : R) : balanced :=
  if negb (beyond S) then Unchanged else
  let count := zero_count t v 0 (nx + 1) in
  if Nat.eqb count 0 then Exit144 else
  smoothed nx space (fill 0 nx t v (- S / INR count)).
(** 529: subtracts zmin from xmax. *)
Definition south_space (xmax zmin scL : R) : R := (xmax + - zmin) * scL.

(** ** Templates, 906-1007. [e] = bkg_strain_rate, coordinates as functions of k, l. *)
Definition pure_vx (e : R) (x : nat -> R) (p : position) (k l : nat) : Z * R :=
  match p with
  | North | South | NW | SW | NE | SE => (13%Z, 0)
  | West | East => (0%Z, - x k * e)
  | _ => ((-1)%Z, 0)
  end.
Definition simple_vx (e zmin zmax : R) (p : position) (k l : nat) : Z * R :=
  let Lz := zmax - zmin in
  match p with
  | South | SE | SW => (11%Z, - e * Lz)
  | North | NE | NW => (11%Z, e * Lz)
  | East => ((-12)%Z, 0)
  | West => ((-2)%Z, 0)
  | _ => ((-1)%Z, 0)
  end.
Definition pure_vz (e : R) (z : nat -> R) (p : position) (k l : nat) : Z * R :=
  match p with
  | West | East | SW | SE | NW | NE => (13%Z, 0)
  | South | North => (0%Z, z l * e)
  | _ => ((-1)%Z, 0)
  end.
Definition simple_vz (p : position) (k l : nat) : Z * R :=
  match p with
  | West | East | SW | SE | NW | NE => ((-12)%Z, 0)
  | South | North => (0%Z, 0)
  | _ => ((-1)%Z, 0)
  end.
