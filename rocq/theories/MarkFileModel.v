(** * File of initial markers

    Transcription of MDLIB/Setup.c 142-173 (end of [SetParticles]): writing and reading the
    initial markers. Printing left out; that every file is opened twice (145/146, 162/163)
    and closed once has no effect on its contents.

    The file is a list of bytes, least significant first. A double is its 64-bit pattern
    (0 .. 2^64-1), an int is a number in -2^31 .. 2^31-1; [None] is an element left
    indeterminate by an incomplete fread (C11 7.21.8.1). *)
From Coq Require Import List ZArith Bool Arith.
Import ListNotations.
From Verif Require Import GridModel.
Local Open Scope Z_scope.

(** Representation of a number in n bytes. *)
Fixpoint bytes (n : nat) (v : Z) : list Z :=
  match n with O => [] | S n => v mod 256 :: bytes n (v / 256) end.
Fixpoint number (l : list Z) : Z :=
  match l with [] => 0 | b :: l => b + 256 * number l end.
Definition as_double (l : list Z) : Z := number l.
Definition as_int (l : list Z) : Z := let u := number l in if u <? 2 ^ 31 then u else u - 2 ^ 32.

(** fwrite (lines 153-155): n elements of sz bytes. *)
Definition fwrite (sz n : nat) (a : nat -> Z) : list Z := flat_map (fun i => bytes sz (a i)) (seq 0 n).

(** fread (lines 170-172): n elements of sz bytes from element i on; returns the array and the
    rest of the file. *)
Fixpoint fread (sz : nat) (dec : list Z -> Z) (n i : nat) (a : nat -> option Z) (file : list Z) : (nat -> option Z) * list Z :=
  match n with
  | O => (a, file)
  | S n =>
      if (length file <? sz)%nat then ((if (length file =? 0)%nat then a else upd a i None), [])
      else fread sz dec n (i + 1) (upd a i (Some (dec (firstn sz file)))) (skipn sz file)
  end.

Record marks := Marks { mk_x : nat -> option Z; mk_z : nat -> option Z; mk_phase : nat -> option Z }.

(** Lines 143-157: [disk] is the file if it exists, [writable] whether it can be opened
    for writing; [None] is exit(1). *)
Definition save (n : nat) (writable : bool) (x z phase : nat -> Z) : option (list Z) :=
  if writable then Some (fwrite 8 n x ++ fwrite 8 n z ++ fwrite 4 n phase) else None.

(** Lines 159-174. *)
Definition load (n : nat) (disk : option (list Z)) (m : marks) : option marks :=
  match disk with
  | None => None
  | Some file =>
      let '(x, file) := fread 8 as_double n 0 (mk_x m) file in
      let '(z, file) := fread 8 as_double n 0 (mk_z m) file in
      let '(phase, _) := fread 4 as_int n 0 (mk_phase m) file in
      Some (Marks x z phase)
  end.

(** Lines 142-174: both options, after the markers have been set (45-140). Everything else
    that was set on the markers ([rest]: temperature, grain size, density, stress, ...) is
    left alone. *)
Definition initial_markers {A} (saving loading : Z) (n : nat) (writable : bool) (disk : option (list Z)) (x z phase : nat -> Z) (rest : A) : option (option (list Z) * marks * A) :=
  let m := Marks (fun i => Some (x i)) (fun i => Some (z i)) (fun i => Some (phase i)) in
  match (if saving =? 1 then match save n writable x z phase with Some f => Some (Some f) | None => None end else Some disk) with
  | None => None
  | Some disk => if loading =? 1 then match load n disk m with Some m => Some (disk, m, rest) | None => None end else Some (disk, m, rest)
  end.
