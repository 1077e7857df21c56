(** * What writing a file does to a number of the running program

    Before writing, arrays are multiplied in place by their unit, and afterwards they
    are brought back: by a division for checkpoints (MDLIB/InputOutput.c 509-700 and
    852-1003), by a multiplication with [1.0/unit] for the residual files
    (MDLIB/HDF5Output.c 1266-1298, MDLIB/MiscFunctions.c 171-177). Arithmetic is IEEE
    binary64, rounding to nearest even, with gradual underflow and without overflow. *)
From Coq Require Import ZArith Reals.
From Flocq Require Import Core.
From Verif Require Import OutModel.
Local Open Scope R_scope.

(** x *= s; ... x /= s *)
Definition checkpoint_trip (s x : R) : R := dbl (dbl (x * s) / s).
(** ArrayTimesScalar(x, s); ... ArrayTimesScalar(x, 1.0/s) *)
Definition residual_trip (s x : R) : R := dbl (dbl (x * s) * dbl (1 / s)).
(** [n] files written one after the other with nothing in between. *)
Definition after (n : nat) (trip : R -> R) (x : R) : R := Nat.iter n trip x.
