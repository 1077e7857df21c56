(** * The surface on the grid: sides in polar mode and the twice finer columns

    Transcription of MDLIB/FreeSurface.c 317-385 [InterpTopoPart2Grid] from line 348 on: the heights of the inner nodes come
    from the chain ([inner_height] of SurfModel); this file adds model.polar = 1 and the twice finer columns used by the
    reseeding of markers (ParticleRoutines.c 2466).  Doubles are reals; the square root of a negative number (NaN) is [None]. *)
From Coq Require Import Reals List Bool Arith.
From Verif Require Import GridModel RheoModel SurfModel.
Import ListNotations.
Local Open Scope R_scope.

(** 362: the radius, in scaled units; [L] is scaling.L. *)
Definition radius (L : R) : R := 6370000 / L.
(** 364-365: sqrt((Rad-x)*(Rad+x)). *)
Definition on_circle (Rad x : R) : option R :=
  let a := (Rad - x) * (Rad + x) in if Rltb a 0 then None else Some (sqrt a).
(** 348-368: the heights of the nodes; [h] those of the inner nodes 1 .. nx-2.  352-353 and, without polar mode, 356-359 copy
    the heights of nodes 1 and nx-2 to the ends (356-359 only if pure_shear_ALE <= 0, but to the same effect). *)
Definition node_heights (nx : nat) (polar : bool) (L : R) (xg h : nat -> R) : option (nat -> R) :=
  let h := upd (upd h 0 (h 1%nat)) (nx - 1) (upd h 0 (h 1%nat) (nx - 2)%nat) in
  if polar then
    match on_circle (radius L) (xg 0%nat), on_circle (radius L) (xg (nx - 1)%nat) with
    | Some zW, Some zE => Some (upd (upd h 0 zW) (nx - 1) zE)
    | _, _ => None
    end
  else Some h.
(** 371-381: the loop with its counter k_fine and the array topo->height_finer_c. *)
Definition finer (nx : nat) (h : nat -> R) (f0 : nat -> R) : nat * (nat -> R) :=
  fold_left (fun s k => let f := upd (snd s) (fst s) (3 / 4 * h k + 1 / 4 * h (k + 1)%nat) in
                        let kf := (fst s + 1)%nat in
                        let f := upd f kf (1 / 4 * h k + 3 / 4 * h (k + 1)%nat) in ((kf + 1)%nat, f))
    (seq 0 (nx - 1)) (0%nat, f0).
(** ParticleRoutines.c 2466-2467: the height the reseeding uses in the fine column [ic], and the centre of that column; [xmin]
    and [dx] are those of the fine grid there (half the spacing). *)
Definition reseed_height (free_surface : bool) (f : nat -> R) (zmax dz : R) (ic : nat) : R := if free_surface then f ic else zmax + dz / 2.
Definition reseed_centre (xmin dx : R) (ic : nat) : R := xmin + dx / 2 + INR ic * dx.
