(** * Adding markers to depleted cells

    Transcription of MDLIB/ParticleRoutines.c 2334-2585 (CountPartCell, reseed_mode 1)
    and 688-752 (AssignMarkerProperties). Doubles are reals. A marker carries its
    position, phase, generation, one property that is always copied ([kept]: dual
    phase, velocity, strains, deformation gradient, ...) and one that is copied or
    interpolated ([itp]: temperature, pressure, grain size, stresses, ...). The phase
    proportions of 2338-2340 (P2Mastah, C50) and the printed summaries are left out.
    [MALLOC] never fails. *)
From Coq Require Import ZArith Reals List Bool.
Import ListNotations.
From Verif Require Import P2GModel AdvModel.
Local Open Scope R_scope.

Record part : Type := Part { qx : R; qz : R; qph : Z; qgen : Z; kept : R; itp : R }.

(** model.Nx, Nz, xmin, xmax, zmin, zmax; dx and dz follow (SetGridCoordinates). *)
Record box : Type := Box { bNx : Z; bNz : Z; bx0 : R; bx1 : R; bz0 : R; bz1 : R }.
Definition bdx (b : box) : R := (bx1 b - bx0 b) / IZR (bNx b - 1).
Definition bdz (b : box) : R := (bz1 b - bz0 b) / IZR (bNz b - 1).

(** 2343-2347: mesh of double resolution. *)
Definition ncx (b : box) : Z := (2 * bNx b - 2)%Z.
Definition ncz (b : box) : Z := (2 * bNz b - 2)%Z.
Definition fdx (b : box) : R := bdx b / 2.
Definition fdz (b : box) : R := bdz b / 2.
(** 2465-2466 *)
Definition centre_x (b : box) (ic : Z) : R := bx0 b + fdx b / 2 + IZR ic * fdx b.
Definition centre_z (b : box) (jc : Z) : R := bz0 b + fdz b / 2 + IZR jc * fdz b.

(** 2360-2381: flags copied from the coarse mesh. *)
Definition fine_flag (b : box) (bct : Z -> Z) (ic jc : Z) : Z :=
  let icoarse := nearest (centre_x b ic) (bx0 b + bdx b / 2) (bdx b) (bNx b - 1) in
  let jcoarse := nearest (centre_z b jc) (bz0 b + bdz b / 2) (bdz b) (bNz b - 1) in
  bct (icoarse + jcoarse * (bNx b - 1))%Z.

(** 2386-2399, 2432-2445: fine cell of a marker. *)
Definition cell_x (b : box) (p : part) : Z := nearest (qx p) (bx0 b + fdx b / 2) (fdx b) (ncx b).
Definition cell_z (b : box) (p : part) : Z := nearest (qz p) (bz0 b + fdz b / 2) (fdz b) (ncz b).
Definition cell (b : box) (p : part) : Z := (cell_x b p + cell_z b p * ncx b)%Z.
Definition activeb (p : part) : bool := negb (qph p =? -1)%Z.

Definition zupd {A} (f : Z -> A) (k : Z) (v : A) : Z -> A := fun k' => if (k' =? k)%Z then v else f k'.
Definition nupd {A} (f : nat -> A) (k : nat) (v : A) : nat -> A := fun k' => if (k' =? k)%nat then v else f k'.

(** 2384-2407: nb_part_cell and part_reuse. *)
Definition count_step (b : box) (arr : nat -> part) (s : (Z -> nat) * list nat) (k : nat) : (Z -> nat) * list nat :=
  if activeb (arr k) then let kc := cell b (arr k) in (zupd (fst s) kc (S (fst s kc)), snd s)
  else (fst s, snd s ++ [k]).
Definition count_parts (b : box) (n : nat) (arr : nat -> part) : (Z -> nat) * list nat :=
  fold_left (count_step b arr) (seq 0 n) (fun _ => 0%nat, []).
(** 2430-2451: part_cell; part_count[kc] is the length of the list built so far. *)
Definition store_step (b : box) (arr : nat -> part) (s : Z -> list nat) (k : nat) : Z -> list nat :=
  if activeb (arr k) then let kc := cell b (arr k) in zupd s kc (s kc ++ [k]) else s.
Definition store_parts (b : box) (n : nat) (arr : nat -> part) : Z -> list nat :=
  fold_left (store_step b arr) (seq 0 n) (fun _ => []).

Inductive result (A : Type) : Type := Done (a : A) | Exits (code : Z) | UB.
Arguments Done {A}. Arguments Exits {A}. Arguments UB {A}.

(** 2470-2478: the block of cells around a cell, in loop order. *)
Definition zrange (lo hi : Z) : list Z := map (fun t => (lo + Z.of_nat t)%Z) (seq 0 (Z.to_nat (hi - lo + 1))).
Definition lo2 (i : Z) : Z := let m := if (0 <? i)%Z then (i - 1)%Z else 0%Z in if (1 <? i)%Z then (i - 2)%Z else m.
Definition hi2 (i n : Z) : Z := let m := if (i <? n - 1)%Z then (i + 1)%Z else (n - 1)%Z in if (i <? n - 2)%Z then (i + 2)%Z else m.
Definition block (b : box) (ic jc : Z) : list Z :=
  flat_map (fun i => map (fun j => (i + j * ncx b)%Z) (zrange (lo2 jc) (hi2 jc (ncz b)))) (zrange (lo2 ic) (hi2 ic (ncx b))).

(** 2500-2509: part_count[kc] is read after it was freed (2453). [freed] is what the
    freed memory holds; [None]: no access is allowed (C semantics). Reading more
    indices than a cell has, or storing more than were allocated, is undefined too. *)
Definition read_cell (freed : option (Z -> nat)) (part_cell : Z -> list nat) (kc : Z) : option (list nat) :=
  match freed with
  | None => None
  | Some g => if (g kc <=? length (part_cell kc))%nat then Some (firstn (g kc) (part_cell kc)) else None
  end.
Fixpoint read_cells (freed : option (Z -> nat)) (part_cell : Z -> list nat) (ks : list Z) : option (list nat) :=
  match ks with
  | [] => Some []
  | k :: ks => match read_cell freed part_cell k, read_cells freed part_cell ks with
               | Some l, Some l' => Some (l ++ l') | _, _ => None end
  end.
Definition neighbours (freed : option (Z -> nat)) (part_cell : Z -> list nat) (nb_neigh : nat) (ks : list Z) : option (list nat) :=
  match read_cells freed part_cell ks with
  | Some l => if (length l <=? nb_neigh)%nat then Some l else None
  | None => None
  end.

(** 2533-2547. *)
Definition distance (p q : part) : R := sqrt ((qx p - qx q) ^ 2 + (qz p - qz q) ^ 2).
Definition closer (arr : nat -> part) (p : part) (best : R * nat) (k : nat) : R * nat :=
  if Rltb (distance p (arr k)) (fst best) then (distance p (arr k), k) else best.
(** neighbours[0] of an empty list: the calloc'ed zero. *)
Definition closest (arr : nat -> part) (p : part) (d0 : R) (l : list nat) : nat :=
  snd (fold_left (closer arr p) l (d0, nth 0 l 0%nat)).

(** 688-752. [grid x z] is the value interpolated at the position (C73). *)
Definition assign (direct : bool) (grid : R -> R -> R) (p src : part) : part :=
  Part (qx p) (qz p) (qph src) (qgen p) (kept src) (if direct then itp src else grid (qx p) (qz p)).

Record state : Type := State { nbp : nat; arr : nat -> part; used : nat }.
Record setting : Type := Setting {
  sbox : box; sflag : Z -> Z; sheight : Z -> R; sfree_surface : bool; sdirect : bool; sgrid : R -> R -> R; smax : nat;
  sfreed : option (Z -> nat) }.

(** 2458-2557: one fine cell. *)
Definition reseed_cell (s : setting) (cnt : Z -> nat) (reuse : list nat) (part_cell : Z -> list nat)
    (st : state) (c : Z * Z) : result state :=
  let b := sbox s in let ic := fst c in let jc := snd c in
  let kc := (ic + jc * ncx b)%Z in
  let h := if sfree_surface s then sheight s ic else bz1 b + bdz b / 2 in
  if (cnt kc <? 2)%nat && negb (fine_flag b (sflag s) ic jc =? 30)%Z then
    let ks := block b ic jc in
    let nb_neigh := fold_left (fun a k => a + cnt k)%nat ks 0%nat in
    if (nb_neigh =? 0)%nat then Exits 122 else
    match neighbours (sfreed s) part_cell nb_neigh ks with
    | None => UB
    | Some l =>
        let x := centre_x b ic in let z := centre_z b jc in
        if Rgeb x (bx0 b) && Rgeb (bx1 b) x && Rgeb z (bz0 b) && (Rgeb (bz1 b) z || Rgeb h z) then
          match (if (used st <? length reuse)%nat && (0 <? length reuse)%nat
                 then Done (nth (used st) reuse 0%nat, State (nbp st) (arr st) (S (used st)))
                 else if (smax s <=? nbp st + 1)%nat then Exits 190
                 else Done (nbp st, State (S (nbp st)) (arr st) (used st))) with
          | Done (new, st') =>
              let p := Part x z (qph (arr st new)) 1 (kept (arr st new)) (itp (arr st new)) in
              let arr1 := nupd (arr st) new p in
              let k := closest arr1 p (bx1 b - bx0 b) l in
              if (qph (arr1 k) =? -1)%Z then Exits 99
              else Done (State (nbp st') (nupd arr1 new (assign (sdirect s) (sgrid s) p (arr1 k))) (used st'))
          | Exits code => Exits code
          | UB => UB
          end
        else Done st
    end
  else Done st.

Fixpoint reseed_cells (s : setting) (cnt : Z -> nat) (reuse : list nat) (part_cell : Z -> list nat)
    (cs : list (Z * Z)) (st : state) : result state :=
  match cs with
  | [] => Done st
  | c :: cs => match reseed_cell s cnt reuse part_cell st c with
               | Done st' => reseed_cells s cnt reuse part_cell cs st' | Exits code => Exits code | UB => UB end
  end.

(** 2458-2459: order of the cells. *)
Definition all_cells (b : box) : list (Z * Z) := list_prod (zrange 0 (ncx b - 1)) (zrange 0 (ncz b - 1)).

Definition reseed (s : setting) (n : nat) (ms : nat -> part) : result state :=
  let b := sbox s in
  let c := count_parts b n ms in
  reseed_cells s (fst c) (snd c) (store_parts b n ms) (all_cells b) (State n ms 0).
