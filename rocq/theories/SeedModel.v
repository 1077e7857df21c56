(** * Adding markers to depleted cells, default method

    Transcription of MDLIB/ParticleRoutines.c 2628-3560 (CountPartCell_OLD, reseed_mode
    0, called with reseed_markers = 1), 1082-1130 (AddPartCell2), 951-990
    (FindClosestPhase2) and 688-752 (AssignMarkerProperties, [ReseedModel.assign]).
    The routine runs with one thread (2660), so every per-thread array is a single one
    covering the whole mesh. Doubles are reals; the node and centre coordinates are
    those of SetGridCoordinates. Left out: the phase proportions (P2Mastah, C50), their
    averaging on periodic sides (3417-3428), printed text, the freeing of memory.
    Allocations never fail. *)
From Coq Require Import ZArith Reals List Bool.
Import ListNotations.
From Verif Require Import P2GModel AdvModel ReseedModel.
Local Open Scope R_scope.

(** Parameters and mesh fields read: BCt.type, free_surface, the surface lines of the
    mesh columns (topo.a, topo.b, topo_ini.a, topo_ini.b), surface_processes,
    surf_ised1, surf_ised2, min_part_cell, periodic_x, direct_neighbour, the grid values
    at a position, Nb_part_max. *)
Record seeding : Type := Seeding {
  dbox : box; dflag : Z -> Z; dfree : bool; dta : Z -> R; dtb : Z -> R; dia : Z -> R; dib : Z -> R;
  dproc : Z; dised1 : Z; dised2 : Z; dmin : Z; dper : bool; ddirect : bool; dgrid : R -> R -> R; dmax : nat }.

(** 2662, 2676-2683: fine cells along x and z, two ghost columns or lines on each side. *)
Definition efx (b : box) : Z := (2 * (bNx b - 1 + 2))%Z.
Definition efz (b : box) : Z := (2 * (bNz b - 1 + 2))%Z.
(** 2689-2694, 2769-2776: first node and first centre of the extended mesh. *)
Definition xg_e0 (b : box) : R := bx0 b - bdx b.
Definition zg_e0 (b : box) : R := bz0 b - bdz b.
Definition xc_e0 (b : box) : R := / 2 * (xg_e0 b + (xg_e0 b + bdx b)).
Definition zc_e0 (b : box) : R := / 2 * (zg_e0 b + (zg_e0 b + bdz b)).

(** 3032-3040, 3097-3105: fine column (line) of a marker. *)
Definition ext_index (x xc d : R) (n : Z) : Z :=
  let ic := (Zceil ((x - (xc - d / 4)) / d * 2 + / 2) - 1)%Z in
  let ic := if (ic <? 0)%Z then 0%Z else ic in
  if (n - 1 <? ic)%Z then (n - 1)%Z else ic.
Definition ext_x (b : box) (p : part) : Z := ext_index (qx p) (xc_e0 b) (bdx b) (efx b).
Definition ext_z (b : box) (p : part) : Z := ext_index (qz p) (zc_e0 b) (bdz b) (efz b).

(** 3043-3072, 3106-3137: cells a marker is counted in; the periodic copies. *)
Definition places (s : seeding) (p : part) : list Z :=
  let b := dbox s in let ic := ext_x b p in let jc := ext_z b p in let w := efx b in
  (ic + jc * w)%Z ::
  (if dper s then
     (if (ic =? w - 1)%Z then [(0 + jc * w)%Z] else []) ++
     (if (ic =? w - 2)%Z then [(1 + jc * w)%Z] else []) ++
     (if (ic =? 0)%Z then [(w - 1 + jc * w)%Z] else []) ++
     (if (ic =? 1)%Z then [(w - 2 + jc * w)%Z] else [])
   else []).

(** 3023-3074: mpc. *)
Definition tally (f : Z -> nat) (kc : Z) : Z -> nat := zupd f kc (S (f kc)).
Definition mpc_step (s : seeding) (ms : nat -> part) (f : Z -> nat) (k : nat) : Z -> nat :=
  if activeb (ms k) then (if (0 <=? qph (ms k))%Z then fold_left tally (places s (ms k)) f else f) else f.
Definition mpc (s : seeding) (n : nat) (ms : nat -> part) : Z -> nat :=
  fold_left (mpc_step s ms) (seq 0 n) (fun _ => 0%nat).
(** 3091-3140: ipcell. *)
Definition enlist (k : nat) (f : Z -> list nat) (kc : Z) : Z -> list nat := zupd f kc (f kc ++ [k]).
Definition ipcell_step (s : seeding) (ms : nat -> part) (f : Z -> list nat) (k : nat) : Z -> list nat :=
  if activeb (ms k) then fold_left (enlist k) (places s (ms k)) f else f.
Definition ipcell (s : seeding) (n : nat) (ms : nat -> part) : Z -> list nat :=
  fold_left (ipcell_step s ms) (seq 0 n) (fun _ => []).
(** 3088, 3108: a cell's list has room for the markers of phase 0 and above only. *)
Definition misfit (n : nat) (ms : nat -> part) : bool :=
  existsb (fun k => activeb (ms k) && negb (0 <=? qph (ms k))%Z) (seq 0 n).
(** 2962-2970, 3076-3085: ipreuse. *)
Definition ipreuse (n : nat) (ms : nat -> part) : list nat := filter (fun k => (qph (ms k) =? -1)%Z) (seq 0 n).

(** 3182-3213 and 3226-3351: the cells around a cell, in the order they are listed. *)
Definition around_offsets : list (Z * Z) :=
  [(0, 0);
   (-1, 0); (1, 0); (0, -1); (0, 1);
   (-1, -1); (1, -1); (-1, 1); (1, 1);
   (-2, 0); (2, 0); (0, -2); (0, 2);
   (-2, -2); (2, -2); (-2, 2); (2, 2);
   (-1, -2); (1, -2); (-1, 2); (1, 2); (-2, -1); (-2, 1); (2, -1); (2, 1)]%Z.
Definition around (nxl kd : Z) : list Z := map (fun o => (kd + fst o + snd o * nxl)%Z) around_offsets.

(** 951-990 *)
Definition closer_sed (s : seeding) (ms : nat -> part) (p : part) (best : R * nat) (k : nat) : R * nat :=
  if Rltb (distance p (ms k)) (fst best) && ((qph (ms k) =? dised1 s)%Z || (qph (ms k) =? dised2 s)%Z)
  then (distance p (ms k), k) else best.
Definition closest2 (s : seeding) (ms : nat -> part) (p : part) (sedim : bool) (l : list nat) : nat :=
  let d0 := bx1 (dbox s) - bx0 (dbox s) in
  if sedim then snd (fold_left (closer_sed s ms p) l (d0, nth 0 l 0%nat))
  else closest ms p d0 l.

(** 1082-1130: the position tried, and the marker to copy ([None]: no marker is added).
    [k], [l] are the loop counters of the caller, [cell] the mesh column. *)
Definition add_part (s : seeding) (ms : nat -> part) (k l cell : Z) (lst : list nat) : option (R * R * nat) :=
  let b := dbox s in
  let x := bx0 b + IZR (k - 2) * bdx b / 2 + bdx b / 4 in
  let z := bz0 b + IZR (l - 2) * bdz b / 2 + bdz b / 4 in
  let h := if dfree s then dta s cell * x + dtb s cell else bz1 b in
  let h_ini := if dfree s then dia s cell * x + dib s cell else bz1 b in
  if Rltb (bx0 b) x && Rltb (bz0 b) z && Rltb z h then
    let sedim := (0 <? dproc s)%Z && Rltb h_ini z in
    Some (x, z, closest2 s ms (Part x z 0 0 0 0) sedim lst)
  else None.

(** 3142-3361: one fine cell. [news] are the positions and source markers found so far;
    the arrays newx, newz, newi have Nb_part entries (3019-3021). *)
Definition collect_cell (s : seeding) (n : nat) (ms : nat -> part) (news : list (R * R * nat)) (c : Z * Z)
    : result (list (R * R * nat)) :=
  let b := dbox s in let k := fst c in let l := snd c in
  let kd := (k + l * efx b)%Z in
  let ic := nearest (xg_e0 b + bdx b / 4 + IZR k * bdx b / 2) (bx0 b + bdx b / 2) (bdx b) (bNx b - 1) in
  let jc := nearest (zg_e0 b + bdz b / 4 + IZR l * bdz b / 2) (bz0 b + bdz b / 2) (bdz b) (bNz b - 1) in
  if negb (dflag s (ic + jc * (bNx b - 1))%Z =? 30)%Z then
    if (Z.of_nat (mpc s n ms kd) <? Z.quot (dmin s) 4)%Z then
      let ks := around (efx b) kd in
      let neighs := fold_left (fun a kc => a + mpc s n ms kc)%nat ks 0%nat in
      if (neighs =? 0)%nat then Exits 333
      else match add_part s ms k l ic (flat_map (ipcell s n ms) ks) with
           | None => Done news
           | Some t => if (length news <? n)%nat then Done (news ++ [t]) else UB
           end
    else Done news
  else Done news.
Fixpoint collect (s : seeding) (n : nat) (ms : nat -> part) (cs : list (Z * Z)) (news : list (R * R * nat))
    : result (list (R * R * nat)) :=
  match cs with
  | [] => Done news
  | c :: cs => match collect_cell s n ms news c with
               | Done news' => collect s n ms cs news' | Exits code => Exits code | UB => UB end
  end.
(** 3143-3144: order of the cells. *)
Definition fine_cells (b : box) : list (Z * Z) := list_prod (zrange 2 (efx b - 3)) (zrange 2 (efz b - 3)).

(** 3372-3406: the new markers get their places in the marker arrays ([ip]: number of
    the new marker, [nb]: entries appended so far). The arrays have Nb_part_max entries. *)
Fixpoint settle (s : seeding) (n : nat) (reuse : list nat) (ip nb : nat) (news : list (R * R * nat)) (ms : nat -> part)
    : result (nat * (nat -> part)) :=
  match news with
  | [] => Done (nb, ms)
  | t :: news =>
      let k := if (ip <? length reuse)%nat then nth ip reuse 0%nat else (n + nb)%nat in
      let nb' := if (ip <? length reuse)%nat then nb else S nb in
      if (dmax s <? k)%nat then Exits 1
      else if (k =? dmax s)%nat then UB
      else
        let p := Part (fst (fst t)) (snd (fst t)) (qph (ms k)) 1 (kept (ms k)) (itp (ms k)) in
        let ms1 := nupd ms k p in
        settle s n reuse (S ip) nb' news (nupd ms1 k (assign (ddirect s) (dgrid s) p (ms1 (snd t))))
  end.

(** 3409-3411: the marker count afterwards. *)
Definition seed (s : seeding) (n : nat) (ms : nat -> part) : result (nat * (nat -> part)) :=
  if misfit n ms then UB else
  match collect s n ms (fine_cells (dbox s)) [] with
  | Done news => match settle s n (ipreuse n ms) 0 0 news ms with
                 | Done r => Done ((n + fst r)%nat, snd r) | Exits code => Exits code | UB => UB end
  | Exits code => Exits code
  | UB => UB
  end.
