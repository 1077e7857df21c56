(** * The chain of surface markers

    Transcription of MDLIB/FreeSurface.c 73-90 (CorrectTopoIni), 96-182
    (AddPartSed), 188-311 (RemeshMarkerChain), 317-388 (InterpTopoPart2Grid,
    Cartesian case), 805-834 (CleanUpSurfaceParticles), 903-985
    (DiffuseAlongTopography), 1067-1092 (KeepZeroMeanTopo), and of the order of the
    calls in MDLIB/Main_DOODZ.c 469, 1080-1132.

    Doubles are reals; a C cast to [int] of a real within range is its floor or
    ceiling. Chain and marker arrays are functions of the index; [nat] indices are
    in range unless an outcome says otherwise. The two coefficients of the surface in
    a column are those of [FlagModel] ([fit_a], [fit_b]). *)
From Coq Require Import ZArith Reals List Bool Arith.
Import ListNotations.
From Verif Require Import GridModel TimeStepModel P2GModel AdvModel FlagModel.
Local Open Scope R_scope.

(** ** Column of a point *)
(** 81-82, 251-252, 294-295, 329-330, 823-824: [x0] is the first cell centre. *)
Definition column_raw (x0 dx x : R) : Z := (Zceil ((x - x0) / dx + 1 / 2) - 1)%Z.
(** 83-84, 253-254, 296-297, 826-827 *)
Definition clampz (n c : Z) : Z :=
  let c := if (c <? 0)%Z then 0%Z else c in if (n - 1 <? c)%Z then (n - 1)%Z else c.
Definition column (ncx : nat) (x0 dx x : R) : nat := Z.to_nat (clampz (Z.of_nat ncx) (column_raw x0 dx x)).

(** Height of the surface at [x], from the coefficients of its column (85, 258, 298). *)
Definition grid_topo (ncx : nat) (xmin dx : R) (a b : nat -> R) (x : R) : R :=
  let ic := column ncx (xmin + dx / 2) dx x in b ic + a ic * x.

(** ** From the chain to the grid *)
Record cmark : Type := CM { cx : R; cz : R; cz0 : R; cph : Z }.
Definition on_chain (m : cmark) : bool := negb (cph m =? -1)%Z.
Definition sum (l : list R) : R := fold_right Rplus 0 l.

(** 326-337: total weight and weighted value of column [k]. *)
Definition weight (x0 dx : R) (k : nat) (m : cmark) : R :=
  if on_chain m && (column_raw x0 dx (cx m) =? Z.of_nat k)%Z
  then 1 - 2 * Rabs (x0 + INR k * dx - cx m) / dx else 0.
Definition mark_val (update : bool) (m : cmark) : R := if update then cz m - cz0 m else cz m.
Definition Wm (x0 dx : R) (l : list cmark) (k : nat) : R := sum (map (weight x0 dx k) l).
Definition BmWm (update : bool) (x0 dx : R) (l : list cmark) (k : nat) : R :=
  sum (map (fun m => mark_val update m * weight x0 dx k m) l).
(** 339-346 *)
Definition tiny : R := / 10 ^ 30.
Definition delta (update : bool) (x0 dx : R) (l : list cmark) (k : nat) : R :=
  if Rltb (Wm x0 dx l k) tiny then 0 else BmWm update x0 dx l k / Wm x0 dx l k.
(** 348-359 *)
Definition inner_height (update : bool) (x0 dx : R) (l : list cmark) (height0 : nat -> R) (k : nat) : R :=
  (if update then height0 k else 0) + 1 / 2 * (delta update x0 dx l k + delta update x0 dx l (k - 1)%nat).
Definition topo_height (nx : nat) (update : bool) (x0 dx : R) (l : list cmark) (height0 : nat -> R) (k : nat) : R :=
  let h := inner_height update x0 dx l height0 in
  if Nat.eqb k (nx - 1) then h (nx - 2)%nat else if Nat.eqb k 0 then h 1%nat else h k.

(** ** Remeshing, mode 1 *)
Record chain : Type := Chain { nb : nat; chx : nat -> R; chz : nat -> R; chz0 : nat -> R; chp : nat -> Z }.
Definition fine_column (ncx : nat) (xmin dx x : R) : nat :=
  let c := (Zceil ((x - (xmin + dx / 2 / 2)) / dx * 2 + 1 / 2) - 1)%Z in
  Z.to_nat (clampz (Z.of_nat (2 * ncx)) c).
(** 206-219 *)
Definition out_of_box (xmin xmax x : R) : bool := Rltb xmax x || Rltb x xmin.
Definition repase (xmin xmax : R) (c : chain) : chain :=
  Chain (nb c) (chx c) (chz c) (chz0 c)
    (fun k => if (k <? nb c)%nat then (if out_of_box xmin xmax (chx c k) then -1 else 0)%Z else chp c k).
Definition in_fine (ncx : nat) (xmin dx : R) (c : chain) (f k : nat) : bool :=
  negb (chp c k =? -1)%Z && Nat.eqb (fine_column ncx xmin dx (chx c k)) f.
Definition num_mark (ncx : nat) (xmin dx : R) (c : chain) (f : nat) : nat :=
  length (filter (in_fine ncx xmin dx c f) (seq 0 (nb c))).
(** 222-233 *)
Definition reusable (c : chain) : list nat := filter (fun k => (chp c k =? -1)%Z) (seq 0 (nb c)).

(** 243-259, 262-278: one new marker; the list is the part of [reuse] not used yet. *)
Definition put (c : chain) (k : nat) (x z z0 : R) : chain :=
  Chain (nb c) (upd (chx c) k x) (upd (chz c) k z) (upd (chz0 c) k z0) (chp c).
Definition add_one (surf surf0 : R -> R) (x : R) (s : chain * list nat) : chain * list nat :=
  match s with
  | (c, k :: rest) => (put c k x (surf x) (surf0 x), rest)
  | (c, []) => (put (Chain (S (nb c)) (chx c) (chz c) (chz0 c) (chp c)) (nb c) x (surf x) (surf0 x), [])
  end.
(** 236-285; [None] is [exit(45)]. *)
Definition fill_column (nmax : nat) (xmin dx : R) (surf surf0 : R -> R) (num : nat -> nat)
    (s : option (chain * list nat)) (f : nat) : option (chain * list nat) :=
  match s with
  | None => None
  | Some (c, r) =>
      if (num f <? 4)%nat then
        if (nb c + 1 <? nmax)%nat && (nb c + 2 <? nmax)%nat then
          let s1 := add_one surf surf0 (xmin + INR f * dx / 2 + dx / 4 / 2) (c, r) in
          Some (add_one surf surf0 (xmin + INR f * dx / 2 + 3 * dx / 4 / 2) s1)
        else None
      else s
  end.
Definition remesh1 (ncx nmax : nat) (xmin xmax dx : R) (surf surf0 : R -> R) (c : chain) : option chain :=
  let c1 := repase xmin xmax c in
  option_map fst (loop 0 (2 * ncx) (fill_column nmax xmin dx surf surf0 (num_mark ncx xmin dx c1)) (Some (c1, reusable c1))).

(** Mode 2 (292-304). *)
Definition remesh2 (surf : R -> R) (c : chain) : chain :=
  Chain (nb c) (chx c)
    (fun k => if (k <? nb c)%nat then surf (chx c k) else chz c k)
    (fun k => if (k <? nb c)%nat then surf (chx c k) else chz0 c k) (chp c).

(** The chain as seen by the projection: its first [nb] entries. *)
Definition marks (c : chain) : list cmark := map (fun k => CM (chx c k) (chz c k) (chz0 c k) (chp c k)) (seq 0 (nb c)).

(** One advection sub-step of a chain that needs no new markers (Main_DOODZ.c
    1050-1053, 1080-1084, 1092, 1104, 1123): the chain is moved, projected on the
    grid relative to the heights saved at the start of the time step (469), fitted,
    and put back on the fitted surface. *)
Definition sub_step (nx : nat) (update : bool) (xmin dx : R) (xg height0 : nat -> R) (move : chain -> chain)
    (s : chain * (nat -> R)) : chain * (nat -> R) :=
  let c := move (fst s) in
  let h := topo_height nx update (xmin + dx / 2) dx (marks c) height0 in
  (remesh2 (grid_topo (nx - 1) xmin dx (fit_a dx h) (fit_b dx xg h)) c, h).

(** ** Markers above the surface (811-833) *)
Definition cleanup_column (ncx : nat) (x0 dx x : R) : nat :=
  Z.to_nat (clampz (Z.of_nat ncx) (Zceil (Rabs (x - x0) / dx + 1 / 2) - 1)).
Definition cleanup (ncx : nat) (x0 dx : R) (a b : nat -> R) (p : part) : part :=
  if (pph p =? -1)%Z then p else
    let ic := cleanup_column ncx x0 dx (px p) in
    if Rltb (b ic + a ic * px p) (pz p) then Part (px p) (pz p) (-1)%Z (pvx p) (pvz p) else p.

(** ** Sediment markers (111-180) *)
(** 113-120: abscissa of new marker [ip] (0 or 1) of half column [k]. *)
Definition sed_x (xmin dx : R) (k ip : nat) : R :=
  let xW := xmin + INR k * dx / 2 in let xE := xmin + INR k * dx / 2 + dx / 2 in
  if Nat.eqb ip 0 then xW + dx / 2 / 2 / 2 else xE - dx / 2 / 2 / 2.
Definition sed_phase (time_My ised1 ised2 : Z) : Z := if (0 <? Z.rem time_My 2)%Z then ised1 else ised2.
Record newp : Type := NewP { nx_ : R; nz_ : R; nph : Z; nF : R * R * R * R }.
(** 133-166: deformation gradient (Fxx, Fxz, Fzx, Fzz) as written. *)
Definition new_sed (x z : R) (ph : Z) : newp := NewP x z ph (1, 0, 1, 0).
Definition sed_list (ncx : nat) (xmin dx : R) (surf surf0 : R -> R) (ph : Z) : list newp :=
  flat_map (fun k => flat_map (fun ip =>
    let x := sed_x xmin dx k ip in
    if Rltb (surf0 x) (surf x) then [new_sed x (1 / 2 * (surf x + surf0 x)) ph] else []) [0%nat; 1%nat])
    (seq 0 (2 * ncx)).
(** Indices written: from the current number of markers on, never compared with
    the number allocated. *)
Definition sed_indices (nb_part : nat) (l : list newp) : list nat := seq nb_part (length l).

(** ** Diffusion of the topography (903-985) *)
Record sproc : Type := SProc { sp_mode : Z; sp_diff : R; sp_base : R; sp_rate : R; sp_W : R; sp_V : R }.
Definition dt_expl (p : sproc) (dx : R) : R := 4 / 10 * dx * dx / sp_diff p.
Definition n_sub (p : sproc) (dx T : R) : Z := Int_part (T / dt_expl p dx + 1).
Definition dt_sub (p : sproc) (dx T : R) : R :=
  if Rltb T (dt_expl p dx) then T else T / IZR (n_sub p dx T).
Definition in_valley (p : sproc) (xg : nat -> R) (i : nat) : bool := Rltb (Rabs (xg i)) (1 / 2 * sp_W p).
(** 929-937 *)
Definition n_valley (size : nat) (p : sproc) (xg : nat -> R) : nat :=
  length (filter (in_valley p xg) (seq 1 (size - 2))).
Definition v_num (size : nat) (p : sproc) (dx : R) (xg : nat -> R) : R :=
  sp_W p * dt_expl p dx * (- sp_V p) / (INR (n_valley size p xg) * dx * dt_expl p dx).
(** 952-957: the second loop runs only while its index is 1. *)
Definition half_term (p : sproc) (dx dtr : R) (h : nat -> R) (i : nat) : R :=
  1 / 2 * dtr / dx / dx * sp_diff p * (h (i - 1)%nat + h (i + 1)%nat - 2 * h i).
Definition correction (size : nat) (p : sproc) (dx dtr : R) (h : nat -> R) (i : nat) : R :=
  half_term p dx dtr h i + (if Nat.eqb (size - 2) 1 && Nat.eqb i 1 then half_term p dx dtr h i else 0).
(** 952-970 with [array_ini] and [array] the same array (Main_DOODZ.c 1101). *)
Definition diff_step (size : nat) (p : sproc) (dx dtr : R) (xg : nat -> R) (h : nat -> R) (i : nat) : R :=
  if (1 <=? i)%nat && (i <? size - 1)%nat then
    let e := if (sp_mode p =? 5)%Z && in_valley p xg i then dtr * v_num size p dx xg else 0 in
    let s := if Rltb (h i) (sp_base p) then sp_rate p * dtr else 0 in
    h i + correction size p dx dtr h i + s + e
  else h i.
Definition diffuse (size : nat) (p : sproc) (dx T : R) (xg h : nat -> R) : nat -> R :=
  if (sp_mode p =? 1)%Z || (sp_mode p =? 5)%Z then
    Nat.iter (Z.to_nat (n_sub p dx T)) (diff_step size p dx (dt_sub p dx T) xg) h
  else if (sp_mode p =? 2)%Z then
    fun i => if (i <? size)%nat && Rltb (h i) (sp_base p) then h i + sp_rate p * T else h i
  else h.

(** ** KeepZeroMeanTopo (1069-1077 and 1079-1091) *)
Definition mean_height (nx : nat) (h : nat -> R) : R := sum (map h (seq 0 nx)) / INR nx.
Definition zero_mean (nx : nat) (h : nat -> R) (i : nat) : R := if (i <? nx)%nat then h i - mean_height nx h else h i.
(** Chain entries read: all allocated ones whose phase is not negative. *)
Definition zero_mean_reads (nmax : nat) (c : chain) : list nat := filter (fun k => (-1 <? chp c k)%Z) (seq 0 nmax).
