(** * Threads: field extrema, work partition, parallel assembly and its buffers

    Transcription of
    - MDLIB/MiscFunctions.c 183-217 ([MinMaxArray]), 223-256 ([MinMaxArrayTag]),
    - MDLIB/StokesAssemblyDecoupled.c 1226-1245 ([DomainDecompositionDecoupled]),
      1251-1266 ([AllocateTempMatArraysDecoupled]), 1149-1196
      ([MergeParallelMatrixDecoupled]), 2340-2386 ([MergeParallelMatrix]),
      1403-1456 (parallel loop over the nodes of one grid and merge), 44-54
      ([AddCoeff3]), 88-180, 575-690, 1113-1124 (which entries a row emits).

    A parallel loop is a family of per-thread instruction lists; an execution is
    any interleaving of them. *)
From Coq Require Import List ZArith Reals Bool Arith.
Import ListNotations.
From Verif Require Import GridModel.

(** ** MinMaxArray *)

(** A [double]: finite, infinite or NaN, with C's comparison ([false] on NaN). *)
Inductive dbl := Fin (r : R) | PInf | MInf | NaN.

Definition Rgtb (a b : R) : bool := if Rlt_dec b a then true else false.

Definition dgt (a b : dbl) : bool :=
  match a, b with
  | NaN, _ | _, NaN => false
  | Fin x, Fin y => Rgtb x y
  | PInf, PInf => false | PInf, _ => true
  | _, PInf => false
  | MInf, _ => false
  | Fin _, MInf => true
  end.

Definition finite (a : dbl) : bool := match a with Fin _ => true | _ => false end.

(** Lines 194-201: what one thread does with the indices it is given (in the
    order it gets them): running extrema from [array[0]]; [None] is [exit(1)].
    [keep] is the tag test of [MinMaxArrayTag] (line 234), [check] the NaN/Inf
    test of [MinMaxArray] only. *)
Definition thread_extrema (check : bool) (keep : nat -> bool) (a : nat -> dbl) (idx : list nat)
  : option (dbl * dbl) :=
  fold_left (fun s k =>
    match s with
    | None => None
    | Some (pmin, pmax) =>
        let pmax := if keep k && dgt (a k) pmax then a k else pmax in
        let pmin := if keep k && dgt pmin (a k) then a k else pmin in
        if check && negb (finite (a k)) then None else Some (pmin, pmax)
    end) idx (Some (a 0, a 0)).

(** Lines 202-214: a thread merges its [pmax] into [max]. The first test is made
    without lock on a possibly stale value [seen]; the second inside the critical
    section. ([pmin] likewise with the comparison reversed.) *)
Definition merge_one (greater : dbl -> dbl -> bool) (shared seen mine : dbl) : dbl :=
  if greater mine seen then (if greater mine shared then mine else shared) else shared.

(** All threads merge, in the order of the list; [hist] lists the values [max]
    has had so far (latest first), [pick] is the age of the value seen by the
    unlocked test. *)
Fixpoint merge_all (greater : dbl -> dbl -> bool) (hist : list dbl) (cur : dbl)
    (threads : list (dbl * nat)) : dbl :=
  match threads with
  | [] => cur
  | (mine, pick) :: r =>
      let cur' := merge_one greater cur (nth pick (cur :: hist) cur) mine in
      merge_all greater (cur :: hist) cur' r
  end.

Fixpoint opt_all {A} (l : list (option A)) : option (list A) :=
  match l with
  | [] => Some []
  | None :: _ => None
  | Some x :: r => match opt_all r with None => None | Some y => Some (x :: y) end
  end.

(** The whole function: [parts] are the indices of each thread, in its order;
    threads reach the two merges in the orders [order_max], [order_min] (lists of
    thread number and age of the value seen). *)
Definition minmax (check : bool) (keep : nat -> bool) (a : nat -> dbl) (parts : list (list nat))
    (order_max order_min : list (nat * nat)) : option (dbl * dbl) :=
  match opt_all (map (thread_extrema check keep a) parts) with
  | None => None
  | Some ex =>
      let mx := merge_all dgt [] (a 0) (map (fun o => (snd (nth (fst o) ex (a 0, a 0)), snd o)) order_max) in
      let mn := merge_all (fun x y => dgt y x) [] (a 0)
                  (map (fun o => (fst (nth (fst o) ex (a 0, a 0)), snd o)) order_min) in
      Some (mn, mx)
  end.

(** ** DomainDecompositionDecoupled *)

Record decomp := Decomp { estart : nat -> Z; eend : nat -> Z; DD : nat -> Z; x0 : Z }.

(** Lines 1229-1244. [%] and [/] are C's truncated operators. *)
Definition decompose (N n_th : Z) (d0 : decomp) : decomp :=
  let eps := Z.rem N n_th in
  let block_size := Z.quot (N - eps) n_th in
  loop 0 (Z.to_nat n_th) (fun d ith =>
    let dd := if Z.ltb (Z.of_nat ith) (n_th - 1) then block_size else (block_size + eps)%Z in
    let x1 := (x0 d + dd)%Z in
    Decomp (upd (estart d) ith (x0 d)) (upd (eend d) ith (x1 - 1)%Z) (upd (DD d) ith dd) x1)
    (Decomp (estart d0) (eend d0) (DD d0) 0).

(** The nodes visited by thread [ith]: [for (c=estart[ith]; c<eend[ith]+1; c++)]. *)
Definition block (d : decomp) (ith : nat) : list nat :=
  seq (Z.to_nat (estart d ith)) (Z.to_nat (eend d ith + 1 - estart d ith)).

(** ** Parallel assembly of one sparse block over the nodes of one grid *)

(** 1418, 1477, 1535: node types that get a row (which depends on the grid). *)
Inductive unknown := EqU | EqV | EqP.
Definition assembled (g : unknown) (t : Z) : bool :=
  match g with
  | EqU => Z.eqb t (-1) || Z.eqb t 2 || Z.eqb t (-2)
  | EqV => Z.eqb t (-1) || Z.eqb t 2
  | EqP => Z.eqb t (-1)
  end.

(** 1182, 2369: node types whose row pointer is merged. *)
Definition merged (t : Z) : bool :=
  negb (Z.eqb t 0) && negb (Z.eqb t 30) && negb (Z.eqb t 31) && negb (Z.eqb t 13)
  && negb (Z.eqb t 11) && negb (Z.eqb t (-12)).

(** What the rows are: node types, equation numbers (already reduced by
    [neq_mom] for the continuity rows), and the entries [(column, value)] that the
    row of a node emits. The entries are computed from shared read-only data. *)
Record system := System {
  sgrid : unknown; typ : nat -> Z; eqn : nat -> nat; entries : nat -> list (Z * R) }.

(** Private state of a thread: [Itemp[ith]] and [Jtemp/Atemp[ith]];
    [nnzc2[ith]] is the length of the latter. *)
Record tstate := TState { Itemp : nat -> Z; buf : list (Z * R) }.

(** Body of the node loop, 1409-1433. *)
Definition thread_step (s : system) (t : tstate) (c : nat) : tstate :=
  if assembled (sgrid s) (typ s c) then
    TState (upd (Itemp t) (eqn s c) (Z.of_nat (length (buf t)))) (buf t ++ entries s c)
  else t.

Definition thread_run (s : system) (nodes : list nat) : tstate :=
  fold_left (thread_step s) nodes (TState (fun _ => 0%Z) []).

(** 1153-1169: [begin] and [end]. *)
Fixpoint begins (first : bool) (last_end nnzc : Z) (lens : list Z) : list Z :=
  match lens with
  | [] => []
  | n :: r =>
      let b := if first then nnzc else (last_end + 1)%Z in
      let e := if first then (nnzc + n - 1)%Z else (last_end + 1 + n - 1)%Z in
      b :: begins false e nnzc r
  end.

(** Shared memory: row pointers, values, columns (written by the merge), and the
    right-hand side (written during assembly). *)
Inductive loc := LIc (e : nat) | LA (l : Z) | LJ (l : Z) | LB (e : nat).
Definition loc_eq_dec (a b : loc) : {a = b} + {a <> b}.
Proof. decide equality; (apply Nat.eq_dec || apply Z.eq_dec). Defined.
Inductive cell := CI (z : Z) | CR (r : R).

(** An instruction: replace the contents of a location by a function of them. *)
Definition instr := (loc * (cell -> cell))%type.
Definition store (l : loc) (v : cell) : instr := (l, fun _ => v).

Definition memory := loc -> cell.
Definition exec1 (m : memory) (i : instr) : memory :=
  fun l => if loc_eq_dec l (fst i) then snd i (m l) else m l.
Definition exec (l : list instr) (m : memory) : memory := fold_left exec1 l m.

(** 1173-1191: instructions of one thread in the merge. *)
Definition merge_thread (s : system) (nodes : list nat) (t : tstate) (b : Z) : list instr :=
  map (fun c => store (LIc (eqn s c)) (CI (Itemp t (eqn s c) + b)))
      (filter (fun c => merged (typ s c)) nodes)
  ++ flat_map (fun k => let l := (b + Z.of_nat k)%Z in
       let e := nth k (buf t) (0%Z, 0%R) in
       [store (LA l) (CR (snd e)); store (LJ l) (CI (fst e))]) (seq 0 (length (buf t))).

(** 162-163 and [AddCoeff3] (46-48): a thread changes the right-hand side entry
    of the row it assembles, several times; [rhs_ops c] are the changes made by the
    row of node [c]. *)
Definition rhs_thread (s : system) (rhs_ops : nat -> list (cell -> cell)) (nodes : list nat) : list instr :=
  flat_map (fun c => if assembled (sgrid s) (typ s c) then map (fun f => (LB (eqn s c), f)) (rhs_ops c) else [])
    nodes.

(** Interleavings of several instruction lists. *)
Inductive interleaving {A} : list (list A) -> list A -> Prop :=
| il_nil ls : Forall (fun l => l = []) ls -> interleaving ls []
| il_step ls1 x l ls2 r :
    interleaving (ls1 ++ l :: ls2) r -> interleaving (ls1 ++ (x :: l) :: ls2) (x :: r).

(** The instruction lists of all threads for the merge, for [n_th] threads and
    [N] nodes, starting at [nnzc] entries; and the new [nnzc] (1193-1196). *)
Definition no_decomp : decomp := Decomp (fun _ => 0%Z) (fun _ => 0%Z) (fun _ => 0%Z) 0.

Definition thread_nodes (N : nat) (n_th : nat) : list (list nat) :=
  let d := decompose (Z.of_nat N) (Z.of_nat n_th) no_decomp in map (block d) (seq 0 n_th).

Definition assembly (s : system) (N n_th : nat) (nnzc : Z) : list (list instr) * Z :=
  let nodes := thread_nodes N n_th in
  let ts := map (thread_run s) nodes in
  let lens := map (fun t => Z.of_nat (length (buf t))) ts in
  let bs := begins true 0 nnzc lens in
  (map (fun x => merge_thread s (fst (fst x)) (snd (fst x)) (snd x)) (combine (combine nodes ts) bs),
   fold_left Z.add lens nnzc).

(** ** Buffers *)

(** 1342-1345. *)
Definition nnzA (nx nz : nat) : nat := 9 * ((nx - 1) * nz + (nz - 1) * nx).
Definition nnzB (nx nz : nat) : nat := 5 * ((nx - 1) * (nz - 1)).

(** 1262-1264: entries a thread's buffer can hold. *)
Definition capacity (nnz n_th : nat) : nat := nnz / n_th.

(** 44-54: a coefficient of a neighbour with this type goes into the matrix
    (otherwise to the right-hand side). *)
Definition into_matrix (t : Z) : bool :=
  negb (Z.eqb t 0 || Z.eqb t 31 || Z.eqb t 11 || Z.eqb t 13).

Definition emit (l : list (bool * Z)) : nat :=
  length (filter (fun x => fst x && into_matrix (snd x)) l).

(** 88-160: the nine candidate velocity entries of a Vx row: whether the
    coefficient is added, and type of the neighbour ([c1 = k + l*nx],
    [c3 = k + l*(nx+1)], indices in [Z]). *)
Definition x_row (nx : Z) (tu tv : Z -> Z) (k l : Z) : list (bool * Z) :=
  let nxvz := (nx + 1)%Z in
  let c1 := (k + l * nx)%Z in let c3 := (k + l * nxvz)%Z in
  let per := Z.eqb (tu c1) (-2) in
  let iVxW := if per then (c1 + nx - 2)%Z else (c1 - 1)%Z in
  let iVzSW := if per then (c3 - 2)%Z else (c3 - nxvz)%Z in
  let iVzNW := if per then (c3 + nxvz - 2)%Z else c3 in
  let ok c := negb (Z.eqb c 30) in
  let w := Z.ltb 0 k || per in let e := Z.ltb k (nx - 1) || per in
  [ (ok (tu (c1 - nx)%Z), tu (c1 - nx)%Z);
    (ok (tu iVxW) && w, tu iVxW);
    (ok (tu c1), tu c1);
    (ok (tu (c1 + 1)%Z) && e, tu (c1 + 1)%Z);
    (ok (tu (c1 + nx)%Z), tu (c1 + nx)%Z);
    (ok (tv iVzSW) && w, tv iVzSW);
    (ok (tv (c3 - nxvz + 1)%Z) && e, tv (c3 - nxvz + 1)%Z);
    (ok (tv iVzNW) && w, tv iVzNW);
    (ok (tv (c3 + 1)%Z) && e, tv (c3 + 1)%Z) ].

(** 575-690: the nine candidate velocity entries of a Vz row. *)
Definition z_row (nx nz : Z) (tu tv : Z -> Z) (k l : Z) : list (bool * Z) :=
  let nxvz := (nx + 1)%Z in
  let c1 := (k + l * nx)%Z in let c3 := (k + l * nxvz)%Z in
  let iVzW := if Z.eqb (tv (c3 - 1)%Z) (-12) && Z.eqb k 1 then (c3 + nxvz - 3)%Z else (c3 - 1)%Z in
  let iVzE := if Z.eqb (tv (c3 + 1)%Z) (-12) && Z.eqb k (nxvz - 2) then (c3 - nxvz + 3)%Z else (c3 + 1)%Z in
  let ok c := negb (Z.eqb c 30) in
  let s := Z.ltb 0 l in let n := Z.ltb l (nz - 1) in
  [ (ok (tu (c1 - 1)%Z) && s, tu (c1 - 1)%Z);
    (ok (tu c1) && s, tu c1);
    (ok (tu (c1 + nx - 1)%Z) && n, tu (c1 + nx - 1)%Z);
    (ok (tu (c1 + nx)%Z) && n, tu (c1 + nx)%Z);
    (ok (tv (c3 - nxvz)%Z) && s, tv (c3 - nxvz)%Z);
    (ok (tv iVzW), tv iVzW);
    (ok (tv c3), tv c3);
    (ok (tv iVzE), tv iVzE);
    (ok (tv (c3 + nxvz)%Z) && n, tv (c3 + nxvz)%Z) ].

(** 158-159, 179-180 and 661-662, 688-689: the two pressure entries of a Vx or
    Vz row. *)
Definition grad_row (tp : Z -> Z) (f1 f2 : bool) (i1 i2 : Z) : list (bool * Z) :=
  let ok c := negb (Z.eqb c 30) in [ (ok (tp i1) && f1, tp i1); (ok (tp i2) && f2, tp i2) ].

(** 1121-1124: the four velocity entries of a continuity row. *)
Definition div_row (tu tv : Z -> Z) (iW iE iS iN : Z) : list (bool * Z) :=
  let ok c := negb (Z.eqb c 13) in
  [ (ok (tu iW), tu iW); (ok (tu iE), tu iE); (ok (tv iS), tv iS); (ok (tv iN), tv iN) ].

(** Number of entries that the nodes of one thread put into its buffer, given
    the number [cnt c] emitted by each row. Rows are emitted for nodes of an
    assembled type that also pass the test 1427 (here part of [cnt]). *)
Definition written (g : unknown) (typ : nat -> Z) (cnt : nat -> nat) (nodes : list nat) : nat :=
  fold_left (fun n c => if assembled g (typ c) then n + cnt c else n) nodes 0.

(** The Vx row of node [c] (1409-1433 and [x_row]); nodes on the southern and
    northern ghost rows emit nothing. *)
Definition x_count (nx nz : nat) (tu tv : Z -> Z) (c : nat) : nat :=
  let k := (c mod nx) in let l := (c / nx) in
  if (0 <? l) && (l <? nz) then emit (x_row (Z.of_nat nx) tu tv (Z.of_nat k) (Z.of_nat l)) else 0.
