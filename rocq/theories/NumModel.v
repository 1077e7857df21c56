(** * Equation numbering, transfer between grids and solution vector, diagonal scaling

    Transcription of MDLIB/StokesRoutines.c
    - 1125-1178 [EvalNumberOfEquations],
    - 1185-1217 [InitialiseSolutionVector],
    - 534-569 [ExtractSolutions2] (without the final [ApplyBC], see BCModel),
    - 1223-1261 [ExtractDiagonalScale], 1267-1333 [ScaleMatrix],
      1339-1354 [ScaleVelocitiesRHSBack];
    and of the calls in MDLIB/Main_DOODZ.c 766-772. *)
From Coq Require Import List ZArith Reals Bool Arith.
Import ListNotations.
From Verif Require Import GridModel.

(** ** EvalNumberOfEquations *)

(** Lines 1139, 1155, 1169: types of nodes that are unknowns. *)
Definition num_u (t : Z) : bool := Z.eqb t (-1) || Z.eqb t 2 || Z.eqb t (-2).
Definition num_v (t : Z) : bool := Z.eqb t (-1) || Z.eqb t 2.
Definition num_p (t : Z) : bool := Z.eqb t (-1).

(** Boundary types of the three grids. *)
Record types := Types { tu : nat -> Z; tv : nat -> Z; tp : nat -> Z }.

(** The counters and tables of the function ([eqn_u], [eqn_v], [eqn_p]; contents
    after [malloc] arbitrary). *)
Record numbering := Numbering {
  inc : Z; incP : Z; eqn_u : nat -> Z; eqn_v : nat -> Z; eqn_p : nat -> Z; neq_mom : Z }.

(** 1137-1145, body of the loop for node [kk]. The east copy reads
    [eqn_u[kk-Nx+1]]; natural subtraction is faithful for [kk >= Nx-1], which
    holds for periodic nodes on the east side. *)
Definition step_u (Nx : nat) (t : types) (s : numbering) (kk : nat) : numbering :=
  let s := Numbering (inc s) (incP s) (upd (eqn_u s) kk (-1)%Z) (eqn_v s) (eqn_p s) (neq_mom s) in
  let s := if num_u (tu t kk) then
             Numbering (inc s + 1) (incP s) (upd (eqn_u s) kk (inc s)) (eqn_v s) (eqn_p s) (neq_mom s)
           else s in
  if Z.eqb (tu t kk) (-12) then
    Numbering (inc s) (incP s) (upd (eqn_u s) kk (eqn_u s (kk + 1 - Nx))) (eqn_v s) (eqn_p s) (neq_mom s)
  else s.

(** 1134-1147. *)
Definition number_u (Nx Nz : nat) (t : types) (s : numbering) : numbering :=
  loop 0 (Nz + 1) (fun s l => loop 0 Nx (fun s k => step_u Nx t s (k + l * Nx)) s) s.

(** 1153-1158. *)
Definition step_v (t : types) (s : numbering) (kk : nat) : numbering :=
  let s := Numbering (inc s) (incP s) (eqn_u s) (upd (eqn_v s) kk (-1)%Z) (eqn_p s) (neq_mom s) in
  if num_v (tv t kk) then
    Numbering (inc s + 1) (incP s) (eqn_u s) (upd (eqn_v s) kk (inc s)) (eqn_p s) (neq_mom s)
  else s.

(** 1150-1162. *)
Definition number_v (Nx Nz : nat) (t : types) (s : numbering) : numbering :=
  let s := loop 0 Nz (fun s l => loop 0 (Nx + 1) (fun s k => step_v t s (k + l * (Nx + 1))) s) s in
  Numbering (inc s) (incP s) (eqn_u s) (eqn_v s) (eqn_p s) (inc s).

(** 1167-1173. *)
Definition step_p (t : types) (s : numbering) (kk : nat) : numbering :=
  let s := Numbering (inc s) (incP s) (eqn_u s) (eqn_v s) (upd (eqn_p s) kk (-1)%Z) (neq_mom s) in
  if num_p (tp t kk) then
    Numbering (inc s + 1) (incP s + 1) (eqn_u s) (eqn_v s) (upd (eqn_p s) kk (inc s)) (neq_mom s)
  else s.

(** 1165-1175. *)
Definition number_p (Nx Nz : nat) (t : types) (s : numbering) : numbering :=
  loop 0 (Nz - 1) (fun s l => loop 0 (Nx - 1) (fun s k => step_p t s (k + l * (Nx - 1))) s) s.

(** The whole function; [neq] is the final [inc], [neq_cont] the final [incP]. *)
Definition number (Nx Nz : nat) (t : types) (eu0 ev0 ep0 : nat -> Z) : numbering :=
  number_p Nx Nz t (number_v Nx Nz t (number_u Nx Nz t (Numbering 0 0 eu0 ev0 ep0 0))).

(** ** InitialiseSolutionVector *)

Definition updZ {A} (a : Z -> A) (i : Z) (v : A) : Z -> A := fun j => if Z.eqb j i then v else a j.

Record fields := Fields { u_in : nat -> R; v_in : nat -> R; p_in : nat -> R }.

(** Body of the loops: one node of one grid. *)
Definition put (sel : Z -> bool) (ty eqn : nat -> Z) (a : nat -> R) (x : Z -> R) (kk : nat) : Z -> R :=
  if sel (ty kk) then updZ x (eqn kk) (a kk) else x.

(** 1188-1216. *)
Definition init_vector (Nx Nz : nat) (t : types) (s : numbering) (f : fields) (x : Z -> R) : Z -> R :=
  let x := loop 0 (Nz + 1) (fun x l => loop 0 Nx (fun x k =>
    put num_u (tu t) (eqn_u s) (u_in f) x (k + l * Nx)) x) x in
  let x := loop 0 Nz (fun x l => loop 0 (Nx + 1) (fun x k =>
    put num_v (tv t) (eqn_v s) (v_in f) x (k + l * (Nx + 1))) x) x in
  loop 0 (Nz - 1) (fun x l => loop 0 (Nx - 1) (fun x k =>
    put num_p (tp t) (eqn_p s) (p_in f) x (k + l * (Nx - 1))) x) x.

(** ** ExtractSolutions2 *)

(** 545, 560, 566: nodes that are updated. *)
Definition upd_uv (t : Z) : bool :=
  negb (Z.eqb t 30) && negb (Z.eqb t 0) && negb (Z.eqb t 11) && negb (Z.eqb t 13) && negb (Z.eqb t (-12)).
Definition upd_p (t : Z) : bool := negb (Z.eqb t 30) && negb (Z.eqb t 0) && negb (Z.eqb t 31).

(** One of the parallel loops (each iteration reads and writes its own node). *)
Definition extract_grid (n : nat) (sel : Z -> bool) (ty : nat -> Z) (eqn : nat -> Z) (dx : Z -> R) (alpha : R)
    (a : nat -> R) : nat -> R :=
  loop 0 n (fun a c => if sel (ty c) then upd a c (a c + alpha * dx (eqn c))%R else a) a.

(** 551-556: periodic copies. *)
Definition extract_periodic (Nx Nz : nat) (t : types) (a : nat -> R) : nat -> R :=
  loop 0 (Nz + 1) (fun a cc => let kk := cc * Nx + Nx - 1 in
    if Z.eqb (tu t kk) (-12) then upd a kk (a (kk + 1 - Nx)) else a) a.

(** 543-569. *)
Definition extract (Nx Nz : nat) (t : types) (s : numbering) (dx : Z -> R) (alpha : R) (f : fields) : fields :=
  let u := extract_grid ((Nz + 1) * Nx) upd_uv (tu t) (eqn_u s) dx alpha (u_in f) in
  let u := extract_periodic Nx Nz t u in
  let v := extract_grid (Nz * (Nx + 1)) upd_uv (tv t) (eqn_v s) dx alpha (v_in f) in
  let p := extract_grid ((Nz - 1) * (Nx - 1)) upd_p (tp t) (eqn_p s) dx alpha (p_in f) in
  Fields u v p.

(** Indices at which [dx] is read. *)
Definition reads (n : nat) (sel : Z -> bool) (ty : nat -> Z) (eqn : nat -> Z) : list Z :=
  map eqn (filter (fun c => sel (ty c)) (seq 0 n)).

(** ** Diagonal scaling *)

(** A sparse block: row pointers, columns, values, right-hand side, residual,
    scale vector. *)
Record mat := Mat { neq : nat; Ic : nat -> nat; J : nat -> nat; A : nat -> R; b : nat -> R; F : nat -> R; d : nat -> R }.

(** 1230-1238 / 1251-1259: the last entry of row [i] in column [i] becomes [d[i]]. *)
Definition extract_diagonal (m : mat) : nat -> R :=
  loop 0 (neq m) (fun dd i =>
    loop 0 (Ic m (i + 1) - Ic m i) (fun dd J1 =>
      if Nat.eqb i (J m (Ic m i + J1)) then upd dd i (A m (Ic m i + J1)) else dd) dd) (d m).

Definition set_d (m : mat) (dd : nat -> R) : mat := Mat (neq m) (Ic m) (J m) (A m) (b m) (F m) dd.

(** 1237, 1258: [StokesB->d[i] = StokesA->d[i]] (after the inner loop of row [i]). *)
Definition copy_d (n : nat) (dst src : nat -> R) : nat -> R := loop 0 n (fun dd i => upd dd i (src i)) dst.

Record blocks := Blocks { mA : mat; mB : mat; mC : mat; mD : mat }.

Definition extract_scale (s : blocks) : blocks :=
  let dA := extract_diagonal (mA s) in
  let dB := copy_d (neq (mA s)) (d (mB s)) dA in
  let dD := extract_diagonal (mD s) in
  let dC := copy_d (neq (mD s)) (d (mC s)) dD in
  Blocks (set_d (mA s) dA) (set_d (mB s) dB) (set_d (mC s) dC) (set_d (mD s) dD).

(** One of the four loops of [ScaleMatrix]: rows [0..n-1]; rows scaled by [di],
    columns by [dj], right-hand side by [drhs]. *)
Definition scale_block (n : nat) (m : mat) (di dj drhs : nat -> R) : mat :=
  loop 0 n (fun m i =>
    let m := Mat (neq m) (Ic m) (J m) (A m) (upd (b m) i (b m i * drhs i)%R) (upd (F m) i (F m i * drhs i)%R) (d m) in
    loop 0 (Ic m (i + 1) - Ic m i) (fun m J1 =>
      let k := Ic m i + J1 in let j := J m k in
      Mat (neq m) (Ic m) (J m) (upd (A m) k (A m k * (di i * dj j))%R) (b m) (F m) (d m)) m) m.

(** 1267-1333. The loop for D runs over the rows of C (line 1319). *)
Definition scale_matrix (s : blocks) : blocks :=
  let dA := d (mA s) in let dB := d (mB s) in let dC := d (mC s) in let dD := d (mD s) in
  Blocks (scale_block (neq (mA s)) (mA s) dA dA dA)
         (scale_block (neq (mB s)) (mB s) dA dD dB)
         (scale_block (neq (mC s)) (mC s) dD dA dC)
         (scale_block (neq (mC s)) (mD s) dD dD dD).

(** 1339-1354. *)
Definition scale_back (s : blocks) (x : nat -> R) : nat -> R :=
  let x := loop 0 (neq (mA s)) (fun x k => upd x k (x k * d (mA s) k)%R) x in
  loop 0 (neq (mD s)) (fun x k => let kk := neq (mA s) + k in upd x kk (x kk * d (mD s) k)%R) x.

(** Main_DOODZ.c 766-772, [Newton == 1]: scale vectors of the Jacobian blocks are
    copied to A and C of the Picard blocks, which are then scaled. *)
Definition newton_scales (stokes jacob : blocks) : blocks :=
  let jacob := extract_scale jacob in
  Blocks (set_d (mA stokes) (copy_d (neq (mA stokes)) (d (mA stokes)) (d (mA jacob))))
         (mB stokes)
         (set_d (mC stokes) (copy_d (neq (mC stokes)) (d (mC stokes)) (d (mC jacob))))
         (mD stokes).
