(** * Conversions of the sparse matrices

    Transcription of
    - MDLIB/SparseTools.c 109-144 ([NormResidualCholmod], mode = 1, printing left out),
      241-306 (copies between CSparse and CHOLMOD matrices and vectors),
      316-334 ([DecompressCSRtoTriplets]; without array bounds in [VecModel]),
    - MDLIB/MiscFunctions.c 119-128 ([SumArray], the value),
      378-396 ([ArrayEqualArray], [ArrayEqualArrayI]), 496-525 ([MinMaxArrayPart],
      one thread),
    - MDLIB/Solvers.c 51-65 ([copy_cholmod_matrix_to_cs]).

    An array is its length and its contents; [None] is an access outside an array. Doubles
    are reals, the numbers of rows and columns natural numbers. *)
From Coq Require Import List ZArith Reals Bool Arith.
Import ListNotations.
From Verif Require Import GridModel.
Local Open Scope R_scope.

Record arr (A : Type) := Arr { len : nat; at_ : nat -> A }.
Arguments Arr {A} _ _.
Arguments len {A} _.
Arguments at_ {A} _ _.

(** One assignment a[k] = v. *)
Definition put {A} (a : option (arr A)) (k : nat) (v : A) : option (arr A) :=
  match a with
  | Some a => if (k <? len a)%nat then Some (Arr (len a) (upd (at_ a) k v)) else None
  | None => None
  end.
(** The loops for (k=0; k<n; k++) dst[k] = src[k]. *)
Definition copy_n {A} (n : nat) (src dst : arr A) : option (arr A) :=
  loop 0 n (fun d k => if (k <? len src)%nat then put d k (at_ src k) else None) (Some dst).
(** SparseTools.c 285-292: dst[k] += src[k]. *)
Definition plus_n (n : nat) (src dst : arr R) : option (arr R) :=
  loop 0 n (fun d k => match d with Some a => if (k <? len src)%nat then put d k (at_ a k + at_ src k) else None | None => None end) (Some dst).

(** The matrix as assembled: rows compressed. *)
Record csr := Csr { r_m : nat; r_nnz : nat; r_I : arr nat; r_J : arr nat; r_A : arr R }.
(** CSparse matrix: triplets (row i, column p) or compressed columns (p of length n+1). *)
Record cs := Cs { c_nzmax : nat; c_m : nat; c_n : nat; c_p : arr nat; c_i : arr nat; c_x : arr R }.

(** SparseTools.c 316-334. *)
Definition decompress (size : nat) (Icsr : arr nat) (rows : arr nat) : option (arr nat) :=
  let s := loop 1 size (fun s k =>
    let '(m, p, r) := s in
    let off := (at_ Icsr k - at_ Icsr (k - 1))%nat in
    (m + off, p + 1, loop 0 off (fun r l => put r (m + l) p) r)%nat) (0%nat, 0%nat, put (Some rows) 0 0%nat) in
  if (size <? len Icsr)%nat then snd s else None.

(** Solvers.c 51-65. *)
Definition zeros {A} (z : A) (n : nat) : arr A := Arr n (fun _ => z).
Definition to_cs (a : csr) (m n nnz nnz1 : nat) (decomp : bool) : option cs :=
  let p := zeros 0%nat nnz1 in let i := zeros 0%nat nnz in let x := zeros 0 nnz in
  if decomp then
    match decompress m (r_I a) i, copy_n nnz (r_J a) p, copy_n nnz (r_A a) x with
    | Some i, Some p, Some x => Some (Cs nnz m n p i x)
    | _, _, _ => None
    end
  else Some (Cs nnz m n p i x).

(** 241-254 and 298-309 (the same assignments in the two directions; sizes are those of the
    CSparse matrix). *)
Definition copy_matrix (n nzmax : nat) (src dst : cs) : option cs :=
  match copy_n (n + 1) (c_p src) (c_p dst), copy_n nzmax (c_i src) (c_i dst), copy_n nzmax (c_x src) (c_x dst) with
  | Some p, Some i, Some x => Some (Cs (c_nzmax dst) (c_m dst) (c_n dst) p i x)
  | _, _, _ => None
  end.
Definition to_cholmod (src dst : cs) : option cs := copy_matrix (c_n src) (c_nzmax src) src dst.
Definition from_cholmod (src dst : cs) : option cs := copy_matrix (c_n dst) (c_nzmax dst) src dst.
(** cholmod_allocate_sparse (m, n, nzmax, ...) as called in Solvers.c 1193-1211. *)
Definition allocate (m n nzmax : nat) (ip : nat -> nat) (x : nat -> R) : cs := Cs nzmax m n (Arr (n + 1) ip) (Arr nzmax ip) (Arr nzmax x).

(** 109-144: the two norms. *)
Definition norm_of (n : nat) (f : nat -> R) : R := sqrt (loop 0 n (fun s k => s + f k * f k) 0 / INR n).
(** MiscFunctions.c 119-128. *)
Definition sum_array (n : nat) (f : nat -> R) : R := loop 0 n (fun s k => s + f k) 0.

(** MiscFunctions.c 496-525, one thread: (min, max). *)
Definition min_max_part (size : nat) (a : nat -> R) (phase : nat -> Z) : R * R :=
  loop 0 size (fun s k =>
    let '(mn, mx) := s in
    let mx := if (if Rlt_dec mx (a k) then true else false) && negb (phase k =? -1)%Z then a k else mx in
    let mn := if (if Rlt_dec (a k) mn then true else false) && negb (phase k =? -1)%Z then a k else mn in
    (mn, mx)) (a 0%nat, a 0%nat).
