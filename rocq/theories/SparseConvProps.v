(** * Conversions of the sparse matrices: theorems *)
From Coq Require Import List ZArith Reals Bool Arith Lia Lra.
Import ListNotations.
From Verif Require Import GridModel GridProofs SparseConvModel.
Local Open Scope R_scope.

(** ** What the three formats mean: entry (r, c) of the matrix *)
Definition total (l : list R) : R := fold_right Rplus 0 l.
Definition pick (b : bool) (x : R) : R := if b then x else 0.
Definition csr_entry (a : csr) (r c : nat) : R :=
  total (map (fun k => pick (at_ (r_J a) k =? c)%nat (at_ (r_A a) k)) (seq (at_ (r_I a) r) (at_ (r_I a) (r + 1) - at_ (r_I a) r))).
Definition triplet_entry (a : cs) (nz r c : nat) : R :=
  total (map (fun k => pick ((at_ (c_i a) k =? r)%nat && (at_ (c_p a) k =? c)%nat) (at_ (c_x a) k)) (seq 0 nz)).
Definition column_entry (a : cs) (r c : nat) : R :=
  total (map (fun k => pick (at_ (c_i a) k =? r)%nat (at_ (c_x a) k)) (seq (at_ (c_p a) c) (at_ (c_p a) (c + 1) - at_ (c_p a) c))).
(** A matrix with compressed rows. *)
Definition valid_csr (a : csr) : Prop :=
  at_ (r_I a) 0 = 0%nat /\ (forall j, (j < r_m a)%nat -> (at_ (r_I a) j <= at_ (r_I a) (j + 1))%nat) /\ at_ (r_I a) (r_m a) = r_nnz a /\
  (r_m a < len (r_I a))%nat /\ (r_nnz a <= len (r_J a))%nat /\ (r_nnz a <= len (r_A a))%nat.
(** A matrix with compressed columns. *)
Definition valid_columns (a : cs) : Prop :=
  (c_n a < len (c_p a))%nat /\ (c_nzmax a <= len (c_i a))%nat /\ (c_nzmax a <= len (c_x a))%nat /\
  (forall j, (j < c_n a)%nat -> (at_ (c_p a) j <= at_ (c_p a) (j + 1))%nat) /\ (at_ (c_p a) (c_n a) <= c_nzmax a)%nat.

Lemma total_app l1 l2 : total (l1 ++ l2) = total l1 + total l2.
Proof. unfold total. induction l1 as [|x l IH]; cbn [app fold_right]; [lra|]. rewrite IH. lra. Qed.
Lemma total_zero (f : nat -> R) l : (forall k, In k l -> f k = 0) -> total (map f l) = 0.
Proof. unfold total. induction l as [|x l IH]; intros H; cbn [map fold_right]; [reflexivity|]. rewrite (H x) by now left. rewrite IH; [lra|]. intros; apply H; now right. Qed.

(** ** Copies *)
Lemma copy_n_spec {A} (src dst : arr A) : forall n, (n <= len src)%nat -> (n <= len dst)%nat ->
  exists d, copy_n n src dst = Some d /\ len d = len dst /\ (forall k, (k < n)%nat -> at_ d k = at_ src k) /\ (forall k, (n <= k)%nat -> at_ d k = at_ dst k).
Proof.
  induction n as [|n IH]; intros S D.
  - exists dst. repeat split. intros k K. lia.
  - destruct IH as (d & E & L & P & Q); try lia. unfold copy_n in *. change (Datatypes.S n) with (1 + n)%nat. rewrite loop_S, E. cbn [Nat.add].
    rewrite (proj2 (Nat.ltb_lt _ _)) by lia. unfold put. rewrite (proj2 (Nat.ltb_lt _ _)) by lia.
    eexists. split; [reflexivity|]. cbn [len at_]. split; [exact L|]. split; intros k K.
    + destruct (Nat.eq_dec k n) as [->|N]; [now rewrite upd_same|]. rewrite upd_other by exact N. apply P. lia.
    + rewrite upd_other by lia. apply Q. lia.
Qed.
Lemma loop_none {A B} (f : option A -> nat -> option A) (b : B) : (forall k, f None k = None) -> forall n a, loop a n f None = None.
Proof.
  intros H n a. unfold loop. generalize (seq a n) as l. induction l as [|x l IH]; [reflexivity|]. cbn [fold_left]. now rewrite H.
Qed.
Lemma copy_n_ub {A} (src dst : arr A) n : (len dst < n)%nat -> copy_n n src dst = None.
Proof.
  intros H. unfold copy_n. induction n as [|n IH]; [lia|]. change (Datatypes.S n) with (1 + n)%nat. rewrite loop_S. cbn [Nat.add].
  destruct (Nat.eq_dec (len dst) n) as [E|N].
  - destruct (n <? len src)%nat eqn:B; [|reflexivity]. apply Nat.ltb_lt in B. destruct (copy_n_spec src dst n) as (d & C & L & _); try lia. unfold copy_n in C. rewrite C. cbn [put]. rewrite (proj2 (Nat.ltb_ge _ _)) by lia. reflexivity.
  - rewrite IH by lia. destruct (n <? len src)%nat; reflexivity.
Qed.

(** ** Rows of the triplets *)
Lemma fill (p : nat) : forall n m (r : arr nat), (m + n <= len r)%nat ->
  exists r', loop 0 n (fun r l => put r (m + l)%nat p) (Some r) = Some r' /\ len r' = len r /\
    (forall q, (m <= q < m + n)%nat -> at_ r' q = p) /\ (forall q, (q < m \/ m + n <= q)%nat -> at_ r' q = at_ r q).
Proof.
  induction n as [|n IH]; intros m r L.
  - exists r. repeat split; intros; lia.
  - destruct (IH m r) as (r' & E & L' & P & Q); [lia|]. change (Datatypes.S n) with (1 + n)%nat. rewrite loop_S, E. cbn [Nat.add put]. rewrite (proj2 (Nat.ltb_lt _ _)) by lia.
    eexists. split; [reflexivity|]. cbn [len at_]. split; [exact L'|]. split; intros q K.
    + destruct (Nat.eq_dec q (m + n)) as [->|N]; [now rewrite upd_same|]. rewrite upd_other by exact N. apply P. lia.
    + rewrite upd_other by lia. apply Q. lia.
Qed.
Lemma mono (I : nat -> nat) size : (forall j, (j < size)%nat -> (I j <= I (j + 1))%nat) -> forall b a, (a <= b)%nat -> (b <= size)%nat -> (I a <= I b)%nat.
Proof.
  intros M b a H. induction H as [|b H IH]; intros B; [lia|]. specialize (IH ltac:(lia)). specialize (M b ltac:(lia)). replace (b + 1)%nat with (S b) in M by lia. lia.
Qed.
Lemma decompress_spec size (I : arr nat) rows : at_ I 0 = 0%nat -> (forall j, (j < size)%nat -> (at_ I j <= at_ I (j + 1))%nat) -> (size < len I)%nat ->
  (0 < len rows)%nat -> (at_ I size <= len rows)%nat ->
  exists r, decompress size I rows = Some r /\ len r = len rows /\ forall j q, (j < size)%nat -> (at_ I j <= q < at_ I (j + 1))%nat -> at_ r q = j.
Proof.
  intros Z M S L0 L. unfold decompress. cbn [put]. rewrite (proj2 (Nat.ltb_lt _ _) L0), (proj2 (Nat.ltb_lt _ _) S).
  set (body := fun s k => _). set (r0 := Arr (len rows) (upd (at_ rows) 0 0%nat)).
  assert (X : forall n, (n <= size)%nat -> exists r, loop 1 n body (0%nat, 0%nat, Some r0) = (at_ I n, n, Some r) /\ len r = len rows /\
    forall j q, (j < n)%nat -> (at_ I j <= q < at_ I (j + 1))%nat -> at_ r q = j).
  { induction n as [|n IH]; intros N.
    - exists r0. cbn. rewrite Z. repeat split. intros; lia.
    - destruct (IH ltac:(lia)) as (r & E & Lr & P). change (Datatypes.S n) with (1 + n)%nat. rewrite loop_S, E. cbn [Nat.add].
      unfold body at 1. replace (Datatypes.S n - 1)%nat with n by lia.
      pose proof (M n ltac:(lia)) as Mn. rewrite Nat.add_1_r in Mn. pose proof (mono (at_ I) size M size (Datatypes.S n) ltac:(lia) ltac:(lia)) as Ms.
      destruct (fill n (at_ I (Datatypes.S n) - at_ I n) (at_ I n) r) as (r' & E' & L' & P' & Q'); [lia|]. rewrite E'.
      exists r'. split; [f_equal; f_equal; lia|]. split; [lia|]. intros j q J K. destruct (Nat.eq_dec j n) as [->|NE].
      + apply P'. rewrite Nat.add_1_r in K. lia.
      + rewrite Q'; [apply P; [lia|exact K]|]. left. pose proof (mono (at_ I) size M n (j + 1) ltac:(lia) ltac:(lia)). lia. }
  destruct (X size (le_n _)) as (r & E & Lr & P). rewrite E. exists r. auto.
Qed.

(** The triplets handed to CSparse are the assembled matrix: nothing is written outside an
    array, and every entry of the matrix is the same. *)
Theorem C127_triplets : forall a n, valid_csr a -> (0 < r_nnz a)%nat ->
  exists t, to_cs a (r_m a) n (r_nnz a) (r_nnz a) true = Some t /\ c_m t = r_m a /\ c_n t = n /\
    forall r c, (r < r_m a)%nat -> triplet_entry t (r_nnz a) r c = csr_entry a r c.
Proof.
  intros a n (Z & M & T & L1 & L2 & L3) P. unfold to_cs.
  destruct (decompress_spec (r_m a) (r_I a) (zeros 0%nat (r_nnz a)) Z M L1) as (i & -> & _ & I); [cbn; lia|cbn; lia|].
  destruct (copy_n_spec (r_J a) (zeros 0%nat (r_nnz a)) (r_nnz a) L2) as (p & -> & _ & J & _); [cbn; lia|].
  destruct (copy_n_spec (r_A a) (zeros 0 (r_nnz a)) (r_nnz a) L3) as (x & -> & _ & X & _); [cbn; lia|].
  eexists. split; [reflexivity|]. split; [reflexivity|]. split; [reflexivity|]. intros r c R.
  unfold triplet_entry, csr_entry. cbn [c_i c_p c_x].
  pose proof (M r R) as Mr. pose proof (mono _ _ M (r_m a) (r + 1)%nat ltac:(lia) ltac:(lia)) as Me. rewrite T in Me.
  set (lo := at_ (r_I a) r) in *. set (hi := at_ (r_I a) (r + 1)) in *.
  assert (W : forall q, (q < r_nnz a)%nat -> exists j, (j < r_m a)%nat /\ (at_ (r_I a) j <= q < at_ (r_I a) (j + 1))%nat).
  { intros q Q. assert (G : forall k, (k <= r_m a)%nat -> (q < at_ (r_I a) k)%nat -> exists j, (j < k)%nat /\ (at_ (r_I a) j <= q < at_ (r_I a) (j + 1))%nat).
    { induction k as [|k IH]; intros K H; [lia|]. destruct (le_lt_dec (at_ (r_I a) k) q) as [C|C].
      - exists k. rewrite Nat.add_1_r. lia.
      - destruct (IH ltac:(lia) C) as (j & J1 & J2). exists j. split; [lia|exact J2]. }
    destruct (G (r_m a) (le_n _) ltac:(lia)) as (j & J1 & J2). eauto. }
  replace (r_nnz a) with (lo + ((hi - lo) + (r_nnz a - hi)))%nat by lia. rewrite !seq_app, !map_app, !total_app. cbn [Nat.add].
  rewrite (total_zero _ (seq 0 lo)), (total_zero _ (seq (lo + (hi - lo)) _)).
  - rewrite Rplus_0_l, Rplus_0_r. f_equal. apply map_ext_in. intros k K. apply in_seq in K. rewrite (I r k R ltac:(unfold lo, hi in *; lia)), Nat.eqb_refl. cbn [andb].
    rewrite J, X by lia. reflexivity.
  - intros k K. apply in_seq in K. destruct (W k ltac:(lia)) as (j & Jm & Jk). rewrite (I j k Jm Jk). destruct (Nat.eqb_spec j r) as [->|N]; [unfold lo, hi in *; lia|reflexivity].
  - intros k K. apply in_seq in K. destruct (W k ltac:(lia)) as (j & Jm & Jk). rewrite (I j k Jm Jk). destruct (Nat.eqb_spec j r) as [->|N]; [unfold lo, hi in *; lia|reflexivity].
Qed.

(** A matrix without entries: the first row number is written into an empty array. *)
Theorem C127_empty_refuted : forall a n, r_nnz a = 0%nat -> to_cs a (r_m a) n 0 0 true = None.
Proof.
  intros a n H. unfold to_cs, decompress. cbn [put zeros len]. change (0 <? 0)%nat with false. cbv iota.
  assert (X : forall k m p, snd (loop 1 k (fun s q => let '(m, p, r) := s in let off := (at_ (r_I a) q - at_ (r_I a) (q - 1))%nat in
     (m + off, p + 1, loop 0 off (fun r l => put r (m + l) p) r)%nat) (m, p, (None : option (arr nat)))) = None).
  { intros k. unfold loop at 1. generalize (seq 1 k) as l. induction l as [|x l IH]; intros m p; [reflexivity|]. cbn [fold_left].
    rewrite (loop_none (fun r l => put r (m + l)%nat p) 0%nat) by reflexivity. apply IH. }
  rewrite X. destruct (r_m a <? len (r_I a))%nat; reflexivity.
Qed.

(** A matrix copied to CHOLMOD, into an allocation of its size, is the same matrix. *)
Theorem C127_to_cholmod : forall a ip x, valid_columns a ->
  exists b, to_cholmod a (allocate (c_m a) (c_n a) (c_nzmax a) ip x) = Some b /\ c_m b = c_m a /\ c_n b = c_n a /\
    forall r c, (c < c_n a)%nat -> column_entry b r c = column_entry a r c.
Proof.
  intros a ip x (L1 & L2 & L3 & M & T). unfold to_cholmod, copy_matrix, allocate. cbn [c_p c_i c_x c_nzmax c_m c_n].
  destruct (copy_n_spec (c_p a) (Arr (c_n a + 1) ip) (c_n a + 1)) as (p & -> & _ & P & _); [lia|cbn; lia|].
  destruct (copy_n_spec (c_i a) (Arr (c_nzmax a) ip) (c_nzmax a)) as (i & -> & _ & I & _); [lia|cbn; lia|].
  destruct (copy_n_spec (c_x a) (Arr (c_nzmax a) x) (c_nzmax a)) as (y & -> & _ & X & _); [lia|cbn; lia|].
  eexists. split; [reflexivity|]. split; [reflexivity|]. split; [reflexivity|]. intros r c C. unfold column_entry. cbn [c_p c_i c_x].
  rewrite !P by lia. f_equal. apply map_ext_in. intros k K. apply in_seq in K.
  pose proof (M c C). pose proof (mono _ _ M (c_n a) (c + 1)%nat ltac:(lia) ltac:(lia)). rewrite I, X by lia. reflexivity.
Qed.
(** Into a smaller one nothing is copied safely. *)
Theorem C127_too_small : forall a ip x nzmax, valid_columns a -> (nzmax < c_nzmax a)%nat -> to_cholmod a (allocate (c_m a) (c_n a) nzmax ip x) = None.
Proof.
  intros a ip x nzmax (L1 & L2 & L3 & _) H. unfold to_cholmod, copy_matrix, allocate. cbn [c_p c_i c_x c_nzmax c_m c_n].
  destruct (copy_n (c_n a + 1) _ _); [|reflexivity]. now rewrite (copy_n_ub (c_i a)).
Qed.

(** The pressure block: its compressed columns are copied into a matrix that CSparse then
    takes for triplets. This is the same matrix because every column holds one entry. *)
Theorem C127_pressure_block : forall a d, c_n d = c_n a -> c_m d = c_m a -> (forall k, (k <= c_n a)%nat -> at_ (c_p d) k = k) ->
  len (c_p d) = (c_n a + 1)%nat -> (c_n a <= len (c_i d))%nat -> (c_n a <= len (c_x d))%nat ->
  forall dense, to_cs dense (c_m a) (c_n a) (c_n a) (c_n a + 1) false = Some a ->
  exists b, from_cholmod d a = Some b /\ forall r c, (c < c_n a)%nat -> triplet_entry b (c_n a) r c = column_entry d r c.
Proof.
  intros a d N Mm P L1 L2 L3 dense E. unfold to_cs in E. injection E as E. unfold from_cholmod, copy_matrix. rewrite <- E. cbn [c_p c_i c_x c_nzmax c_m c_n].
  set (n := c_n a) in *. clearbody n.
  destruct (copy_n_spec (c_p d) (zeros 0%nat (n + 1)) (n + 1)) as (p & -> & _ & P' & _); [lia|cbn; lia|].
  destruct (copy_n_spec (c_i d) (zeros 0%nat n) n) as (i & -> & _ & I & _); [lia|cbn; lia|].
  destruct (copy_n_spec (c_x d) (zeros 0 n) n) as (y & -> & _ & X & _); [lia|cbn; lia|].
  eexists. split; [reflexivity|]. intros r c C. unfold triplet_entry, column_entry. cbn [c_p c_i c_x].
  rewrite !P by lia. replace (c + 1 - c)%nat with 1%nat by lia. cbn [seq map total fold_right]. rewrite Rplus_0_r.
  replace n with (c + (1 + (n - c - 1)))%nat by lia. rewrite !seq_app, !map_app, !total_app.
  rewrite (total_zero _ (seq 0 c)), (total_zero _ (seq (0 + c + 1) _)).
  - cbn [Nat.add seq map total fold_right]. rewrite I, X, P', P by lia. rewrite Nat.eqb_refl, andb_true_r. lra.
  - intros k K. apply in_seq in K. rewrite P', P by lia. rewrite (proj2 (Nat.eqb_neq k c)) by lia. now rewrite andb_false_r.
  - intros k K. apply in_seq in K. rewrite P', P by lia. rewrite (proj2 (Nat.eqb_neq k c)) by lia. now rewrite andb_false_r.
Qed.
(** Refuted: for a general matrix. Two entries in the first column become one entry in the
    first and one in a column that does not exist. *)
Theorem C127_column_format_refuted : exists d a b, to_cs (Csr 0 0 (zeros 0%nat 0) (zeros 0%nat 0) (zeros 0 0)) 2 2 2 3 false = Some a /\ valid_columns d /\
  from_cholmod d a = Some b /\ column_entry d 1 0 = 1 /\ triplet_entry b 2 1 0 = 0 /\ triplet_entry b 2 1 2 = 1.
Proof.
  exists (Cs 2 2 2 (Arr 3 (fun k => nth k [0; 2; 2]%nat 0%nat)) (Arr 2 (fun k => k)) (Arr 2 (fun _ => 1))).
  eexists. eexists. split; [reflexivity|]. split.
  - repeat split; cbn; try lia. intros j J. destruct j as [|[|j]]; cbn; lia.
  - split; [reflexivity|]. unfold column_entry, triplet_entry. cbn. repeat split; lra.
Qed.

(** ** Vectors *)
Theorem C127_vectors : forall n src dst, len dst = n -> (n <= len src)%nat ->
  (exists d, copy_n n src dst = Some d /\ len d = n /\ forall k, (k < n)%nat -> at_ d k = at_ src k) /\
  (exists d, plus_n n src dst = Some d /\ len d = n /\ forall k, (k < n)%nat -> at_ d k = at_ dst k + at_ src k).
Proof.
  intros n src dst L S. split.
  - destruct (copy_n_spec src dst n S ltac:(lia)) as (d & E & L' & P & _). exists d. repeat split; [exact E|lia|exact P].
  - assert (X : forall q, (q <= n)%nat -> exists d, plus_n q src dst = Some d /\ len d = n /\ (forall k, (k < q)%nat -> at_ d k = at_ dst k + at_ src k) /\ (forall k, (q <= k)%nat -> at_ d k = at_ dst k)).
    { induction q as [|q IH]; intros Q.
      - exists dst. repeat split; [exact L|intros; lia].
      - destruct (IH ltac:(lia)) as (d & E & L' & P & U). unfold plus_n in *. change (Datatypes.S q) with (1 + q)%nat. rewrite loop_S, E. cbn [Nat.add].
        rewrite (proj2 (Nat.ltb_lt _ _)) by lia. cbn [put]. rewrite (proj2 (Nat.ltb_lt _ _)) by lia. eexists. split; [reflexivity|]. cbn [len at_]. split; [exact L'|]. split; intros k K.
        + destruct (Nat.eq_dec k q) as [->|N]; [rewrite upd_same, U by lia; reflexivity|]. rewrite upd_other by exact N. apply P. lia.
        + rewrite upd_other by lia. apply U. lia. }
    destruct (X n (le_n _)) as (d & E & L' & P & _). exists d. auto.
Qed.
Print Assumptions C127_triplets.
Print Assumptions C127_empty_refuted.
Print Assumptions C127_to_cholmod.
Print Assumptions C127_too_small.
Print Assumptions C127_pressure_block.
Print Assumptions C127_column_format_refuted.
Print Assumptions C127_vectors.

(** The matrix [[1 2] [0 3]]: row 0 holds two entries, row 1 one. *)
Example C127_ex : let a := Csr 2 3 (Arr 3 (fun k => nth k [0; 2; 3]%nat 0%nat)) (Arr 3 (fun k => nth k [0; 1; 1]%nat 0%nat)) (Arr 3 (fun k => nth k [1; 2; 3] 0)) in
  valid_csr a /\ exists t, to_cs a 2 2 3 3 true = Some t /\ triplet_entry t 3 0 1 = 2 /\ triplet_entry t 3 1 0 = 0 /\ triplet_entry t 3 1 1 = 3.
Proof.
  intros a. split; [repeat split; cbn; try lia; intros [|[|j]] J; cbn; lia|]. eexists. split; [reflexivity|]. unfold triplet_entry. cbn. repeat split; lra.
Qed.

(** ** Norms and extremes *)
Lemma squares n f : 0 <= loop 0 n (fun s k => s + f k * f k) 0 /\ (loop 0 n (fun s k => s + f k * f k) 0 = 0 <-> forall k, (k < n)%nat -> f k = 0).
Proof.
  induction n as [|n [A B]].
  - cbn. split; [lra|]. split; [intros _ k K; lia|reflexivity].
  - change (S n) with (1 + n)%nat. rewrite loop_S. cbn [Nat.add]. set (s := loop 0 n _ 0) in *. clearbody s. pose proof (Rle_0_sqr (f n)) as Q. unfold Rsqr in Q. split; [lra|]. split.
    + intros H k K. assert (s = 0) by lra. assert (f n * f n = 0) by lra. destruct (Nat.eq_dec k n) as [->|N].
      * destruct (Rmult_integral _ _ H1); assumption.
      * apply B; [assumption|lia].
    + intros H. rewrite (proj2 B) by (intros; apply H; lia). rewrite H by lia. lra.
Qed.
(** The residual norm is zero exactly if the residual is, and no entry is larger than the
    norm times the square root of their number. *)
Theorem C128_norm : forall n f, (0 < n)%nat ->
  (norm_of n f = 0 <-> forall k, (k < n)%nat -> f k = 0) /\ 0 <= norm_of n f /\ (forall k, (k < n)%nat -> Rabs (f k) <= norm_of n f * sqrt (INR n)) /\
  (forall M, (forall k, (k < n)%nat -> Rabs (f k) <= M) -> norm_of n f <= M).
Proof.
  intros n f N. unfold norm_of. destruct (squares n f) as [A B]. assert (NP : 0 < INR n) by (apply lt_0_INR; exact N).
  assert (Q : 0 <= loop 0 n (fun s k => s + f k * f k) 0 / INR n) by (apply Rmult_le_pos; [exact A|left; apply Rinv_0_lt_compat; exact NP]).
  split; [|split; [apply sqrt_pos|split]].
  - rewrite <- B. split; intros H.
    + apply sqrt_eq_0 in H; [|exact Q]. apply Rmult_integral in H. destruct H as [H|H]; [exact H|]. exfalso. apply (Rinv_neq_0_compat (INR n)); lra.
    + rewrite H. unfold Rdiv. rewrite Rmult_0_l. apply sqrt_0.
  - intros k K. rewrite <- sqrt_mult by lra. unfold Rdiv. rewrite Rmult_assoc, Rinv_l, Rmult_1_r by lra.
    rewrite <- sqrt_Rsqr_abs. apply sqrt_le_1_alt. clear -K. induction n as [|n IH]; [lia|]. change (S n) with (1 + n)%nat. rewrite loop_S. cbn [Nat.add].
    pose proof (proj1 (squares n f)). destruct (Nat.eq_dec k n) as [->|NE]; [unfold Rsqr; lra|]. specialize (IH ltac:(lia)). pose proof (Rle_0_sqr (f n)). unfold Rsqr in *. lra.
  - intros M H. assert (MP : 0 <= M) by (eapply Rle_trans; [apply Rabs_pos|apply (H 0%nat N)]).
    rewrite <- (sqrt_Rsqr M MP). apply sqrt_le_1_alt. apply Rmult_le_reg_r with (INR n); [exact NP|]. unfold Rdiv. rewrite Rmult_assoc, Rinv_l, Rmult_1_r by lra. clear -H MP.
    induction n as [|n IH]; [cbn; lra|]. change (S n) with (1 + n)%nat at 1. rewrite loop_S, S_INR. cbn [Nat.add]. specialize (IH ltac:(intros; apply H; lia)).
    assert (f n * f n <= M * M); [|unfold Rsqr in *; lra]. specialize (H n ltac:(lia)). rewrite <- (Rabs_pos_eq (f n * f n)) by (apply Rle_0_sqr). rewrite Rabs_mult.
    apply Rmult_le_compat; try apply Rabs_pos; exact H.
Qed.

(** The extremes over the markers are those of the active markers and marker 0. *)
Lemma part_inv : forall size a ph, let '(mn, mx) := min_max_part size a ph in
  (forall k, (k < size)%nat -> ph k <> (-1)%Z -> mn <= a k <= mx) /\ mn <= a 0%nat <= mx /\
  (mn = a 0%nat \/ exists k, (k < size)%nat /\ ph k <> (-1)%Z /\ mn = a k) /\ (mx = a 0%nat \/ exists k, (k < size)%nat /\ ph k <> (-1)%Z /\ mx = a k).
Proof.
  induction size as [|n IH]; intros a ph; unfold min_max_part in *.
  - cbn. repeat split; try lra; try lia; now left.
  - change (S n) with (1 + n)%nat. rewrite loop_S. cbn [Nat.add]. specialize (IH a ph). destruct (loop 0 n _ _) as [mn mx]. destruct IH as (A & B & C & D).
    destruct (Z.eqb_spec (ph n) (-1)) as [E|E]; cbn [negb]; rewrite ?andb_false_r, ?andb_true_r.
    + split; [|split; [exact B|split; [destruct C as [C|(k & K)]; [now left|right; exists k; intuition lia]|destruct D as [D|(k & K)]; [now left|right; exists k; intuition lia]]]].
      intros k K P. destruct (Nat.eq_dec k n) as [->|N]; [contradiction|]. apply A; [lia|exact P].
    + destruct (Rlt_dec mx (a n)) as [X|X], (Rlt_dec (a n) mn) as [Y|Y]; try lra.
      all: (split; [intros k K P; destruct (Nat.eq_dec k n) as [->|N]; [lra|specialize (A k ltac:(lia) P); lra]|split; [lra|split]]).
      all: first [solve [right; exists n; repeat split; [lia|exact E]] |destruct C as [C|(k & K)]; [now left|right; exists k; intuition lia]|destruct D as [D|(k & K)]; [now left|right; exists k; intuition lia]].
Qed.
Theorem C128_extremes : forall size a ph, ph 0%nat <> (-1)%Z -> (0 < size)%nat -> let '(mn, mx) := min_max_part size a ph in
  (forall k, (k < size)%nat -> ph k <> (-1)%Z -> mn <= a k <= mx) /\
  (exists k, (k < size)%nat /\ ph k <> (-1)%Z /\ a k = mn) /\ (exists k, (k < size)%nat /\ ph k <> (-1)%Z /\ a k = mx).
Proof.
  intros size a ph P S. pose proof (part_inv size a ph) as I. destruct (min_max_part size a ph) as [mn mx]. destruct I as (A & _ & C & D).
  split; [exact A|]. split; [destruct C as [C|(k & K)]|destruct D as [D|(k & K)]]; first [solve [exists 0%nat; repeat split; auto]|exists k; intuition].
Qed.
(** Refuted: only active markers count. Marker 0 counts even if it has left the model. *)
Theorem C128_inactive_refuted : forall size a ph, ph 0%nat = (-1)%Z -> (forall k, (0 < k < size)%nat -> a k < a 0%nat) -> snd (min_max_part size a ph) = a 0%nat.
Proof.
  intros size a ph P H. pose proof (part_inv size a ph) as I. destruct (min_max_part size a ph) as [mn mx]. destruct I as (_ & B & _ & D). cbn [snd].
  destruct D as [D|(k & K & Q & E)]; [exact D|]. destruct k as [|k]; [exact E|]. specialize (H (S k) ltac:(lia)). lra.
Qed.
Theorem C128_sum : forall n f, sum_array n f = total (map f (seq 0 n)).
Proof.
  intros n f. unfold sum_array. induction n as [|n IH]; [reflexivity|]. change (S n) with (1 + n)%nat at 1. rewrite loop_S, IH. cbn [Nat.add].
  replace (S n) with (n + 1)%nat by lia. rewrite seq_app, map_app, total_app. cbn. lra.
Qed.
Print Assumptions C128_norm.
Print Assumptions C128_extremes.
Print Assumptions C128_inactive_refuted.
Print Assumptions C128_sum.

Example C128_ex : norm_of 2 (fun k => nth k [3; 3] 0) = 3 /\ sum_array 2 (fun k => nth k [3; 4] 0) = 7 /\
  snd (min_max_part 3 (fun k => nth k [2; 9; 5] 0) (fun k => nth k [0; -1; 0]%Z 0%Z)) = 5.
Proof.
  split; [|split].
  - unfold norm_of, loop. cbn. replace ((0 + 3 * 3 + 3 * 3) / (1 + 1)) with (3 * 3) by lra. apply sqrt_square. lra.
  - unfold sum_array, loop. cbn. lra.
  - unfold min_max_part, loop. cbn.
    repeat match goal with |- context [Rlt_dec ?a ?b] => destruct (Rlt_dec a b); cbn in *; try lra end; reflexivity.
Qed.
