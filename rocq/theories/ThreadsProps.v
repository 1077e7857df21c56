(** * Properties C24-C27: threads *)
From Coq Require Import List ZArith Reals Bool Arith Lia Lra Permutation.
Import ListNotations.
From Verif Require Import GridModel GridProofs ThreadsModel ThreadsProofs.

(** ** C24 *)

(** For every finite array, every partition among threads and all merge orders
    (with arbitrarily stale unlocked reads), the reported extrema are attained
    and bound all values. *)
Theorem C24_extrema_attained_and_bounding (f : nat -> R) size parts omax omin :
  0 < size -> schedule size parts omax omin ->
  exists mn mx, minmax true (fun _ => true) (fun k => Fin (f k)) parts omax omin = Some (Fin mn, Fin mx) /\
    (exists i, i < size /\ f i = mn) /\ (exists j, j < size /\ f j = mx) /\
    (forall k, k < size -> (mn <= f k <= mx)%R).
Proof.
  intros Hs S. destruct (minmax_spec true (fun _ => true) f size parts omax omin S) as (mn & mx & E & [A1 B1] & [A2 B2]).
  exists mn, mx. split; [exact E|].
  assert (F : filter (fun _ : nat => true) (seq 0 size) = seq 0 size).
  { generalize (seq 0 size). induction l; cbn; congruence. }
  rewrite F in *.
  assert (W : forall m, In m (f 0 :: map f (seq 0 size)) -> exists i, i < size /\ f i = m).
  { intros m [<-|I]; [now exists 0|]. apply in_map_iff in I as (i & <- & I). apply in_seq in I. exists i. split; [lia|reflexivity]. }
  repeat split; auto.
  - apply Rge_le, B1. right. apply in_map, in_seq. lia.
  - apply B2. right. apply in_map, in_seq. lia.
Qed.
Print Assumptions C24_extrema_attained_and_bounding.

(** The result does not depend on the schedule (tagged variant included). *)
Theorem C24_schedule_independent check (keep : nat -> bool) (f : nat -> R) size parts omax omin parts' omax' omin' :
  schedule size parts omax omin -> schedule size parts' omax' omin' ->
  minmax check keep (fun k => Fin (f k)) parts omax omin = minmax check keep (fun k => Fin (f k)) parts' omax' omin'.
Proof.
  intros S S'.
  destruct (minmax_spec check keep f size _ _ _ S) as (mn & mx & -> & A & B).
  destruct (minmax_spec check keep f size _ _ _ S') as (mn' & mx' & -> & A' & B').
  now rewrite (is_extreme_unique_ge _ _ _ _ A A'), (is_extreme_unique_le _ _ _ _ B B').
Qed.
Print Assumptions C24_schedule_independent.

(** A NaN or infinity anywhere stops the program, whatever the schedule. *)
Theorem C24_not_finite_stops (a : nat -> dbl) size parts omax omin k :
  schedule size parts omax omin -> k < size -> finite (a k) = false ->
  minmax true (fun _ => true) a parts omax omin = None.
Proof.
  intros (P & _ & _) Hk Hf. unfold minmax.
  assert (I : In k (concat parts)).
  { eapply Permutation_in; [apply Permutation_sym; exact P|]. apply in_seq. lia. }
  apply in_concat in I as (p & Ip & Ik).
  now rewrite (opt_all_none _ parts p Ip (thread_extrema_stops _ a k p Ik Hf)).
Qed.
Print Assumptions C24_not_finite_stops.

(** Tag-filtered variant: attained by, and bounding, the entries outside the air
    when the first entry is such an entry. *)
Theorem C24_tagged_extrema check (keep : nat -> bool) (f : nat -> R) size parts omax omin :
  0 < size -> keep 0 = true -> schedule size parts omax omin ->
  exists mn mx, minmax check keep (fun k => Fin (f k)) parts omax omin = Some (Fin mn, Fin mx) /\
    (exists i, i < size /\ keep i = true /\ f i = mn) /\ (exists j, j < size /\ keep j = true /\ f j = mx) /\
    (forall k, k < size -> keep k = true -> (mn <= f k <= mx)%R).
Proof.
  intros Hs K S. destruct (minmax_spec check keep f size parts omax omin S) as (mn & mx & E & [A1 B1] & [A2 B2]).
  exists mn, mx. split; [exact E|].
  assert (W : forall m, In m (f 0 :: map f (filter keep (seq 0 size))) -> exists i, i < size /\ keep i = true /\ f i = m).
  { intros m [<-|I]; [now exists 0|]. apply in_map_iff in I as (i & <- & I). apply filter_In in I as [I Ki].
    apply in_seq in I. exists i. repeat split; auto; lia. }
  repeat split; auto.
  - apply Rge_le, B1. right. apply in_map, filter_In. split; [apply in_seq; lia|assumption].
  - apply B2. right. apply in_map, filter_In. split; [apply in_seq; lia|assumption].
Qed.
Print Assumptions C24_tagged_extrema.

(** ... and not otherwise: an air entry at index 0 is reported as maximum. *)
Theorem C24_tagged_first_entry_in_air_refuted :
  exists (keep : nat -> bool) (f : nat -> R) size parts omax omin mn mx,
    0 < size /\ schedule size parts omax omin /\
    minmax false keep (fun k => Fin (f k)) parts omax omin = Some (Fin mn, Fin mx) /\
    (forall k, k < size -> keep k = true -> (f k < mx)%R).
Proof.
  set (keep := fun k : nat => negb (k =? 0)). set (f := fun k : nat => if k =? 0 then 7%R else 1%R).
  assert (S : schedule 2 [[0; 1]] [(0, 0)] [(0, 0)]) by (repeat split; reflexivity).
  destruct (minmax_spec false keep f 2 _ _ _ S) as (mn & mx & E & [A1 B1] & [A2 B2]).
  exists keep, f, 2, [[0; 1]], [(0, 0)], [(0, 0)], mn, mx. repeat split; auto.
  intros k Hk Kk. assert (H7 : Rle (f 0) mx) by (apply B2; now left).
  unfold keep in Kk. unfold f in *. destruct k; [discriminate|]. cbn in *. lra.
Qed.
Print Assumptions C24_tagged_first_entry_in_air_refuted.

(** Three threads, one idle, values seen stale, merge orders different. *)
Example C24_schedule_ex : schedule 5 [[0; 3]; []; [4; 1; 2]] [(2, 0); (0, 1); (1, 7)] [(1, 0); (0, 0); (2, 2)].
Proof.
  repeat split; cbn.
  - apply NoDup_Permutation_bis; [|cbn; lia|].
    + repeat constructor; cbn; intuition discriminate.
    + intros x. cbn. intuition.
  - apply NoDup_Permutation_bis; [|cbn; lia|]; [repeat constructor; cbn; intuition discriminate|intros x; cbn; intuition].
  - apply NoDup_Permutation_bis; [|cbn; lia|]; [repeat constructor; cbn; intuition discriminate|intros x; cbn; intuition].
Qed.

(** ** C25 *)

Theorem C25_partition_covers_once N n : 0 < n ->
  let d := decompose (Z.of_nat N) (Z.of_nat n) no_decomp in
  (* consecutive blocks follow each other without gap *)
  estart d 0 = 0%Z /\ eend d (n - 1) = (Z.of_nat N - 1)%Z /\
  (forall i, i + 1 < n -> estart d (i + 1) = (eend d i + 1)%Z) /\
  (forall i, i < n -> (estart d i <= eend d i + 1)%Z /\ DD d i = (eend d i + 1 - estart d i)%Z) /\
  (* every row is in exactly one block *)
  forall c, c < N -> exists! i, i < n /\ (estart d i <= Z.of_nat c <= eend d i)%Z.
Proof.
  intros Hn d. pose proof (decompose_spec N n no_decomp Hn) as D. cbv zeta in D. fold d in D.
  pose proof (Nat.mul_div_le N n ltac:(lia)) as Hb. set (b := N / n) in *. clearbody b.
  assert (Step : forall i, i + 1 < n -> estart d (i + 1) = (eend d i + 1)%Z).
  { intros i Hi. destruct (D i ltac:(lia)) as (_ & E & _). destruct (D (i + 1) Hi) as (S & _ & _).
    rewrite E, S. rewrite (proj2 (Nat.eqb_neq i (n - 1))) by lia. reflexivity. }
  repeat split.
  - destruct (D 0 Hn) as (E & _). rewrite E. reflexivity.
  - destruct (D (n - 1) ltac:(lia)) as (_ & E & _). rewrite Nat.eqb_refl in E. lia.
  - exact Step.
  - destruct (D i H) as (E1 & E2 & _). rewrite E1, E2. destruct (Nat.eqb_spec i (n - 1)); nia.
  - now destruct (D i H) as (_ & _ & E3).
  - intros c Hc.
    assert (Ex : exists i, i < n /\ (estart d i <= Z.of_nat c <= eend d i)%Z).
    { assert (G : forall m, m < n -> (forall i, i <= m -> (Z.of_nat c < estart d i \/ eend d i < Z.of_nat c)%Z) ->
        (eend d m < Z.of_nat c)%Z).
      { induction m as [|m IH]; intros Hm H.
        - destruct (H 0 ltac:(lia)); [|assumption]. destruct (D 0 Hn) as (E & _). rewrite E in *. lia.
        - assert (eend d m < Z.of_nat c)%Z by (apply IH; [lia|intros; apply H; lia]).
          destruct (H (S m) ltac:(lia)); [|assumption]. rewrite <- Nat.add_1_r, Step in H1 by lia. lia. }
      assert (Dec : forall m, m <= n -> (exists i, i < m /\ (estart d i <= Z.of_nat c <= eend d i)%Z) \/
         (forall i, i < m -> (Z.of_nat c < estart d i \/ eend d i < Z.of_nat c)%Z)).
      { induction m as [|m IH]; intros Hm; [right; intros; lia|].
        destruct (IH ltac:(lia)) as [(i & Hi & E)|IH']; [left; exists i; split; [lia|exact E]|].
        destruct (Z.lt_ge_cases (Z.of_nat c) (estart d m)); [right; intros i Hi; destruct (Nat.eq_dec i m) as [->|]; [now left|apply IH'; lia]|].
        destruct (Z.lt_ge_cases (eend d m) (Z.of_nat c)); [right; intros i Hi; destruct (Nat.eq_dec i m) as [->|]; [now right|apply IH'; lia]|].
        left. exists m. split; [lia|]. lia. }
      destruct (Dec n (le_n n)) as [E|No]; [exact E|].
      assert (eend d (n - 1) < Z.of_nat c)%Z by (apply G; [lia|intros i Hi; apply No; lia]).
      destruct (D (n - 1) ltac:(lia)) as (_ & E & _). rewrite Nat.eqb_refl in E. lia. }
    destruct Ex as (i & Hi & E). exists i. split; [split; assumption|].
    intros j [Hj Ej].
    assert (M : forall a k, a + S k < n -> (eend d a < estart d (a + S k))%Z).
    { intros a k Hk. destruct (D a ltac:(lia)) as (_ & Ea & _). destruct (D (a + S k) Hk) as (Es & _ & _).
      rewrite (proj2 (Nat.eqb_neq a (n - 1))) in Ea by lia. rewrite Es. nia. }
    destruct (Nat.lt_trichotomy i j) as [L|[L|L]]; [|exact L|].
    + pose proof (M i (j - i - 1) ltac:(lia)). replace (i + S (j - i - 1)) with j in H by lia. lia.
    + pose proof (M j (i - j - 1) ltac:(lia)). replace (j + S (i - j - 1)) with i in H by lia. lia.
Qed.
Print Assumptions C25_partition_covers_once.

(** The loops of all threads, one after the other, are the serial loop. *)
Theorem C25_blocks_are_the_serial_loop N n : 0 < n -> concat (thread_nodes N n) = seq 0 N.
Proof. exact (thread_nodes_concat N n). Qed.
Print Assumptions C25_blocks_are_the_serial_loop.

Example C25_more_threads_than_rows_ex : thread_nodes 3 5 = [[]; []; []; []; [0; 1; 2]] /\ thread_nodes 7 3 = [[0; 1]; [2; 3]; [4; 5; 6]].
Proof. split; reflexivity. Qed.

(** ** C26 *)

(** Contents of the matrix after any interleaving of the merge of any number of
    threads, stated from the nodes and their rows only. *)
Definition row_entries (s : system) (c : nat) : list (Z * R) :=
  if assembled (sgrid s) (typ s c) then entries s c else [].

Theorem C26_matrix_contents s N n nnzc r m : well_typed s N -> numbered s N -> 0 < n ->
  interleaving (fst (assembly s N n nnzc)) r ->
  let all := flat_map (row_entries s) (seq 0 N) in
  (forall c, c < N -> assembled (sgrid s) (typ s c) = true ->
     exec r m (LIc (eqn s c)) = CI (nnzc + Z.of_nat (length (flat_map (row_entries s) (seq 0 c))))) /\
  (forall k e, nth_error all k = Some e ->
     exec r m (LJ (nnzc + Z.of_nat k)) = CI (fst e) /\ exec r m (LA (nnzc + Z.of_nat k)) = CR (snd e)) /\
  (forall l, (l < nnzc \/ nnzc + Z.of_nat (length all) <= l)%Z -> exec r m (LJ l) = m (LJ l) /\ exec r m (LA l) = m (LA l)) /\
  (forall e, (forall c, c < N -> assembled (sgrid s) (typ s c) = true -> eqn s c <> e) -> exec r m (LIc e) = m (LIc e)) /\
  snd (assembly s N n nnzc) = (nnzc + Z.of_nat (length all))%Z.
Proof.
  intros Hw Hn Hpos HI all.
  assert (X : forall a, exec r m a = exec (serial s N nnzc) m a) by (intros; now apply (assembly_any s N n nnzc)).
  pose proof (serial_nodup s N nnzc Hn) as ND.
  change (flat_map (row_entries s)) with (rows_of s) in *.
  split; [|split; [|split; [|split]]].
  - intros c Hc A. rewrite X.
    rewrite (exec_in (serial s N nnzc) m (LIc (eqn s c)) (fun _ => CI (nnzc + Z.of_nat (length (rows_of s (seq 0 c)))))); [reflexivity|exact ND|].
    apply in_or_app. left. apply (ic_stores_in s (seq 0 N) nnzc (seq 0 c) c (seq (S c) (N - S c))); [|exact A].
    replace (c :: seq (S c) (N - S c)) with (seq c (N - c)) by (replace (N - c) with (S (N - S c)) by lia; reflexivity).
    replace N with (c + (N - c)) at 1 by lia. apply seq_app.
  - intros k e E. destruct (data_stores_in all nnzc k e E) as [I1 I2]. rewrite !X. split.
    + rewrite (exec_in (serial s N nnzc) m _ (fun _ => CI (fst e))); [reflexivity|exact ND|]. apply in_or_app. now right.
    + rewrite (exec_in (serial s N nnzc) m _ (fun _ => CR (snd e))); [reflexivity|exact ND|]. apply in_or_app. now right.
  - intros l Hl. rewrite !X. split; apply exec_notin; unfold serial; rewrite map_app; intros I; apply in_app_or in I as [I|I].
    + rewrite ic_locs in I. apply in_map_iff in I as (c & E & _). discriminate.
    + apply data_locs in I as (k & Hk & [E|E]); [discriminate|]. injection E as E. unfold all in Hl. lia.
    + rewrite ic_locs in I. apply in_map_iff in I as (c & E & _). discriminate.
    + apply data_locs in I as (k & Hk & [E|E]); [|discriminate]. injection E as E. unfold all in Hl. lia.
  - intros e He. rewrite X. apply exec_notin. unfold serial. rewrite map_app. intros I. apply in_app_or in I as [I|I].
    + rewrite ic_locs in I. apply in_map_iff in I as (c & E & I). injection E as E. apply filter_In in I as [I A].
      apply in_seq in I. apply (He c); [lia|exact A|exact E].
    + apply data_locs in I as (k & _ & [E|E]); discriminate.
  - now apply assembly_count.
Qed.
Print Assumptions C26_matrix_contents.

(** Any two thread counts and interleavings give the same memory. *)
Theorem C26_thread_count_independent s N n n' nnzc r r' m a : well_typed s N -> numbered s N -> 0 < n -> 0 < n' ->
  interleaving (fst (assembly s N n nnzc)) r -> interleaving (fst (assembly s N n' nnzc)) r' ->
  exec r m a = exec r' m a /\ snd (assembly s N n nnzc) = snd (assembly s N n' nnzc).
Proof.
  intros Hw Hn Hp Hp' HI HI'. split.
  - rewrite (assembly_any s N n nnzc r m a) by assumption. symmetry. now apply (assembly_any s N n' nnzc r').
  - now rewrite !assembly_count.
Qed.
Print Assumptions C26_thread_count_independent.

(** The right-hand side, which rows change by several read-modify-write accesses,
    is that of the serial loop for every thread count and interleaving. *)
Theorem C26_rhs_thread_count_independent s ops N n r m a : numbered s N -> 0 < n ->
  interleaving (map (rhs_thread s ops) (thread_nodes N n)) r ->
  exec r m a = exec (rhs_thread s ops (seq 0 N)) m a.
Proof. intros; eapply rhs_any; eassumption. Qed.
Print Assumptions C26_rhs_thread_count_independent.

(** Consecutive equation numbers: the row of an equation ends where the next begins. *)
Theorem C26_rows_are_contiguous s N n nnzc r m c c' : well_typed s N -> numbered s N -> 0 < n ->
  interleaving (fst (assembly s N n nnzc)) r ->
  c < c' < N -> assembled (sgrid s) (typ s c) = true -> assembled (sgrid s) (typ s c') = true ->
  (forall x, c < x < c' -> assembled (sgrid s) (typ s x) = false) ->
  exists b, exec r m (LIc (eqn s c)) = CI b /\
    exec r m (LIc (eqn s c')) = CI (b + Z.of_nat (length (entries s c))) /\
    forall k e, nth_error (entries s c) k = Some e ->
      exec r m (LJ (b + Z.of_nat k)) = CI (fst e) /\ exec r m (LA (b + Z.of_nat k)) = CR (snd e).
Proof.
  intros Hw Hn Hp HI Hc A A' Hno.
  destruct (C26_matrix_contents s N n nnzc r m Hw Hn Hp HI) as (C1 & C2 & _).
  exists (nnzc + Z.of_nat (length (flat_map (row_entries s) (seq 0 c))))%Z.
  assert (G : flat_map (row_entries s) (seq 0 c') = flat_map (row_entries s) (seq 0 c) ++ entries s c).
  { replace c' with (c + S (c' - S c)) by lia. rewrite seq_app, flat_map_app. f_equal.
    cbn [seq flat_map plus]. unfold row_entries at 1. rewrite A.
    assert (Z : flat_map (row_entries s) (seq (S c) (c' - S c)) = []).
    { assert (Hall : forall x, In x (seq (S c) (c' - S c)) -> row_entries s x = []).
      { intros x I. apply in_seq in I. unfold row_entries. rewrite Hno; [reflexivity|lia]. }
      revert Hall. generalize (seq (S c) (c' - S c)). induction l as [|y q IH]; intros H; [reflexivity|].
      cbn. rewrite H by (now left). apply IH. intros; apply H; now right. }
    rewrite Z. apply app_nil_r. }
  split; [apply C1; [lia|exact A]|]. split.
  - rewrite C1; [|lia|exact A']. rewrite G, app_length. f_equal. lia.
  - intros k e E.
    assert (E' : nth_error (flat_map (row_entries s) (seq 0 N)) (length (flat_map (row_entries s) (seq 0 c)) + k) = Some e).
    { replace N with (c' + (N - c')) by lia. rewrite seq_app, flat_map_app, G, <- app_assoc.
      rewrite nth_error_app2 by lia. match goal with |- nth_error _ ?i = _ => replace i with k by lia end. rewrite nth_error_app1; [exact E|].
      apply nth_error_Some. congruence. }
    specialize (C2 _ _ E'). rewrite Nat2Z.inj_add in C2. now rewrite <- Z.add_assoc.
Qed.
Print Assumptions C26_rows_are_contiguous.

(** A small system: six Vx nodes, of which two are free; two threads. *)
Definition ex_sys : system :=
  System EqU (fun c => nth c [0; -1; 13; 30; -2; -12]%Z 30%Z) (fun c => if c =? 1 then 0 else 1)
    (fun c => if c =? 1 then [(0%Z, 4%R); (1%Z, (-1)%R)] else [(1%Z, 3%R)]).
Example C26_system_ex : well_typed ex_sys 6 /\ numbered ex_sys 6 /\
  interleaving (fst (assembly ex_sys 6 2 0%Z)) (concat (fst (assembly ex_sys 6 2 0%Z))) /\
  length (concat (fst (assembly ex_sys 6 2 0%Z))) = 8 /\
  (* not the order of the serial program *)
  (exists r, interleaving (fst (assembly ex_sys 6 2 0%Z)) r /\ hd_error (map fst r) = Some (LIc 1)).
Proof.
  split; [|split; [|split; [apply interleaving_exists|split; [reflexivity|]]]].
  - intros c Hc. do 6 (destruct c; [cbn; tauto|]). lia.
  - intros c c' Hc Hc' A A' E. do 6 (destruct c; [do 6 (destruct c'; [cbn in *; try discriminate; reflexivity|]); lia|]). lia.
  - cbn. eexists. split.
    + refine (il_step [_] _ _ [] _ _). apply interleaving_exists.
    + reflexivity.
Qed.

(** ** C27 *)

(** No thread writes past its buffers under the stated conditions, for any node
    types (each row emits at most nine, two or four entries). *)
Theorem C27_velocity_block_fits nx nz n tu tv nodes : 0 < n -> 1 <= nx -> 1 <= nz ->
  (n - 1) * (n - 1) + 2 * nx + nz <= nx * nz ->
  In nodes (thread_nodes (nx * (nz + 1)) n) ->
  written EqU (fun c => tu (Z.of_nat c)) (x_count nx nz tu tv) nodes <= capacity (nnzA nx nz) n.
Proof.
  intros Hn Hx Hz Hc I. apply (buffer_ok _ _ _ 9 (nx * (nz + 1)) n); auto.
  - intros c. unfold x_count. destruct (_ && _); [|lia]. eapply Nat.le_trans; [apply emit_le|]. cbn. lia.
  - pose proof (largest_block (nx * (nz + 1)) n Hn) as L.
    set (q := nx * (nz + 1) / n + nx * (nz + 1) mod n) in *. clearbody q.
    set (k := (n - 1) * (n - 1)) in *. clearbody k. unfold nnzA.
    replace (n * (9 * q)) with (9 * (n * q)) by lia. apply Nat.mul_le_mono_l.
    assert (E : (nx - 1) * nz + (nz - 1) * nx + nz + nx = 2 * (nx * nz)) by nia.
    nia.
Qed.
Print Assumptions C27_velocity_block_fits.

Theorem C27_vertical_velocity_block_fits nx nz n tv (row : nat -> list (bool * Z)) nodes : 0 < n -> 1 <= nx -> 1 <= nz ->
  (forall c, length (row c) <= 9) ->
  (n - 1) * (n - 1) + 2 * nz + nx <= nx * nz ->
  In nodes (thread_nodes ((nx + 1) * nz) n) ->
  written EqV (fun c => tv (Z.of_nat c)) (fun c => emit (row c)) nodes <= capacity (nnzA nx nz) n.
Proof.
  intros Hn Hx Hz Hr Hc I. apply (buffer_ok _ _ _ 9 ((nx + 1) * nz) n); auto.
  - intros c. eapply Nat.le_trans; [apply emit_le|]. apply Hr.
  - pose proof (largest_block ((nx + 1) * nz) n Hn) as L.
    set (q := (nx + 1) * nz / n + (nx + 1) * nz mod n) in *. clearbody q.
    set (k := (n - 1) * (n - 1)) in *. clearbody k. unfold nnzA.
    replace (n * (9 * q)) with (9 * (n * q)) by lia. apply Nat.mul_le_mono_l.
    assert (E : (nx - 1) * nz + (nz - 1) * nx + nz + nx = 2 * (nx * nz)) by nia.
    nia.
Qed.
Print Assumptions C27_vertical_velocity_block_fits.

Theorem C27_gradient_and_divergence_blocks_fit nx nz n N g typ (row : nat -> list (bool * Z)) m nodes :
  0 < n -> (forall c, length (row c) <= m) ->
  m * (N + (n - 1) * (n - 1)) <= nnzB nx nz ->
  In nodes (thread_nodes N n) ->
  written g typ (fun c => emit (row c)) nodes <= capacity (nnzB nx nz) n.
Proof.
  intros Hn Hr Hc I. apply (buffer_ok _ _ _ m N n); auto.
  - intros c. eapply Nat.le_trans; [apply emit_le|]. apply Hr.
  - pose proof (largest_block N n Hn) as L.
    replace (n * (m * (N / n + N mod n))) with (m * (n * (N / n + N mod n))) by lia.
    eapply Nat.le_trans; [apply Nat.mul_le_mono_l; exact L|exact Hc].
Qed.
Print Assumptions C27_gradient_and_divergence_blocks_fit.

(** The model's rows satisfy the bounds used above. *)
Example C27_row_lengths_ex nx nz tu tv tp k l f1 f2 i1 i2 i3 i4 :
  length (x_row nx tu tv k l) = 9 /\ length (z_row nx nz tu tv k l) = 9 /\
  length (grad_row tp f1 f2 i1 i2) = 2 /\ length (div_row tu tv i1 i2 i3 i4) = 4.
Proof. repeat split. Qed.

(** 50 x 50 nodes and 40 threads meet all conditions. *)
Example C27_condition_ex : 39 * 39 + 2 * 50 + 50 <= 50 * 50 /\
  2 * (50 * 51 + 15 * 15) <= nnzB 50 50 /\ 4 * (49 * 49 + 15 * 15) <= nnzB 50 50.
Proof. unfold nnzB. repeat split; apply Nat.leb_le; vm_compute; reflexivity. Qed.

(** Box with prescribed normal velocities and free slip, 11 x 101 nodes, 128
    threads: the last thread writes past the end of its buffer. *)
Definition box_u (nx nz : Z) (c : Z) : Z :=
  let k := (c mod nx)%Z in let l := (c / nx)%Z in
  if Z.eqb k 0 || Z.eqb k (nx - 1) then 0%Z else if Z.eqb l 0 || Z.eqb l nz then 13%Z else (-1)%Z.
Definition box_v (nx nz : Z) (c : Z) : Z :=
  let k := (c mod (nx + 1))%Z in let l := (c / (nx + 1))%Z in
  if Z.eqb l 0 || Z.eqb l (nz - 1) then 0%Z else if Z.eqb k 0 || Z.eqb k nx then 13%Z else (-1)%Z.

Theorem C27_buffer_overrun_refuted : exists nx nz n nodes,
  0 < n /\ In nodes (thread_nodes (nx * (nz + 1)) n) /\
  capacity (nnzA nx nz) n <
  written EqU (fun c => box_u (Z.of_nat nx) (Z.of_nat nz) (Z.of_nat c))
    (x_count nx nz (box_u (Z.of_nat nx) (Z.of_nat nz)) (box_v (Z.of_nat nx) (Z.of_nat nz))) nodes.
Proof.
  exists 11, 101, 128, (nth 127 (thread_nodes (11 * 102) 128) []).
  split; [lia|]. split.
  - apply nth_In. rewrite thread_nodes_length. lia.
  - apply Nat.ltb_lt. vm_compute. reflexivity.
Qed.
Print Assumptions C27_buffer_overrun_refuted.
