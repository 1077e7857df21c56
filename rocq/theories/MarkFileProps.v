(** * File of initial markers: theorems *)
From Coq Require Import List ZArith Bool Arith Lia.
Import ListNotations.
From Verif Require Import GridModel GridProofs MarkFileModel.
Local Open Scope Z_scope.

(** ** Bytes *)
Lemma bytes_length : forall n v, length (bytes n v) = n.
Proof. induction n; intros v; cbn [bytes length]; [reflexivity|]. now rewrite IHn. Qed.
Lemma number_bytes : forall n v, number (bytes n v) = v mod 256 ^ Z.of_nat n.
Proof.
  induction n as [|n IH]; intros v; [cbn; now rewrite Z.mod_1_r|]. cbn [bytes number]. rewrite IH.
  rewrite Nat2Z.inj_succ, Z.pow_succ_r by lia. rewrite Z.rem_mul_r by (try apply Z.pow_nonzero; lia). lia.
Qed.
Lemma double_back v : 0 <= v < 2 ^ 64 -> as_double (bytes 8 v) = v.
Proof. intros H. unfold as_double. rewrite number_bytes. change (256 ^ Z.of_nat 8) with (2 ^ 64). now apply Z.mod_small. Qed.
Lemma int_back v : - 2 ^ 31 <= v < 2 ^ 31 -> as_int (bytes 4 v) = v.
Proof.
  intros H. unfold as_int. rewrite number_bytes. change (256 ^ Z.of_nat 4) with (2 ^ 32).
  destruct (Z_lt_le_dec v 0) as [N|P].
  - replace (v mod 2 ^ 32) with (v + 2 ^ 32) by (apply (Z.mod_unique _ _ (-1)); lia).
    destruct (Z.ltb_spec (v + 2 ^ 32) (2 ^ 31)); lia.
  - rewrite Z.mod_small by lia. destruct (Z.ltb_spec v (2 ^ 31)); lia.
Qed.

(** Reading elements that are in the file, with what follows them. *)
Lemma fread_list sz dec : (0 < sz)%nat -> forall n i a l tail, length l = n -> (forall v, In v l -> length v = sz) ->
  let r := fread sz dec n i a (concat l ++ tail) in
  (forall j, (i <= j < i + n)%nat -> fst r j = Some (dec (nth (j - i) l []))) /\
  (forall j, (j < i \/ i + n <= j)%nat -> fst r j = a j) /\ snd r = tail.
Proof.
  intros SZ. induction n as [|n IH]; intros i a l tail L A; cbv zeta; cbn [fread].
  - destruct l; [|discriminate]. cbn. repeat split; intros; lia.
  - destruct l as [|v l]; [discriminate|]. cbn [concat]. rewrite <- app_assoc.
    assert (V : length v = sz) by (apply A; now left).
    assert (B : (length (v ++ concat l ++ tail) <? sz)%nat = false) by (apply Nat.ltb_ge; rewrite app_length; lia). rewrite B.
    assert (F : firstn sz (v ++ concat l ++ tail) = v) by (rewrite firstn_app, V, Nat.sub_diag, <- V, firstn_all; cbn; apply app_nil_r).
    assert (K : skipn sz (v ++ concat l ++ tail) = concat l ++ tail) by (rewrite skipn_app, V, Nat.sub_diag, <- V, skipn_all; reflexivity).
    rewrite F, K. injection L as L. destruct (IH (i + 1)%nat (upd a i (Some (dec v))) l tail L (fun v' I => A v' (or_intror I))) as (P & Q & SS).
    split; [|split; [|exact SS]].
    + intros j J. destruct (Nat.eq_dec j i) as [->|N].
      * rewrite Q by lia. rewrite upd_same, Nat.sub_diag. reflexivity.
      * rewrite P by lia. replace (j - i)%nat with (S (j - (i + 1)))%nat by lia. reflexivity.
    + intros j J. rewrite Q by lia. apply upd_other. lia.
Qed.

Definition cells (sz n : nat) (a : nat -> Z) : list (list Z) := map (fun i => bytes sz (a i)) (seq 0 n).
Lemma fwrite_cells sz n a : fwrite sz n a = concat (cells sz n a).
Proof. unfold fwrite, cells. now rewrite flat_map_concat_map. Qed.
Lemma cells_length sz n a : length (cells sz n a) = n.
Proof. unfold cells. now rewrite map_length, seq_length. Qed.
Lemma cells_sz sz n a v : In v (cells sz n a) -> length v = sz.
Proof. unfold cells. intros I. apply in_map_iff in I. destruct I as (i & <- & _). apply bytes_length. Qed.
Lemma cells_nth sz n a j : (j < n)%nat -> nth j (cells sz n a) [] = bytes sz (a j).
Proof.
  intros J. unfold cells. set (g := fun i => bytes sz (a i)). rewrite (nth_indep _ [] (g 0%nat)) by (rewrite map_length, seq_length; lia).
  rewrite (map_nth g). now rewrite seq_nth.
Qed.
Lemma fread_fwrite sz dec n a0 a tail : (0 < sz)%nat -> (forall j, (j < n)%nat -> dec (bytes sz (a j)) = a j) ->
  let r := fread sz dec n 0 a0 (fwrite sz n a ++ tail) in
  (forall j, (j < n)%nat -> fst r j = Some (a j)) /\ (forall j, (n <= j)%nat -> fst r j = a0 j) /\ snd r = tail.
Proof.
  intros SZ D. rewrite fwrite_cells. destruct (fread_list sz dec SZ n 0 a0 (cells sz n a) tail (cells_length _ _ _) (cells_sz _ _ _)) as (P & Q & SS).
  cbv zeta. split; [|split; [|exact SS]].
  - intros j J. rewrite P by lia. rewrite Nat.sub_0_r, cells_nth by exact J. now rewrite D.
  - intros j J. apply Q. lia.
Qed.

Definition good (n : nat) (x z phase : nat -> Z) : Prop :=
  forall i, (i < n)%nat -> 0 <= x i < 2 ^ 64 /\ 0 <= z i < 2 ^ 64 /\ - 2 ^ 31 <= phase i < 2 ^ 31.

(** Markers written by one run and read by another run with the same number of markers are
    bit by bit the same; markers beyond the number and all other data stay as they were; the
    file is not changed by reading. *)
Theorem C126_roundtrip : forall A n x z phase x0 z0 phase0 (r r0 : A) disk0 disk m, good n x z phase ->
  initial_markers 1 0 n true disk0 x z phase r = Some (disk, m, r) ->
  exists m', initial_markers 0 1 n true disk x0 z0 phase0 r0 = Some (disk, m', r0) /\
    (forall i, (i < n)%nat -> mk_x m' i = Some (x i) /\ mk_z m' i = Some (z i) /\ mk_phase m' i = Some (phase i)) /\
    (forall i, (n <= i)%nat -> mk_x m' i = Some (x0 i) /\ mk_z m' i = Some (z0 i) /\ mk_phase m' i = Some (phase0 i)).
Proof.
  intros A n x z phase x0 z0 phase0 r r0 disk0 disk m G E.
  unfold initial_markers in E. cbn in E. injection E as E _. subst disk. unfold initial_markers. cbn [Z.eqb]. unfold load. cbn [mk_x mk_z mk_phase].
  change (Pos.eqb 1 1) with true. cbv iota.
  pose proof (fread_fwrite 8 as_double n (fun i => Some (x0 i)) x (fwrite 8 n z ++ fwrite 4 n phase) ltac:(lia) (fun j J => double_back _ (proj1 (G j J)))) as X.
  cbv zeta in X. destruct (fread 8 as_double n 0 _ (fwrite 8 n x ++ _)) as [ax fx]. cbn [fst snd] in X. destruct X as (X1 & X2 & ->).
  pose proof (fread_fwrite 8 as_double n (fun i => Some (z0 i)) z (fwrite 4 n phase) ltac:(lia) (fun j J => double_back _ (proj1 (proj2 (G j J))))) as Y.
  cbv zeta in Y. destruct (fread 8 as_double n 0 _ (fwrite 8 n z ++ _)) as [az fz]. cbn [fst snd] in Y. destruct Y as (Y1 & Y2 & ->).
  pose proof (fread_fwrite 4 as_int n (fun i => Some (phase0 i)) phase [] ltac:(lia) (fun j J => int_back _ (proj2 (proj2 (G j J))))) as W.
  rewrite app_nil_r in W. cbv zeta in W. destruct (fread 4 as_int n 0 _ (fwrite 4 n phase)) as [ap fp]. cbn [fst snd] in W. destruct W as (W1 & W2 & _).
  eexists. split; [reflexivity|]. cbn [mk_x mk_z mk_phase]. split; intros i I; repeat split; auto.
Qed.

(** The program stops exactly if the file cannot be opened. *)
Theorem C126_stops : forall A s l n w disk x z phase (r : A),
  initial_markers s l n w disk x z phase r = None <-> (s = 1 /\ w = false) \/ (l = 1 /\ s <> 1 /\ disk = None).
Proof.
  intros A s l n w disk x z phase r. unfold initial_markers, save, load.
  destruct (Z.eqb_spec s 1) as [S1|S1], (Z.eqb_spec l 1) as [L1|L1]; destruct w; try destruct disk as [file|];
    repeat match goal with |- context[fread ?a ?b ?c ?d ?e ?f] => destruct (fread a b c d e f) end;
    split; intros H; try discriminate; try (intuition congruence); try tauto; auto.
Qed.

(** Refuted: only markers of the present model are accepted. A file with the markers of a
    finer run is read without complaint; the first extra horizontal coordinate becomes the
    vertical coordinate of marker 0. *)
Lemma fwrite_split sz a b f : fwrite sz (a + b) f = fwrite sz a f ++ fwrite sz b (fun i => f (a + i)%nat).
Proof.
  unfold fwrite. rewrite seq_app, flat_map_app. f_equal. cbn [Nat.add].
  assert (S : forall k, flat_map (fun i => bytes sz (f i)) (seq (a + k) b) = flat_map (fun i => bytes sz (f (a + i)%nat)) (seq k b)).
  { induction b as [|b IH]; intros k; [reflexivity|]. cbn [seq flat_map]. rewrite <- Nat.add_succ_r, IH. reflexivity. }
  rewrite <- (Nat.add_0_r a) at 1. apply S.
Qed.
Theorem C126_other_number_refuted : forall A n e x z phase x0 z0 phase0 (r0 : A) file, (0 < n)%nat -> good (n + e) x z phase ->
  save (n + e) true x z phase = Some file ->
  exists m', initial_markers 0 1 n true (Some file) x0 z0 phase0 r0 = Some (Some file, m', r0) /\
    (forall i, (i < n)%nat -> mk_x m' i = Some (x i)) /\ (forall i, (i < n)%nat -> (i < e)%nat -> mk_z m' i = Some (x (n + i)%nat)).
Proof.
  intros A n e x z phase x0 z0 phase0 r0 file N G E. unfold save in E. injection E as E. unfold initial_markers, load. change (0 =? 1) with false. change (1 =? 1) with true. cbv iota. cbn [mk_x mk_z mk_phase].
  set (tail := fwrite 8 e (fun i => x (n + i)%nat) ++ fwrite 8 (n + e) z ++ fwrite 4 (n + e) phase).
  assert (F : file = fwrite 8 n x ++ tail) by (rewrite <- E, (fwrite_split 8 n e x), <- app_assoc; reflexivity). clear E. rewrite F.
  pose proof (fread_fwrite 8 as_double n (fun i => Some (x0 i)) x tail ltac:(lia) (fun j J => double_back _ (proj1 (G j ltac:(lia))))) as X.
  cbv zeta in X. destruct (fread 8 as_double n 0 _ (fwrite 8 n x ++ _)) as [ax fx]. cbn [fst snd] in X. destruct X as (X1 & _ & ->).
  (* the first min n e elements of what follows are the extra horizontal coordinates *)
  assert (Z1 : forall i, (i < n)%nat -> (i < e)%nat -> fst (fread 8 as_double n 0 (fun i => Some (z0 i)) tail) i = Some (x (n + i)%nat)).
  { set (q := Nat.min n e).
    assert (T : exists t', tail = concat (cells 8 q (fun i => x (n + i)%nat)) ++ t').
    { unfold tail. rewrite <- fwrite_cells. assert (Ee : (e = q + (e - q))%nat) by lia.
      assert (S1 : fwrite 8 e (fun i => x (n + i)%nat) = fwrite 8 q (fun i => x (n + i)%nat) ++ fwrite 8 (e - q) (fun i => x (n + (q + i))%nat))
        by (rewrite Ee at 1; apply (fwrite_split 8 q (e - q) (fun i => x (n + i)%nat))).
      rewrite S1, <- app_assoc. eexists. reflexivity. }
    destruct T as (t' & ->).
    assert (P : forall c i a l, (length l <= c)%nat -> (forall v, In v l -> length v = 8%nat) -> forall j, (i <= j < i + length l)%nat ->
      fst (fread 8 as_double c i a (concat l ++ t')) j = Some (as_double (nth (j - i) l []))).
    { assert (K : forall c i a f j, (j < i)%nat -> fst (fread 8 as_double c i a f) j = a j).
      { induction c as [|c IH]; intros i a f j J; [reflexivity|]. cbn [fread]. destruct (length f <? 8)%nat.
        - destruct (length f =? 0)%nat; [reflexivity|]. cbn [fst]. apply upd_other. lia.
        - rewrite IH by lia. apply upd_other. lia. }
      induction c as [|c IH]; intros i a l L AL j J; [lia|]. destruct l as [|v l]; [cbn in J; lia|]. cbn [concat fread]. rewrite <- app_assoc.
      assert (V : length v = 8%nat) by (apply AL; now left).
      assert (B : (length (v ++ concat l ++ t') <? 8)%nat = false) by (apply Nat.ltb_ge; rewrite app_length; lia). rewrite B.
      assert (FI : firstn 8 (v ++ concat l ++ t') = v) by (rewrite firstn_app, V, Nat.sub_diag, <- V, firstn_all; cbn; apply app_nil_r).
      assert (SK : skipn 8 (v ++ concat l ++ t') = concat l ++ t') by (rewrite skipn_app, V, Nat.sub_diag, <- V, skipn_all; reflexivity).
      rewrite FI, SK. cbn [length] in L, J. destruct (Nat.eq_dec j i) as [->|NE].
      - rewrite K by lia. rewrite upd_same, Nat.sub_diag. reflexivity.
      - rewrite IH; [|lia|intros; apply AL; now right|lia]. replace (j - i)%nat with (S (j - (i + 1)))%nat by lia. reflexivity. }
    intros i I Ie. rewrite P; [|rewrite cells_length; lia|intros v Hv; exact (cells_sz _ _ _ _ Hv)|rewrite cells_length; lia].
    rewrite Nat.sub_0_r, cells_nth by lia. rewrite double_back; [reflexivity|]. apply G. lia. }
  destruct (fread 8 as_double n 0 (fun i => Some (z0 i)) tail) as [az fz]. cbn [fst] in Z1.
  destruct (fread 4 as_int n 0 _ fz) as [ap fp]. eexists. split; [reflexivity|]. cbn [mk_x mk_z]. auto.
Qed.

(** Refuted: the phases of the markers are validated. A phase read from the file is used
    whatever the number of phases is. *)
Theorem C126_phase_refuted : forall nph, 0 <= nph < 2 ^ 31 - 1 -> exists x z phase file m',
  save 1 true x z phase = Some file /\ initial_markers 0 1 1 true (Some file) x z (fun _ => 0) tt = Some (Some file, m', tt) /\
  mk_phase m' 0%nat = Some (nph + 1).
Proof.
  intros nph H. exists (fun _ => 0), (fun _ => 0), (fun _ => nph + 1).
  destruct (C126_roundtrip unit 1 (fun _ => 0) (fun _ => 0) (fun _ => nph + 1) (fun _ => 0) (fun _ => 0) (fun _ => 0) tt tt None
    (save 1 true (fun _ => 0) (fun _ => 0) (fun _ => nph + 1)) (Marks (fun _ => Some 0) (fun _ => Some 0) (fun _ => Some (nph + 1)))) as (m' & E & P & _).
  - intros i I. repeat split; try lia.
  - reflexivity.
  - unfold save in *. eexists. exists m'. split; [reflexivity|]. split; [exact E|]. apply (P 0%nat). lia.
Qed.
Print Assumptions C126_roundtrip.
Print Assumptions C126_stops.
Print Assumptions C126_other_number_refuted.
Print Assumptions C126_phase_refuted.

(** The bytes of one marker in phase 1 at the patterns 258 and 1 (hex 0102 and 01). *)
Example C126_ex : save 1 true (fun _ => 258) (fun _ => 1) (fun _ => 1) = Some [2; 1; 0; 0; 0; 0; 0; 0; 1; 0; 0; 0; 0; 0; 0; 0; 1; 0; 0; 0] /\
  option_map (fun r => mk_phase (snd (fst r)) 0%nat) (initial_markers 0 1 1 true (Some [2; 1; 0; 0; 0; 0; 0; 0; 1; 0; 0; 0; 0; 0; 0; 0; 255; 255; 255; 255]) (fun _ => 0) (fun _ => 0) (fun _ => 0) tt) = Some (Some (-1)).
Proof. split; reflexivity. Qed.
