(** C11-C13: checkpoint files on disk, crash points, step sequences. *)
From Coq Require Import List NArith String Bool Lia.
Import ListNotations.
From Verif Require Import CkptModel CkptProofs.
Open Scope N_scope.

(** ** C11 *)

(** Whatever was on disk before, at every crash point the checkpoint that was
    completed last in this session is complete and holds the step in its name. *)
Theorem C11_last_completed_survives :
  forall cf s n f p c,
  del cf <> DelSingle -> writer cf = true -> 0 < writer_step cf ->
  crash_prefix p (session_ops cf s n) ->
  last_completed p = Some c ->
  holds (exec f p) (numbered c) c.
Proof. intros cf s n f p c Hd Hw Hs. exact (survive_from_any cf Hd Hw Hs n s f p c). Qed.
Print Assumptions C11_last_completed_survives.

(** Restarting from a complete checkpoint: the one restarted from stays usable
    until a newer one has been completed, at every crash point and whatever the
    output interval of the restarted session. *)
Theorem C11_restart_point_survives :
  forall cf r n f p,
  del cf <> DelSingle -> writer cf = true -> 0 < writer_step cf ->
  holds f (numbered r) r ->
  crash_prefix p (session_ops cf r n) ->
  let c := match last_completed p with Some k => k | None => r end in
  r <= c /\ holds (exec f p) (numbered c) c.
Proof.
  intros cf r n f p Hd Hw Hs H Hp c.
  destruct (survive cf Hd Hw Hs n r r f p H) as (c' & Hle & -> & Hh); [lia|intros; lia|exact Hp|].
  split; assumption.
Qed.
Print Assumptions C11_restart_point_survives.

(** Any number of sessions, each killed anywhere: once a usable checkpoint
    exists there is always one. *)
Theorem C11_any_number_of_crashes :
  forall f g, sessions f g ->
  (exists r, holds f (numbered r) r) -> exists c, holds g (numbered c) c.
Proof. exact survive_sessions. Qed.
Print Assumptions C11_any_number_of_crashes.

(** The newest-named file is not always the newest checkpoint: there is a crash
    point where the file with the greatest step number is a complete checkpoint
    of an older step. *)
Theorem C11_newest_name_is_newest_refuted :
  exists cf n p k old, del cf = DelOld /\ writer cf = true /\ 0 < writer_step cf /\
    crash_prefix p (session_ops cf 0 n) /\
    old < k /\ holds (exec fs_empty p) (numbered k) old /\
    (forall j, k < j -> exec fs_empty p (numbered j) = None).
Proof.
  exists (CkptCfg DelOld true 1 (fun _ => 0%nat)), 4%nat,
    (session_ops (CkptCfg DelOld true 1 (fun _ => 0%nat)) 0 3 ++
     [Mv (numbered 2) (numbered 4)]), 4, 2.
  repeat split; try reflexivity.
  - exists [Open (numbered 4) 4; Close (numbered 4) 4]. reflexivity.
  - intros j Hj. rewrite exec_untouched; [reflexivity|].
    intros o Ho T.
    assert (G : forall a, a <= 4 -> numbered j <> numbered a).
    { intros a Ha E. apply numbered_inj in E. lia. }
    cbn -[numbered] in Ho.
    repeat (destruct Ho as [<-|Ho];
      [cbn -[numbered] in T; try (destruct T as [T|T]); (eapply G; [|exact T]; lia)|]).
    contradiction.
Qed.
Print Assumptions C11_newest_name_is_newest_refuted.

(** With the single-file mode a crash can leave no usable checkpoint at all
    although earlier ones had been completed. *)
Theorem C11_single_file_survives_refuted :
  exists cf n p, del cf = DelSingle /\ writer cf = true /\ 0 < writer_step cf /\
    crash_prefix p (session_ops cf 0 n) /\
    last_completed p = Some 1 /\
    (forall nm k, ~ holds (exec fs_empty p) nm k).
Proof.
  exists (CkptCfg DelSingle true 1 (fun _ => 1%nat)), 2%nat,
    [Open single 1; Write single 1; Close single 1; Open single 2].
  repeat split; try reflexivity.
  - exists [Write single 2; Close single 2]. reflexivity.
  - intros nm k H. unfold holds in H. cbn -[single String.eqb] in H.
    unfold upd in H. destruct (String.eqb nm single); discriminate.
Qed.
Print Assumptions C11_single_file_survives_refuted.

(** Non-trivial instance: interval 5, killed in the middle of the fourth output,
    after the old file was moved and the new one truncated. *)
Example C11_ex :
  let cf := CkptCfg DelOld true 5 (fun _ => 2%nat) in
  let p := session_ops cf 0 19 ++
           [Mv (numbered 10) (numbered 20); Open (numbered 20) 20; Write (numbered 20) 20] in
  crash_prefix p (session_ops cf 0 20) /\ last_completed p = Some 15 /\
  holds (exec fs_empty p) (numbered 15) 15 /\
  exec fs_empty p (numbered 20) = Some (Content 20 false) /\
  numbered 15 = "Breakpoint00015.dat"%string.
Proof.
  cbn zeta. split; [exists [Write (numbered 20) 20; Close (numbered 20) 20]; reflexivity|].
  repeat split; reflexivity.
Qed.

(** ** C12 *)

(** After [n] steps of a fresh run with deletion of old files, the files on disk
    are exactly those of the output steps that are among the two newest ones or
    have number at most 1, each complete. *)
Theorem C12_exact_files :
  forall cf n k,
  del cf = DelOld -> writer cf = true -> 0 < writer_step cf ->
  let f := exec fs_empty (session_ops cf 0 n) in
  let w := writer_step cf in let N := N.of_nat n in
  (0 < k <= N /\ (w | k) /\ (N < k + 2 * w \/ k <= 1) <-> f (numbered k) <> None) /\
  (f (numbered k) <> None -> holds f (numbered k) k).
Proof.
  intros cf n k Hd Hw Hs f w N.
  destruct (retained cf Hd Hw Hs n (numbered k)) as [A B].
  assert (D : forall j, numbered k = numbered j -> k = j) by (intros; now apply numbered_inj).
  fold f in A, B. fold w N in A, B.
  assert (Dec : kept w N k \/ ~ kept w N k).
  { unfold kept. destruct (N.eqb_spec (k mod w) 0) as [E|E].
    - apply N.mod_divide in E; [|unfold w; lia].
      destruct (N.ltb_spec 0 k), (N.leb_spec k N), (N.ltb_spec N (k + 2 * w)), (N.leb_spec k 1);
        solve [left; repeat split; (assumption || lia) | right; intros (X & _ & Y); lia].
    - right. intros (_ & X & _). apply N.mod_divide in X; [contradiction|unfold w; lia]. }
  assert (Nope : ~ kept w N k -> f (numbered k) = None).
  { intros H. apply B. intros j Hj E. apply H. now rewrite (D j E). }
  fold (kept w N k). split.
  - split.
    + intros H. rewrite (A k H). discriminate.
    + intros H. destruct Dec as [Y|Y]; [exact Y|]. elim H. now apply Nope.
  - intros H. destruct Dec as [Y|Y]; [exact (A k Y)|]. elim H. now apply Nope.
Qed.
Print Assumptions C12_exact_files.

(** No other file appears, so at most three files exist however long the run. *)
Theorem C12_at_most_three_files :
  forall cf n,
  del cf = DelOld -> writer cf = true -> 0 < writer_step cf ->
  exists l, (List.length l <= 3)%nat /\
  forall nm, exec fs_empty (session_ops cf 0 n) nm <> None -> In nm l.
Proof.
  intros cf n Hd Hw Hs. pose (w := writer_step cf). pose (M := N.of_nat n).
  pose (q := M / w).
  exists [numbered (q * w); numbered ((q - 1) * w); numbered 1]. split; [cbn; lia|].
  intros nm H.
  destruct (in_dec string_dec nm [numbered (q * w); numbered ((q - 1) * w); numbered 1]) as [|No]; [assumption|].
  elim H. apply (proj2 (retained cf Hd Hw Hs n nm)).
  intros k (Hr & [z Hz] & Hk) ->. apply No. fold M in Hr, Hk. fold w in Hz, Hk.
  assert (Hq : q * w <= M < q * w + w).
  { apply div_bounds. clear -Hs. unfold w. lia. }
  assert (W : 0 < w) by exact Hs. clearbody q w M.
  destruct Hk as [Hk|Hk].
  - assert (z = q \/ z = q - 1) as [->| ->] by nia.
    + left. now rewrite Hz.
    + right. left. now rewrite Hz.
  - right. right. left. f_equal. lia.
Qed.
Print Assumptions C12_at_most_three_files.

Example C12_ex :
  let cf := CkptCfg DelOld true 1 (fun _ => 1%nat) in
  let f := exec fs_empty (session_ops cf 0 6) in
  holds f (numbered 6) 6 /\ holds f (numbered 5) 5 /\ holds f (numbered 1) 1 /\
  f (numbered 4) = None /\ f (numbered 2) = None.
Proof. repeat split; reflexivity. Qed.

(** ** C13 *)

(** Any number of restarts gives the same events (steps and outputs, in order)
    as the uninterrupted run. *)
Theorem C13_restarts_equal_direct_run :
  forall cf cs Nt, increasing 0 cs Nt ->
  interrupted cf cs Nt = run_events cf false 0 Nt.
Proof. exact interrupted_direct. Qed.
Print Assumptions C13_restarts_equal_direct_run.

(** And that is: steps 1..Nt once each in order, the initial output exactly once
    and then an output after each step divisible by the interval. *)
Theorem C13_direct_run :
  forall cf Nt, writer cf = true ->
  steps_of (run_events cf false 0 Nt) = map N.of_nat (seq 1 (N.to_nat Nt)) /\
  outs_of (run_events cf false 0 Nt) =
    0 :: filter (fun k => k mod writer_step cf =? 0) (map N.of_nat (seq 1 (N.to_nat Nt))).
Proof.
  intros cf Nt Hw. unfold run_events. cbn [N.eqb]. rewrite Hw.
  unfold steps_of, outs_of. rewrite !flat_map_app.
  fold (steps_of (loop_events cf 0 Nt)). fold (outs_of (loop_events cf 0 Nt)).
  rewrite steps_of_loop, outs_of_loop, steps_after_seq, N.sub_0_r by assumption.
  split; [|cbn [flat_map outno app]; f_equal; f_equal]; cbn [flat_map stepno app];
    apply map_ext; reflexivity.
Qed.
Print Assumptions C13_direct_run.

(** A restart request with step number 0 is a fresh start. *)
Theorem C13_restart_at_zero_is_fresh :
  forall cf Nt, run_events cf true 0 Nt = run_events cf false 0 Nt.
Proof. reflexivity. Qed.
Print Assumptions C13_restart_at_zero_is_fresh.

(** In the single-file mode the step number is not checked against the file: a
    restart with any step number reads the same file. *)
Theorem C13_single_file_step_checked_refuted :
  exists f r istep, holds f (restart_reads DelSingle istep) r /\ istep <> r.
Proof.
  exists (fun _ => Some (Content 4 true)), 4, 9. split; [reflexivity|discriminate].
Qed.
Print Assumptions C13_single_file_step_checked_refuted.

Example C13_ex :
  let cf := CkptCfg DelOld true 2 (fun _ => 1%nat) in
  increasing 0 [2; 4; 4] 5 /\
  interrupted cf [2; 4; 4] 5 =
  [Out 0; Step 1; Step 2; Out 2; Step 3; Step 4; Out 4; Step 5].
Proof. split; [cbn; lia|reflexivity]. Qed.
