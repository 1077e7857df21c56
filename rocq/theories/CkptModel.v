(** * Checkpoint files on disk and the step loop around them

    Transcription of
    - MDLIB/InputOutput.c 124-139 ([DeletePreviousBreakpoint]),
    - MDLIB/InputOutput.c 666-846 (the file-system side of
      [MakeBreakpointParticles]: file name, [fopen "wb"], [fwrite]s, [fclose]),
    - MDLIB/InputOutput.c 157-158 (file name used by [LoadBreakpointParticles]),
    - MDLIB/InputOutput.c 1029-1031 (override of [irestart]),
    - MDLIB/Main_DOODZ.c 126-128, 400-413, 426, 435, 1204-1216 (which step
      numbers are executed and at which of them files are written).

    Simplifications: step numbers and the output interval are naturals ([N]);
    the bytes of a checkpoint are abstracted to "complete / not complete" and the
    step at which they were written (the bytes themselves are the subject of
    BreakpointModel.v); [fopen] and [fwrite] do not fail; a crash kills the
    process between two file-system operations and loses nothing that was done
    before (no loss of operating-system buffers). *)
From Coq Require Import List NArith String Bool Decimal DecimalString DecimalN.
Import ListNotations.
Open Scope N_scope.

(** ** File names *)

(** [printf("%05d", n)] for [n >= 0]: decimal digits, padded with zeros on the
    left to five characters (used at InputOutput.c 128-129, 158, 668). *)
Fixpoint pad (missing : nat) (d : Decimal.uint) : Decimal.uint :=
  match missing with O => d | S m => Decimal.D0 (pad m d) end.

Definition fmt05 (n : N) : string :=
  let d := N.to_uint n in
  NilEmpty.string_of_uint (pad (5 - Decimal.nb_digits d)%nat d).

(** InputOutput.c 128, 129, 158, 668. *)
Definition numbered (k : N) : string := ("Breakpoint" ++ fmt05 k ++ ".dat")%string.
(** InputOutput.c 157, 667. *)
Definition single : string := "BreakpointXXXXX.dat"%string.

(** Value of the parameter [delete_breakpoints]: [-1] one file that is always
    overwritten, [1] remove old files, anything else keep all files. *)
Inductive del_mode := DelSingle | DelOld | DelKeep.

(** InputOutput.c 157-158 and 667-668: name used for step [k]. *)
Definition ckpt_name (m : del_mode) (k : N) : string :=
  match m with DelSingle => single | _ => numbered k end.

(** ** File system *)

(** What a checkpoint file holds: the step whose state was being written and
    whether everything has been written and the file closed. *)
Record content := Content { of_step : N; complete : bool }.

Definition fs := string -> option content.
Definition fs_empty : fs := fun _ => None.
Definition upd (f : fs) (n : string) (c : option content) : fs :=
  fun m => if String.eqb m n then c else f m.

Inductive op :=
| Mv (src dst : string)            (* [system("mv src dst")], InputOutput.c 130-131 *)
| Open (n : string) (k : N)        (* [fopen(name,"wb")], InputOutput.c 670: truncates *)
| Write (n : string) (k : N)       (* one [fwrite], InputOutput.c 677-845 *)
| Close (n : string) (k : N).      (* [fclose(file)], InputOutput.c 846 *)

(** Effect of one operation. [mv] with a missing source fails and changes
    nothing (its exit status is not inspected, InputOutput.c 131-134); [mv] of a
    file onto itself also changes nothing. *)
Definition exec1 (f : fs) (o : op) : fs :=
  match o with
  | Mv s d => match f s with
              | None => f
              | Some c => if String.eqb s d then f
                          else upd (upd f d (Some c)) s None
              end
  | Open n k => upd f n (Some (Content k false))
  | Write n k => upd f n (Some (Content k false))
  | Close n k => upd f n (Some (Content k true))
  end.

Definition exec (f : fs) (l : list op) : fs := fold_left exec1 l f.

(** ** One output (Main_DOODZ.c 1211-1213) *)

(** Settings; [nwrites k] is the number of [fwrite] calls made at step [k]. *)
Record ckpt_cfg := CkptCfg {
  del : del_mode;
  writer : bool;         (* [writer == 1] *)
  writer_step : N;
  nwrites : N -> nat }.

(** InputOutput.c 124-139: [if ((step - 2*writer_step) > 1) mv ...] *)
Definition delete_previous_ops (w k : N) : list op :=
  if 1 + 2 * w <? k then [Mv (numbered (k - 2 * w)) (numbered k)] else [].

(** InputOutput.c 666-846. *)
Definition make_ops (c : ckpt_cfg) (k : N) : list op :=
  let n := ckpt_name (del c) k in
  Open n k :: repeat (Write n k) (nwrites c k) ++ [Close n k].

(** Main_DOODZ.c 1204-1213. *)
Definition output_ops (c : ckpt_cfg) (k : N) : list op :=
  if writer c && (k mod writer_step c =? 0) then
    (match del c with DelOld => delete_previous_ops (writer_step c) k | _ => [] end)
    ++ make_ops c k
  else [].

(** Step numbers executed by the loop after step [s] when [n] steps remain
    (Main_DOODZ.c 426 [step += 1], 435 [for (; step <= Nt; step++)]). *)
Fixpoint steps_after (s : N) (n : nat) : list N :=
  match n with O => [] | S m => (s + 1) :: steps_after (s + 1) m end.

(** All checkpoint file operations of a session that executes [n] steps after
    step [s] ([s = 0] for a fresh run). *)
Definition session_ops (c : ckpt_cfg) (s : N) (n : nat) : list op :=
  flat_map (output_ops c) (steps_after s n).

(** ** Which steps are executed (C13) *)

Inductive event := Out (k : N) | Step (k : N).

Definition loop_events (c : ckpt_cfg) (s Nt : N) : list event :=
  flat_map (fun k => Step k :: if writer c && (k mod writer_step c =? 0) then [Out k] else [])
           (steps_after s (N.to_nat (Nt - s))).

(** A whole program run with the values of [irestart] and [istep] from the
    input file: InputOutput.c 1029-1031 (override), Main_DOODZ.c 126-128 (step
    0, fresh start), 400-404 (initial output), 411-413 (restart), 426-435. *)
Definition run_events (c : ckpt_cfg) (irestart : bool) (istep Nt : N) : list event :=
  let irestart := if istep =? 0 then false else irestart in
  if irestart then loop_events c istep Nt
  else (if writer c then [Out 0] else []) ++ loop_events c 0 Nt.

(** The checkpoint a restart reads (Main_DOODZ.c 411-413, InputOutput.c 157-158). *)
Definition restart_reads (m : del_mode) (istep : N) : string := ckpt_name m istep.
