(** * Set-up helpers: shapes, phases, default file name

    Transcription of MDLIB/Setup.c 34-39 (ValidatePhase), 45-140 (SetParticles: the
    phase of one marker), 1013-1024 (IsEllipseCoordinates), 1030-1038
    (IsRectangleCoordinates), 1044-1082 (DefaultTextFilename). *)
From Coq Require Import Reals ZArith List Bool Ascii.
Import ListNotations.
Local Open Scope R_scope.

Definition Rltb (a b : R) : bool := if Rlt_dec a b then true else false.
Definition Rleb (a b : R) : bool := if Rle_dec a b then true else false.

(** Setup.c 1013-1024; [c] = coordinates, lengths in metres, angle in degrees. *)
Definition is_ellipse (x z centreX centreZ radiusX radiusZ angle scL : R) : bool :=
  let theta := angle * PI / 180 in
  let rX := (radiusX / 2) / scL in
  let rZ := (radiusZ / 2) / scL in
  let Xn := (x - centreX / scL) * cos theta - (z + centreZ / scL) * sin theta in
  let Zn := (x + centreX / scL) * sin theta + (z - centreZ / scL) * cos theta in
  Rltb ((Xn / rX) ^ 2 + (Zn / rZ) ^ 2 - 1) 0.

(** Setup.c 1030-1038; angle in radians. *)
Definition is_rectangle (x z centreX centreZ sizeX sizeZ angle scL : R) : bool :=
  let wX := x * cos angle - z * sin angle in
  let wZ := x * sin angle + z * cos angle in
  Rleb (centreX / scL - (sizeX / 2) / scL) wX && Rleb wX (centreX / scL + (sizeX / 2) / scL) &&
  Rleb (centreZ / scL - (sizeZ / 2) / scL) wZ && Rleb wZ (centreZ / scL + (sizeZ / 2) / scL).

(** ** Phases *)
(** What happens to one marker. mdoodz.h, struct mat_prop: 20 entries per property. *)
Inductive marker_result := Stopped (* exit(144) *) | OutOfBounds (index : Z) | Accepted (phase : Z).
Definition table_size : Z := 20.
(** 34-39 *)
Definition phase_stops (phase nb_phases : Z) : bool := (nb_phases <? phase)%Z.
(** 52-139: the density is looked up (92) before the phase is checked (139), unless
    the set-up has a density callback. Other users of the phase in between are the
    callbacks. *)
Definition set_marker_phase (nb_phases phase : Z) (density_callback : bool) : marker_result :=
  if negb density_callback && negb ((0 <=? phase)%Z && (phase <? table_size)%Z) then OutOfBounds phase else
  if phase_stops phase nb_phases then Stopped else Accepted phase.

(** ** File name *)
(** 1050-1060: scan from the end; [start], [fin] as in the code, [acc] = counted
    characters, most recent first = in file order. *)
Definition slash (c : ascii) : bool := Ascii.eqb c "\" || Ascii.eqb c "/".
Fixpoint scan (rev_name : list ascii) (start fin : bool) (acc : list ascii) : list ascii :=
  match rev_name with
  | [] => acc
  | c :: r =>
      let fin := fin || slash c in
      let acc := if start && negb fin then c :: acc else acc in
      scan r (start || Ascii.eqb c ".") fin acc
  end.
Definition stem (name : list ascii) : list ascii := scan (rev name) false false [].

(** 1062-1081: [buffer] = calloc(n); strcat looks for the terminator and writes
    ".txt" and a terminator there. A position at or after the size of the buffer is
    outside the allocation. *)
Inductive access := Read (i : nat) | Write (i : nat).
Definition zero : ascii := "000".
(** positions of the buffer read by strcat while it looks for the terminator in
    [content], which continues beyond the end with unknown bytes [beyond_] *)
Fixpoint strlen_from (i : nat) (content : list ascii) : nat :=
  match content with [] => i | c :: r => if Ascii.eqb c zero then i else strlen_from (S i) r end.
Definition suffix : list ascii := ["."; "t"; "x"; "t"; zero]%char.
Definition default_filename (name beyond_ : list ascii) : nat * list access * list ascii :=
  let base := stem name in
  let n := length base in
  let e := strlen_from 0 (base ++ beyond_) in
  (n,                                                          (* bytes allocated *)
   map (fun i => Write (n - 1 - i)) (seq 0 n) ++                (* 1068-1077 *)
   map Read (seq 0 (e + 1)) ++ map (fun i => Write (e + i)) (seq 0 5),   (* 1079 *)
   firstn e (base ++ beyond_) ++ suffix).
