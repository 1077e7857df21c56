(** Property theorems C01-C05: parameter-file readers. *)
From Coq Require Import List Arith ZArith Ascii String Bool Lia DecimalString DecimalZ.
From Verif Require Import ParamModel ParamProofs MatProofs CharProofs.
Import ListNotations.

Definition txt (s : string) : list byte := list_ascii_of_string s.

Ltac no_in := let H := fresh in
  intros H; vm_compute in H; repeat (destruct H as [H|H]; [discriminate H|]); exact H.
Ltac plain_t := repeat split; [no_in | no_in | vm_compute; lia].
(* all elements of a concrete list *)
Ltac each t := repeat (apply Forall_cons; [t|]); apply Forall_nil.
(* a space at column 2..11, or a bare newline *)
Ltac wide_t := first
  [ exists 2; split; [lia|reflexivity] | exists 3; split; [lia|reflexivity]
  | exists 4; split; [lia|reflexivity] | exists 5; split; [lia|reflexivity]
  | exists 6; split; [lia|reflexivity] | exists 9; split; [lia|reflexivity]
  | exists 11; split; [lia|reflexivity] ].
Ltac spaced_t := first [ right; vm_compute; lia | left; wide_t ].

(** *** C01 *)
Theorem C01_integer_lookup : forall name m lines tail r p default,
  good_name name -> well_formed m lines tail -> lookup name lines r ->
  ReadInt2 (mkfile (text_of lines tail) p) name default =
  (Val (match r with Some t => atoi t | None => default end),
   mkfile (text_of lines tail) 0).
Proof. exact ReadInt2_spec. Qed.
Print Assumptions C01_integer_lookup.

Theorem C01_real_lookup : forall V (atof : list byte -> V) name m lines tail r p default,
  good_name name -> well_formed m lines tail -> lookup name lines r ->
  ReadDou2 atof (mkfile (text_of lines tail) p) name default =
  (Val (match r with Some t => atof t | None => default end),
   mkfile (text_of lines tail) 0).
Proof. exact ReadDou2_spec. Qed.
Print Assumptions C01_real_lookup.

(** The text of a number, as printed by the standard library, is read back: any
    spaces before it, anything that does not go on with a digit after it. *)
Lemma digits_acc d rest p : (forall c t, rest = c :: t -> digit c = None) ->
  digits (Zpos p) (list_ascii_of_string (NilEmpty.string_of_uint d) ++ rest) = Zpos (Pos.of_uint_acc d p).
Proof.
  intro H. revert p. induction d; intro p; cbn [NilEmpty.string_of_uint list_ascii_of_string app].
  1: { destruct rest as [|c t]; [reflexivity|]. cbn [digits app]. rewrite (H c t eq_refl). reflexivity. }
  all: cbn [digits Pos.of_uint_acc];
    match goal with |- context [digit ?c] => let v := eval vm_compute in (digit c) in change (digit c) with v end;
    rewrite <- IHd; f_equal; lia.
Qed.
Lemma digits_uint d rest : (forall c t, rest = c :: t -> digit c = None) ->
  digits 0 (list_ascii_of_string (NilEmpty.string_of_uint d) ++ rest) = Z.of_uint d.
Proof.
  intro H. unfold Z.of_uint. induction d; cbn [NilEmpty.string_of_uint list_ascii_of_string app].
  1: { destruct rest as [|c t]; [reflexivity|]. cbn [digits app]. rewrite (H c t eq_refl). reflexivity. }
  all: cbn [digits Pos.of_uint];
    match goal with |- context [digit ?c] => let v := eval vm_compute in (digit c) in change (digit c) with v end;
    try exact IHd; change (10 * 0 + ?z)%Z with z; apply digits_acc, H.
Qed.

Theorem C01_integer_value : forall n (z : Z) rest,
  (forall c t, rest = c :: t -> digit c = None) ->
  atoi (repeat " "%char n ++ txt (NilZero.string_of_int (Z.to_int z)) ++ rest) = z.
Proof.
  intros n z rest H.
  assert (S : forall l, (forall c t, l = c :: t -> isspace c = false) -> skip_space (repeat " "%char n ++ l) = l).
  { intros l Hl. induction n as [|n IH]; [|exact IH]. cbn. destruct l as [|c t]; [reflexivity|].
    cbn. rewrite (Hl c t eq_refl). reflexivity. }
  assert (NZ : forall d, d <> Decimal.Nil -> NilZero.string_of_uint d = NilEmpty.string_of_uint d) by (intros []; [contradiction|reflexivity..]).
  assert (U : forall u, u <> Decimal.Nil -> forall c t, txt (NilEmpty.string_of_uint u) ++ rest = c :: t -> isspace c = false /\ c <> "-"%char /\ c <> "+"%char).
  { intros u Hu c t E. destruct u; [contradiction|..]; cbn in E; injection E as <- _; repeat split; try reflexivity; discriminate. }
  assert (V : forall u, u <> Decimal.Nil -> atoi (repeat " "%char n ++ txt (NilEmpty.string_of_uint u) ++ rest) = Z.of_uint u).
  { intros u Hu. unfold atoi. rewrite S by (intros c t E; apply (U u Hu c t E)).
    pose proof (digits_uint u rest H) as G. unfold txt.
    destruct u; [contradiction|..]; exact G. }
  pose proof (of_to z) as OT. unfold Z.of_int in OT. destruct (Z.to_int z) as [u|u] eqn:E.
  - assert (Hu : u <> Decimal.Nil).
    { destruct z as [|q|q]; cbn in E; [injection E as <-; discriminate| |discriminate].
      injection E as <-. intro Q. apply (DecimalPos.Unsigned.to_uint_nonnil q Q). }
    cbn [NilZero.string_of_int]. rewrite NZ by exact Hu. rewrite V by exact Hu. exact OT.
  - assert (Hu : u <> Decimal.Nil).
    { destruct z as [|q|q]; cbn in E; try discriminate.
      injection E as <-. intro Q. apply (DecimalPos.Unsigned.to_uint_nonnil q Q). }
    cbn [NilZero.string_of_int]. unfold txt. cbn [list_ascii_of_string app]. unfold atoi.
    rewrite S by (intros c t Q; injection Q as <- _; reflexivity).
    rewrite NZ by exact Hu. rewrite digits_uint by exact H. exact OT.
Qed.
Print Assumptions C01_integer_value.
Example C01_integer_value_ex : txt (NilZero.string_of_int (Z.to_int (-120)%Z)) = txt "-120" /\
  atoi (txt "  -120 / steps") = (-120)%Z.
Proof. split; reflexivity. Qed.

(* the specification defines exactly one value as soon as every line carrying
   the name contains '=' *)
Theorem C01_lookup_total : forall name ls,
  (forall l, In l ls -> has_key name l -> In EQS l) -> exists r, lookup name ls r.
Proof. exact lookup_total. Qed.
Print Assumptions C01_lookup_total.

Theorem C01_lookup_deterministic : forall name ls r1 r2,
  lookup name ls r1 -> lookup name ls r2 -> r1 = r2.
Proof. exact lookup_det. Qed.
Print Assumptions C01_lookup_deterministic.

Definition ex_lines : list line :=
  [txt "/**** RESTART ****/"; []; txt "istep = 00020"; txt "writer_step = 10";
   []; txt "writer  = -1  / comment = 7"; txt "writer = 3"].

Lemma ex_well_formed : well_formed 2 ex_lines (txt "Nx = 51").
Proof.
  split; [|split; [|split]].
  - each plain_t.
  - each spaced_t.
  - split; [no_in|vm_compute; lia].
  - exists 5; split; [lia|reflexivity].
Qed.

Lemma ex_good : good_name (txt "writer").
Proof. repeat split; no_in. Qed.

Ltac no_key := let q := fresh in let E := fresh in
  intros [q E]; vm_compute in E; discriminate E.

Example C01_ex_hit :
  fst (ReadInt2 (mkfile (text_of ex_lines (txt "Nx = 51")) 5) (txt "writer") 0) = Val (-1)%Z.
Proof.
  rewrite (C01_integer_lookup _ 2 _ _ (Some (txt " -1  / comment = 7" ++ [NL])) _ _
             ex_good ex_well_formed).
  - reflexivity.
  - unfold ex_lines. do 5 (apply lk_skip; [no_key|]).
    apply lk_hit with (pre := txt "writer  ");
      [exists (txt " = -1  / comment = 7"); reflexivity | reflexivity | no_in].
Qed.

(* the unterminated last line "Nx = 51" is not consulted: default returned *)
Theorem C01_last_line_refuted : exists lines tail name v,
  good_name name /\ well_formed 2 lines tail /\
  lookup name (lines ++ [tail]) (Some v) /\
  atoi v = 51%Z /\
  fst (ReadInt2 (mkfile (text_of lines tail) 0) name 10) = Val 10%Z.
Proof.
  exists ex_lines, (txt "Nx = 51"), (txt "Nx"), (txt " 51" ++ [NL]).
  split; [repeat split; no_in|]. split; [exact ex_well_formed|].
  split; [|split; [reflexivity|vm_compute; reflexivity]].
  unfold ex_lines. cbn [app]. do 7 (apply lk_skip; [no_key|]).
  apply lk_hit with (pre := txt "Nx "); [exists (txt "= 51"); reflexivity | reflexivity | no_in].
Qed.
Print Assumptions C01_last_line_refuted.

(** *** C02 *)
Theorem C02_other_lines_irrelevant :
  forall V (atof : list byte -> V) name m1 m2 la lb ta tb p q d,
  good_name name -> well_formed m1 la ta -> well_formed m2 lb tb ->
  (forall l, In l la -> has_key name l -> In EQS l) ->
  same_for name la lb ->
  fst (ReadDou2 atof (mkfile (text_of la ta) p) name d) =
  fst (ReadDou2 atof (mkfile (text_of lb tb) q) name d).
Proof. exact lookup_frame. Qed.
Print Assumptions C02_other_lines_irrelevant.

Theorem C02_real_lookup_after_any_calls : forall V (atof : list byte -> V) cs f name d,
  ReadDou2 atof (fold_left do_call cs f) name d = ReadDou2 atof f name d.
Proof. exact lookup_after_calls. Qed.
Print Assumptions C02_real_lookup_after_any_calls.

Theorem C02_integer_lookup_after_any_calls : forall cs f name d,
  ReadInt2 (fold_left do_call cs f) name d = ReadInt2 f name d.
Proof. exact int_lookup_after_calls. Qed.
Print Assumptions C02_integer_lookup_after_any_calls.

Theorem C02_material_lookup_after_any_calls : forall V (atof : list byte -> V) cs f name p d,
  ReadMatProps atof (fold_left do_call cs f) name p d = ReadMatProps atof f name p d.
Proof. exact mat_after_calls. Qed.
Print Assumptions C02_material_lookup_after_any_calls.

Theorem C02_swap_lines : forall name l1 l2 a,
  ~ has_key name l1 -> same_for name (l1 :: l2 :: a) (l2 :: l1 :: a).
Proof. exact same_for_swap. Qed.
Print Assumptions C02_swap_lines.

Example C02_ex : same_for (txt "writer")
  [txt "a = 1"; txt "writer = 2"; txt "b = 1"] [txt "writer = 2"; txt "c = 4"].
Proof.
  apply sf_left; [no_key|]. apply sf_both. apply sf_left; [no_key|].
  apply sf_right; [no_key|]. apply sf_nil.
Qed.

(** *** C03 *)
Theorem C03_no_UB_on_spaced_files : forall name m lines tail p,
  good_name name -> well_formed m lines tail ->
  (forall l, In l lines -> has_key name l -> In EQS l) ->
  exists r, fst (read_param name (mkfile (text_of lines tail) p)) = Val r.
Proof.
  exact (fun name m lines tail p Hn Hw He =>
    match lookup_total name lines He with
    | ex_intro _ r Hr => ex_intro _ r
        (f_equal fst (read_param_spec name m lines tail r p Hn Hw Hr))
    end).
Qed.
Print Assumptions C03_no_UB_on_spaced_files.

Theorem C03_first_line_without_space_is_UB : forall name l r p,
  ~ In SP l -> ~ In NL l -> List.length l <= 998 ->
  fst (read_param name (mkfile (l ++ NL :: r) p)) = UB.
Proof. exact first_line_no_space_UB. Qed.
Print Assumptions C03_first_line_without_space_is_UB.

(* so a leading blank line makes every lookup undefined *)
Theorem C03_leading_blank_line_refuted : exists f, forall name, fst (read_param name f) = UB.
Proof.
  exists (mkfile (NL :: txt "Nx = 51" ++ [NL]) 0). intros name.
  apply (first_line_no_space_UB name [] (txt "Nx = 51" ++ [NL]) 0);
    [intros [] | intros [] | cbn; lia].
Qed.
Print Assumptions C03_leading_blank_line_refuted.

(** *** C04 *)
Theorem C04_material_lookup : forall V (atof : list byte -> V) name m p lines tail r d q,
  good_name name -> name <> ID_NAME -> mat_file m lines tail ->
  phase_value name p lines tail r ->
  fst (ReadMatProps atof (mkfile (text_of lines tail) q) name p d) =
  Val (match r with Some t => atof t | None => d end).
Proof. exact ReadMatProps_spec. Qed.
Print Assumptions C04_material_lookup.

Theorem C04_missing_phase_stops : forall V (atof : list byte -> V) name m p lines tail d q,
  well_formed m lines tail -> no_phase p lines ->
  fst (ReadMatProps atof (mkfile (text_of lines tail) q) name p d) = Stop.
Proof. exact ReadMatProps_missing. Qed.
Print Assumptions C04_missing_phase_stops.

(* lines after the next header, whatever they are, do not affect the block value *)
Theorem C04_other_blocks_irrelevant : forall name lines t r,
  block_value name lines t r ->
  forall own nxt others, lines = own ++ nxt :: others ->
  (forall l, In l own -> ~ has_key ID_NAME l) -> has_key ID_NAME nxt ->
  name <> ID_NAME -> ~ In SP name ->
  forall others' t', block_value name (own ++ nxt :: others') t' r.
Proof. exact block_value_own. Qed.
Print Assumptions C04_other_blocks_irrelevant.

Theorem C04_empty_last_block_refuted : forall V (atof : list byte -> V) name m p lines d q,
  well_formed m lines [] -> last_header p lines ->
  fst (ReadMatProps atof (mkfile (text_of lines []) q) name p d) = UB.
Proof. exact ReadMatProps_last_header. Qed.
Print Assumptions C04_empty_last_block_refuted.

Definition ex_mat : list line :=
  [txt "Nb_phases = 2"; txt "ID   = 0"; txt "rho  = 2700"; []; txt "ID   = 1"; txt "G    = 1e10"].

Lemma ex_mat_file : mat_file 2 ex_mat (txt "rho  = 3300").
Proof.
  split; [|split].
  - split; [|split; [|split]].
    + each plain_t.
    + each spaced_t.
    + split; [no_in|vm_compute; lia].
    + exists 9; split; [lia|reflexivity].
  - cbn [first_after_id ex_mat].
    repeat (split; [first [ intros _; wide_t | intros _; discriminate
                          | intros [q E]; vm_compute in E; discriminate E ]|]).
    exact I.
  - right. split; [repeat split; [no_in|no_in|vm_compute; lia]|exists 3; split; [lia|reflexivity]].
Qed.

(* phase 1's value is the one on the unterminated last line, not phase 0's *)
Example C04_ex :
  fst (ReadMatProps atoi (mkfile (text_of ex_mat (txt "rho  = 3300")) 0) (txt "rho") 1 (-5)%Z)
  = Val 3300%Z.
Proof.
  rewrite (C04_material_lookup Z atoi (txt "rho") 2 1%Z ex_mat (txt "rho  = 3300")
             (Some (txt " 3300")) (-5)%Z 0).
  - reflexivity.
  - repeat split; no_in.
  - discriminate.
  - exact ex_mat_file.
  - unfold ex_mat. apply pv_skip; [no_key|].
    apply pv_other with (z := 0%Z);
      [ apply id_intro with (pre := txt "ID   ") (post := txt " 0");
        [exists (txt "  = 0"); reflexivity|reflexivity|no_in|reflexivity] | discriminate |].
    apply pv_skip; [no_key|]. apply pv_skip; [no_key|].
    apply pv_block;
      [ apply id_intro with (pre := txt "ID   ") (post := txt " 1");
        [exists (txt "  = 1"); reflexivity|reflexivity|no_in|reflexivity] |].
    apply bv_skip; [no_key|no_key|].
    apply bv_end_hit with (pre := txt "rho  ");
      [exists (txt " = 3300"); reflexivity|reflexivity|no_in].
Qed.

(** *** C05 *)
Theorem C05_string_lookup_hit : forall f name default lines tail v ls,
  good_name name -> List.length name <= 50 ->
  Forall short lines -> ~ In NL tail -> List.length tail <= 48 ->
  rest f = text_of lines tail -> str_lookup name lines (Some (v, ls)) ->
  exists f1, ReadChar f name default = (Val (Heap v), f1) /\
             rest f1 = text_of ls tail /\ content f1 = content f.
Proof. exact ReadChar_hit. Qed.
Print Assumptions C05_string_lookup_hit.

Theorem C05_string_lookup_miss : forall f name default lines tail,
  good_name name -> List.length name <= 50 ->
  Forall short lines -> ~ In NL tail -> List.length tail <= 48 ->
  rest f = text_of lines tail -> str_lookup name lines None ->
  ReadChar f name default = (Val (Heap default), rewind f).
Proof. exact ReadChar_miss. Qed.
Print Assumptions C05_string_lookup_miss.

(* whatever import_file line stands before the import_files_dir line is ignored *)
Theorem C05_import_file_before_dir_ignored : forall a ldir b tail vdir ddir dfile,
  Forall short (a ++ ldir :: b) -> ~ In NL tail -> List.length tail <= 48 ->
  (forall x, In x a -> ~ starts_with IMPORT_FILES_DIR x) ->
  starts_with IMPORT_FILES_DIR ldir -> word_after_eq ldir vdir ->
  (forall x, In x b -> ~ starts_with IMPORT_FILE x) ->
  read_import_names (mkfile (text_of (a ++ ldir :: b) tail) 0) ddir dfile =
  (Val (Heap vdir), Val (Heap dfile)).
Proof. exact import_file_ignored. Qed.
Print Assumptions C05_import_file_before_dir_ignored.

Definition ex_imp : list byte :=
  text_of [txt "import_file = mine.bin"; txt "import_files_dir = ../DATA"; txt "x = 1"] [].

Example C05_ex_order : read_import_names (mkfile ex_imp 0) (txt "../../IMPORT") (txt "blah.bin")
  = (Val (Heap (txt "../DATA")), Val (Heap (txt "blah.bin"))).
Proof.
  apply (C05_import_file_before_dir_ignored [txt "import_file = mine.bin"]
           (txt "import_files_dir = ../DATA") [txt "x = 1"] []).
  - each plain_t.
  - no_in.
  - vm_compute; lia.
  - intros x [<-|[]] [post E]. vm_compute in E. discriminate E.
  - exists (txt " = ../DATA"). reflexivity.
  - exists (txt "import_files_dir "), SP, NL, []. split; [reflexivity|].
    split; [no_in|]. split; [reflexivity|]. split; [repeat constructor|vm_compute; lia].
  - intros x [<-|[]] [post E]. vm_compute in E. discriminate E.
Qed.

(* a line of a longer name is accepted for a shorter one *)
Theorem C05_prefix_collision_refuted : exists l v,
  ~ has_key IMPORT_FILE l /\ v <> txt "blah.bin" /\
  fst (ReadChar (mkfile (text_of [l] []) 0) IMPORT_FILE (txt "blah.bin")) = Val (Heap v).
Proof.
  exists (txt "import_files_dir = ../DATA"), (txt "../DATA").
  split; [no_key|]. split; [discriminate|vm_compute; reflexivity].
Qed.
Print Assumptions C05_prefix_collision_refuted.
