(** Model of the parameter-file readers of MDLIB/InputOutput.c.

    Files are byte lists, a [FILE*] is (content, position).  Line buffers are
    lists of cells, [None] being a byte that was never written
    (automatic storage, indeterminate).  Reading such a byte, or a byte outside
    the array, is the outcome [UB]. *)
From Coq Require Import List Arith ZArith Ascii Bool.
Import ListNotations.

Definition byte := ascii.
Definition NL  : byte := "010"%char.
Definition NUL : byte := "000"%char.
Definition SP  : byte := " "%char.
Definition EQS : byte := "="%char.

Inductive outcome (A : Type) : Type :=
| Val  : A -> outcome A      (* normal return *)
| UB   : outcome A           (* undefined behaviour *)
| Stop : outcome A           (* exit() *)
| Fuel : outcome A.          (* model artefact; excluded by the theorems *)
Arguments Val {A} _.  Arguments UB {A}.  Arguments Stop {A}.  Arguments Fuel {A}.

(** ** C stdio *)

Record file := mkfile { content : list byte; pos : nat }.

(* C library: rewind(fin) *)
Definition rewind (f : file) : file := mkfile (content f) 0.

(* bytes still to be read *)
Definition rest (f : file) : list byte := skipn (pos f) (content f).

(* C library: fgets(line, n+1, fin): up to [n] bytes, stops after a newline.
   The boolean is the end-of-file indicator: it is set exactly when a read
   was attempted at end of file. *)
Fixpoint getline (n : nat) (s : list byte) : list byte * bool :=
  match n, s with
  | O, _ => ([], false)
  | S _, [] => ([], true)
  | S n', c :: s' =>
      if Ascii.eqb c NL then ([c], false)
      else let '(l, e) := getline n' s' in (c :: l, e)
  end.

Definition cell := option byte.

(* fgets leaves the buffer untouched when no byte was read; otherwise it writes
   the bytes and a terminating NUL and leaves the remaining cells as they were *)
Definition overlay (chunk : list byte) (buf : list cell) : list cell :=
  match chunk with
  | [] => buf
  | _ => map Some chunk ++ Some NUL :: skipn (S (length chunk)) buf
  end.

Definition fgets (n : nat) (f : file) (buf : list cell)
  : list cell * bool * file :=
  let '(chunk, eof) := getline n (rest f) in
  (overlay chunk buf, eof, mkfile (content f) (pos f + length chunk)).

(* automatic array "char line[bufmax]" without initialiser *)
Definition uninit (n : nat) : list cell := repeat None n.

(* while (line[i] != c) i++ : [None] when an indeterminate or out-of-range byte
   is inspected *)
Fixpoint scan_for (c : byte) (buf : list cell) : option nat :=
  match buf with
  | [] => None
  | None :: _ => None
  | Some a :: t => if Ascii.eqb a c then Some 0 else option_map S (scan_for c t)
  end.

(* for (h=0; h<bufmax; h++) if (line[h]==c) ... : bounded search *)
Inductive search_res := Found (h : nat) | NotFound | BadRead.
Fixpoint search_for (c : byte) (buf : list cell) : search_res :=
  match buf with
  | [] => NotFound
  | None :: _ => BadRead
  | Some a :: t =>
      if Ascii.eqb a c then Found 0
      else match search_for c t with
           | Found h => Found (S h) | NotFound => NotFound | BadRead => BadRead
           end
  end.

(* the C string starting at the first cell: bytes up to the first NUL *)
Fixpoint cstring (buf : list cell) : option (list byte) :=
  match buf with
  | [] => None
  | None :: _ => None
  | Some a :: t =>
      if Ascii.eqb a NUL then Some []
      else option_map (cons a) (cstring t)
  end.

Definition bytes_eqb (a b : list byte) : bool :=
  if list_eq_dec ascii_dec a b then true else false.

(* bytes of a C string: cut at first NUL *)
Fixpoint cutnul (l : list byte) : list byte :=
  match l with
  | [] => []
  | a :: t => if Ascii.eqb a NUL then [] else a :: cutnul t
  end.

(* first k cells as bytes; [None] if one of them is indeterminate *)
Fixpoint take_bytes (k : nat) (buf : list cell) : option (list byte) :=
  match k, buf with
  | O, _ => Some []
  | S k', Some a :: t => option_map (cons a) (take_bytes k' t)
  | S _, _ => None
  end.

(* param2 of ReadInt2/ReadDou2/ReadMatProps: InputOutput.c 1926-1943, 1999-2015,
   2072-2089, 2112-2128.  The bytes before the first space, as a C string. *)
Definition line_key (buf : list cell) : option (list byte) :=
  match scan_for SP buf with
  | None => None
  | Some k => option_map cutnul (take_bytes k buf)
  end.

(* "for (h...) if (strlen(line)>0 && line[h]=='=') value = ato?(&line[h+1])":
   InputOutput.c 1949-1959, 2021-2031, 2145-2156.
   Returns the text handed to atoi/atof. strlen(line)>0 is false only if the
   first byte is NUL. *)
Inductive value_res := Text (t : list byte) | NoEq | ValUB.
Definition value_text (buf : list cell) : value_res :=
  match cstring buf with
  | None => ValUB
  | Some [] => NoEq
  | Some _ =>
      match search_for EQS buf with
      | BadRead => ValUB
      | NotFound => NoEq
      | Found h => match cstring (skipn (S h) buf) with
                   | Some t => Text t
                   | None => ValUB
                   end
      end
  end.

(* int bufmax=1000: fgets reads at most 999 bytes.  Kept as a parameter of the
   model so that terms stay small; instantiated with 1000 below. *)
Definition BUFMAX : nat := 1000.

(** ** ReadInt2 / ReadDou2 (InputOutput.c 1899-1966, 1972-2038)

    The two functions are the same up to the conversion applied to the text, so
    the common part returns [Val (Some text)] or [Val None] (default).
    "while (value == 0)": value stays 0 until the function returns. *)
Fixpoint read_loop (fuel : nat) (name : list byte) (f : file) (buf : list cell)
  : outcome (option (list byte)) * file :=
  match fuel with
  | O => (Fuel, f)
  | S fuel' =>
      let '(buf1, eof, f1) := fgets (BUFMAX - 1) f buf in
      if eof then (Val None, rewind f1)                       (* 1919-1924 *)
      else match line_key buf1 with
           | None => (UB, f1)                                  (* 1929 *)
           | Some k =>
               if bytes_eqb name k then                        (* 1946 *)
                 match value_text buf1 with
                 | ValUB => (UB, f1)
                 | Text t => (Val (Some t), rewind f1)         (* 1953-1957 *)
                 | NoEq => read_loop fuel' name f1 buf1
                 end
               else read_loop fuel' name f1 buf1
           end
  end.

Definition read_param (name : list byte) (f : file) :=
  read_loop (S (length (content f))) name (rewind f) (uninit BUFMAX).

(** C library atoi, without overflow: optional white space, optional sign,
    decimal digits. *)
Definition isspace (c : byte) : bool :=
  let n := nat_of_ascii c in
  (n =? 32)%nat || ((9 <=? n)%nat && (n <=? 13)%nat).
Definition digit (c : byte) : option Z :=
  let n := nat_of_ascii c in
  if ((48 <=? n)%nat && (n <=? 57)%nat)%bool then Some (Z.of_nat (n - 48)) else None.
Fixpoint skip_space (l : list byte) : list byte :=
  match l with
  | c :: t => if isspace c then skip_space t else l
  | [] => []
  end.
Fixpoint digits (acc : Z) (l : list byte) : Z :=
  match l with
  | c :: t => match digit c with
              | Some d => digits (10 * acc + d)%Z t
              | None => acc
              end
  | [] => acc
  end.
Definition atoi (l : list byte) : Z :=
  match skip_space l with
  | "-"%char :: t => (- digits 0 t)%Z
  | "+"%char :: t => digits 0 t
  | t => digits 0 t
  end.

Definition omap {A B} (g : A -> B) (o : outcome A) : outcome B :=
  match o with Val a => Val (g a) | UB => UB | Stop => Stop | Fuel => Fuel end.

(* InputOutput.c 1899-1966 *)
Definition ReadInt2 (f : file) (name : list byte) (default : Z) : outcome Z * file :=
  let '(o, f') := read_param name f in
  (omap (fun r => match r with Some t => atoi t | None => default end) o, f').

(* InputOutput.c 1972-2038; atof is an arbitrary function of the text *)
Definition ReadDou2 {V} (atof : list byte -> V) (f : file) (name : list byte)
  (default : V) : outcome V * file :=
  let '(o, f') := read_param name f in
  (omap (fun r => match r with Some t => atof t | None => default end) o, f').

(** ** ReadMatProps (InputOutput.c 2044-2181) *)

Definition ID_NAME : list byte := ["I"%char; "D"%char].

(* inner loop over the lines of the block, 2108-2173.  A matching line without
   '=' sets subfind=1 and leads to a second free(param1) on every continuation
   (2068, 2174 or 2179): UB. *)
Fixpoint mat_block (fuel : nat) (name : list byte) (f : file) (buf : list cell)
  : outcome (option (list byte)) * file :=
  match fuel with
  | O => (Fuel, f)
  | S fuel' =>
      let '(buf1, eof, f1) := fgets (BUFMAX - 1) f buf in
      match line_key buf1 with
      | None => (UB, f1)                                       (* 2114 *)
      | Some k =>
          if bytes_eqb k ID_NAME then (Val None, rewind f1)    (* 2131-2139 *)
          else if bytes_eqb name k then                        (* 2142 *)
            match value_text buf1 with
            | Text t => (Val (Some t), f1)                     (* 2150-2154 *)
            | _ => (UB, f1)
            end
          else if eof then (Val None, rewind f1)               (* 2161-2170 *)
          else mat_block fuel' name f1 buf1
      end
  end.

(* outer loop, 2060-2178; [idv] is ID_value, [None] while indeterminate.
   "strlen(line)>0" at 2148 tests the ID line, which is not empty here. *)
Fixpoint mat_find (fuel : nat) (name : list byte) (phase : Z) (idv : option Z)
  (f : file) (buf : list cell) : outcome (option (list byte)) * file :=
  match fuel with
  | O => (Fuel, f)
  | S fuel' =>
      let '(buf1, eof, f1) := fgets (BUFMAX - 1) f buf in
      if eof then (Stop, rewind f1)                            (* 2064-2070 *)
      else match line_key buf1 with
           | None => (UB, f1)
           | Some k =>
               if bytes_eqb ID_NAME k then                     (* 2092 *)
                 match value_text buf1 with
                 | ValUB => (UB, f1)
                 | v =>
                     let idv1 := match v with Text t => Some (atoi t) | _ => idv end in
                     match idv1 with
                     | None => (UB, f1)                        (* 2105 *)
                     | Some z =>
                         if (z =? phase)%Z
                         then mat_block (S (length (content f1))) name f1 (uninit BUFMAX)
                         else mat_find fuel' name phase idv1 f1 buf1
                     end
                 end
               else mat_find fuel' name phase idv f1 buf1
           end
  end.

Definition ReadMatProps {V} (atof : list byte -> V) (f : file) (name : list byte)
  (phase : Z) (default : V) : outcome V * file :=
  let '(o, f') := mat_find (S (length (content f))) name phase None
                           (rewind f) (uninit BUFMAX) in
  (omap (fun r => match r with Some t => atof t | None => default end) o, f').

(** ** ReadChar (InputOutput.c 1719-1808) *)

Definition BUFCHAR : nat := 50.

(* value copy, 1780-1795: up to 30 bytes starting two bytes after '='; stops at
   white space, where a NUL is written.  The boolean tells whether that happened;
   otherwise string1[30] is indeterminate and the copy is a C string only if a
   NUL byte was among the 30 copied. [None]: read outside line[]. *)
Fixpoint copy_value (n : nat) (buf : list cell) : option (list byte * bool) :=
  match n, buf with
  | O, _ => Some ([], false)
  | S _, [] => None
  | S _, None :: _ => None
  | S n', Some a :: t =>
      if isspace a then Some ([], true)
      else option_map (fun '(s, b) => (a :: s, b)) (copy_value n' t)
  end.

Inductive str_result :=
| Heap (s : list byte)     (* freshly allocated string *)
| Literal.                 (* the Default argument itself, 1807 *)

Fixpoint char_loop (fuel : nat) (name : list byte) (default : list byte)
  (f : file) (buf : list cell) : outcome str_result * file :=
  match fuel with
  | O => (Fuel, f)
  | S fuel' =>
      let '(buf1, eof, f1) := fgets (BUFCHAR - 1) f buf in
      if eof then (Val (Heap default), rewind f1)              (* 1745-1763 *)
      else match take_bytes (length name) buf1 with            (* 1766-1769 *)
           | None => (UB, f1)
           | Some p2 =>
               if bytes_eqb name (cutnul p2) then              (* 1772 *)
                 match cstring buf1 with
                 | None => (UB, f1)
                 | Some [] => (Val Literal, f1)
                 | Some _ =>
                     match search_for EQS buf1 with            (* 1777-1778 *)
                     | BadRead => (UB, f1)
                     | NotFound => (Val Literal, f1)           (* 1807 *)
                     | Found h =>
                         match copy_value 30 (skipn (h + 2) buf1) with
                         | Some (s, term) =>
                             if term || existsb (Ascii.eqb NUL) s
                             then (Val (Heap (cutnul s)), f1)  (* 1792-1800 *)
                             else (UB, f1)
                         | None => (UB, f1)
                         end
                     end
                 end
               else char_loop fuel' name default f1 buf1
           end
  end.

(* no rewind at entry: starts at the current position *)
Definition ReadChar (f : file) (name default : list byte) : outcome str_result * file :=
  char_loop (S (length (content f))) name default f (repeat (Some NUL) BUFCHAR).
