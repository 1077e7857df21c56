(** Specification and lemmas for ReadChar. *)
From Coq Require Import List Arith ZArith Ascii Bool Lia.
From Verif Require Import Base ParamModel ParamProofs.
Import ListNotations.

(** ** Specification *)

(* fits the 50-byte buffer of ReadChar *)
Definition short (l : line) : Prop := ~ In NL l /\ ~ In NUL l /\ length l <= 48.

Definition starts_with (name : list byte) (l : line) : Prop := exists post, l = name ++ post.

(* [v] is the word found one byte after the first '=' of the line *)
Definition word_after_eq (l : line) (v : list byte) : Prop :=
  exists pre c w post,
    l ++ [NL] = pre ++ EQS :: c :: v ++ w :: post /\ ~ In EQS pre /\
    isspace w = true /\ Forall (fun a => isspace a = false) v /\ length v <= 29.

(* result and remaining lines of a lookup that starts before [lines] *)
Inductive str_lookup (name : list byte) : list line -> option (list byte * list line) -> Prop :=
| sl_none : str_lookup name [] None
| sl_hit : forall l ls v, starts_with name l -> word_after_eq l v ->
    str_lookup name (l :: ls) (Some (v, ls))
| sl_skip : forall l ls r, ~ starts_with name l ->
    str_lookup name ls r -> str_lookup name (l :: ls) r.

(** ** Lemmas *)

Lemma BUFCHAR_val : BUFCHAR = 50. Proof. reflexivity. Qed.
#[global] Opaque BUFCHAR.

Definition allinit (buf : list cell) : Prop :=
  length buf = 50 /\ exists bs, buf = map Some bs.

Lemma overlay_allinit : forall l buf, length l <= 48 -> allinit buf ->
  allinit (overlay (l ++ [NL]) buf).
Proof.
  intros l buf Hl (Hb & bs & ->). rewrite overlay_nonempty by (destruct l; discriminate).
  split.
  - rewrite app_length, map_length. cbn [length]. rewrite skipn_length, map_length, app_length.
    rewrite map_length in Hb. cbn [length]. lia.
  - exists ((l ++ [NL]) ++ NUL :: skipn (S (length (l ++ [NL]))) bs).
    rewrite skipn_map_c, (map_app Some (l ++ [NL])). reflexivity.
Qed.

Lemma take_bytes_firstn : forall n bs, n <= length bs ->
  take_bytes n (map Some bs) = Some (firstn n bs).
Proof.
  induction n as [|n IH]; intros bs H; [reflexivity|].
  destruct bs as [|b bs]; cbn in H; [lia|]. cbn. rewrite IH by lia. reflexivity.
Qed.

Lemma prefix_key : forall name l buf,
  good_name name -> length name <= 50 -> short l -> allinit buf ->
  exists k, take_bytes (length name) (overlay (l ++ [NL]) buf) = Some k /\
            (name = cutnul k <-> starts_with name l).
Proof.
  intros name l buf (Hn1 & Hn2 & Hn3) Hlen (HNL & HNUL & Hl) Hb.
  destruct (overlay_allinit l buf Hl Hb) as (H50 & bs & E).
  rewrite E. rewrite E, map_length in H50.
  rewrite take_bytes_firstn by lia.
  eexists. split; [reflexivity|].
  assert (Hbs : exists q, bs = (l ++ [NL]) ++ NUL :: q).
  { rewrite overlay_nonempty in E by (destruct l; discriminate).
    destruct Hb as (_ & b0 & ->). rewrite skipn_map_c in E.
    change (Some NUL :: map Some ?x) with (map Some (NUL :: x)) in E.
    rewrite <- map_app in E.
    exists (skipn (S (length (l ++ [NL]))) b0).
    assert (Einj : forall a b : list byte, map (@Some byte) a = map Some b -> a = b).
    { clear. induction a as [|x a IHa]; intros b H; destruct b as [|y b];
        try discriminate H; [reflexivity|].
      cbn in H. injection H as H1 H2. rewrite H1, (IHa b H2). reflexivity. }
    symmetry. apply Einj. exact E. }
  destruct Hbs as (q & ->).
  split.
  - intros Hk.
    destruct (le_lt_dec (length name) (length l)) as [Hle|Hgt].
    + rewrite <- app_assoc in Hk. rewrite firstn_app in Hk.
      replace (length name - length l) with 0 in Hk by lia.
      change (firstn 0 ?x) with (@nil byte) in Hk. rewrite app_nil_r in Hk.
      rewrite cutnul_id in Hk.
      * exists (skipn (length name) l).
        rewrite Hk at 1. symmetry. apply firstn_skipn.
      * intros Hi. apply HNUL.
        rewrite <- (firstn_skipn (length name) l). apply in_or_app. left. exact Hi.
    + exfalso. apply Hn2. rewrite Hk.
      destruct (Nat.eq_dec (length name) (S (length l))) as [E1|E1].
      * replace (length name) with (length (l ++ [NL]))
          by (rewrite app_length; cbn [length]; lia).
        rewrite firstn_app, firstn_all, Nat.sub_diag.
        change (firstn 0 (NUL :: q)) with (@nil byte). rewrite app_nil_r.
        rewrite cutnul_id.
        -- apply in_or_app; right; left; reflexivity.
        -- intros Hi. apply in_app_or in Hi. destruct Hi as [Hi|[Hi|[]]]; [auto|discriminate].
      * rewrite firstn_app.
        rewrite (firstn_all2 (l ++ [NL])) by (rewrite app_length; cbn [length]; lia).
        destruct (length name - length (l ++ [NL])) as [|j] eqn:Ej.
        { rewrite app_length in Ej. cbn [length] in Ej. lia. }
        cbn [firstn]. rewrite cutnul_stop.
        -- apply in_or_app; right; left; reflexivity.
        -- intros Hi. apply in_app_or in Hi. destruct Hi as [Hi|[Hi|[]]]; [auto|discriminate].
  - intros [post ->]. repeat (rewrite <- app_assoc; cbn [app]).
    rewrite firstn_app, firstn_all, Nat.sub_diag.
    change (firstn 0 ?x) with (@nil byte). rewrite app_nil_r.
    symmetry. apply cutnul_id. assumption.
Qed.

Lemma copy_value_word : forall v w r n, Forall (fun a => isspace a = false) v ->
  isspace w = true -> length v < n ->
  copy_value n (map Some v ++ Some w :: r) = Some (v, true).
Proof.
  induction v as [|a v IH]; intros w r n Hv Hw Hn; destruct n as [|n]; cbn in Hn; try lia.
  - cbn. rewrite Hw. reflexivity.
  - inversion Hv as [|? ? Ha Hv']; subst. cbn. rewrite Ha.
    rewrite IH by (auto; lia). reflexivity.
Qed.

Lemma char_loop_spec : forall name default, good_name name -> length name <= 50 ->
  forall lines tail r, str_lookup name lines r ->
  Forall short lines -> ~ In NL tail -> length tail <= 48 ->
  forall fuel f buf,
  rest f = text_of lines tail -> length lines < fuel -> allinit buf ->
  match r with
  | None => char_loop fuel name default f buf = (Val (Heap default), rewind f)
  | Some (v, ls) => exists f1,
      char_loop fuel name default f buf = (Val (Heap v), f1) /\
      rest f1 = text_of ls tail /\ content f1 = content f
  end.
Proof.
  intros name default Hname Hlenn lines tail r Hlk.
  induction Hlk as [|l ls v Hs Hw|l ls r Hns Hlk IH];
    intros Hsh HtNL Htlen fuel f buf Hrest Hfuel Hbuf;
    destruct fuel as [|fuel]; try (cbn in Hfuel; lia); cbn [char_loop].
  - unfold text_of in Hrest. cbn in Hrest. unfold fgets. rewrite Hrest.
    rewrite getline_tail by (try assumption; rewrite BUFCHAR_val; lia).
    reflexivity.
  - rewrite text_of_cons in Hrest. inversion Hsh as [|? ? Hsh1 Hsh2]; subst.
    assert (Hsh1' := Hsh1). destruct Hsh1' as (HNL & HNUL & Hl).
    unfold fgets. rewrite Hrest.
    rewrite getline_line by (try assumption; rewrite BUFCHAR_val; lia).
    cbv iota beta.
    destruct (prefix_key name l buf Hname Hlenn Hsh1 Hbuf) as (k & -> & Hk).
    rewrite (proj2 (bytes_eqb_true _ _)) by tauto.
    rewrite overlay_nonempty by (destruct l; discriminate).
    rewrite cstring_bytes.
    2:{ intros Hi. apply in_app_or in Hi. destruct Hi as [Hi|[Hi|[]]]; [auto|discriminate]. }
    destruct Hw as (pre & c & w & post & E & Hpre & Hww & Hv & Hlv).
    destruct (l ++ [NL]) as [|b0 l0] eqn:E0; [destruct l; discriminate|].
    rewrite E. rewrite map_app. cbn [map].
    repeat (rewrite <- app_assoc; cbn [app]).
    rewrite search_for_bytes by assumption.
    replace (length pre + 2) with (S (length pre) + 1) by lia.
    rewrite <- skipn_skipn_add, skipn_past.
    cbn [skipn]. rewrite map_app. cbn [map].
    repeat (rewrite <- app_assoc; cbn [app]).
    rewrite (copy_value_word v w) by (auto; lia).
    cbn [orb].
    assert (Hvn : cutnul v = v).
    { apply cutnul_id. intros Hi.
      assert (Hin : In NUL (l ++ [NL])).
      { rewrite E0, E. apply in_or_app. right. right. right. apply in_or_app. left. exact Hi. }
      apply in_app_or in Hin. destruct Hin as [Hin|[Hin|[]]]; [auto|discriminate]. }
    rewrite Hvn.
    eexists. split; [reflexivity|]. split; [|reflexivity].
    rewrite rest_advance. destruct f as [cc pp]. cbn [content pos] in *. rewrite Hrest.
    rewrite <- E, <- E0. change (NL :: text_of ls tail) with ([NL] ++ text_of ls tail).
    rewrite app_assoc. apply skipn_exact.
  - rewrite text_of_cons in Hrest. inversion Hsh as [|? ? Hsh1 Hsh2]; subst.
    assert (Hsh1' := Hsh1). destruct Hsh1' as (HNL & HNUL & Hl).
    unfold fgets. rewrite Hrest.
    rewrite getline_line by (try assumption; rewrite BUFCHAR_val; lia).
    cbv iota beta.
    destruct (prefix_key name l buf Hname Hlenn Hsh1 Hbuf) as (k & -> & Hk).
    assert (Ek : bytes_eqb name (cutnul k) = false).
    { destruct (bytes_eqb name (cutnul k)) eqn:Ek; [|reflexivity].
      apply bytes_eqb_true in Ek. tauto. }
    rewrite Ek.
    set (f1 := mkfile (content f) (pos f + length (l ++ [NL]))).
    assert (Hr1 : rest f1 = text_of ls tail).
    { unfold f1. rewrite rest_advance. destruct f as [cc pp]. cbn [content pos] in *. rewrite Hrest.
      change (NL :: text_of ls tail) with ([NL] ++ text_of ls tail).
      rewrite app_assoc. apply skipn_exact. }
    assert (Hf : length ls < fuel) by (cbn in Hfuel; lia).
    assert (Ha := overlay_allinit l buf Hl Hbuf).
    specialize (IH Hsh2 HtNL Htlen fuel f1 (overlay (l ++ [NL]) buf) Hr1 Hf Ha).
    destruct r as [[v ls']|].
    + destruct IH as (f2 & E2 & Hr2 & Hc2). exists f2. auto.
    + exact IH.
Qed.

Lemma allinit_zero : allinit (repeat (Some NUL) BUFCHAR).
Proof.
  rewrite BUFCHAR_val. split; [reflexivity|]. exists (repeat NUL 50). reflexivity.
Qed.

Lemma lines_fit : forall f lines tail, rest f = text_of lines tail ->
  length lines < S (length (content f)).
Proof.
  intros f lines tail H.
  assert (Hl : length (rest f) <= length (content f)) by (unfold rest; rewrite skipn_length; lia).
  rewrite H in Hl. pose proof (text_of_length lines tail). lia.
Qed.

Lemma ReadChar_hit : forall f name default lines tail v ls,
  good_name name -> length name <= 50 ->
  Forall short lines -> ~ In NL tail -> length tail <= 48 ->
  rest f = text_of lines tail -> str_lookup name lines (Some (v, ls)) ->
  exists f1, ReadChar f name default = (Val (Heap v), f1) /\
             rest f1 = text_of ls tail /\ content f1 = content f.
Proof.
  intros f name default lines tail v ls Hn Hl Hs Ht Htl Hr Hlk.
  exact (char_loop_spec name default Hn Hl lines tail (Some (v, ls)) Hlk Hs Ht Htl
           (S (length (content f))) f _ Hr (lines_fit f lines tail Hr) allinit_zero).
Qed.

Lemma ReadChar_miss : forall f name default lines tail,
  good_name name -> length name <= 50 ->
  Forall short lines -> ~ In NL tail -> length tail <= 48 ->
  rest f = text_of lines tail -> str_lookup name lines None ->
  ReadChar f name default = (Val (Heap default), rewind f).
Proof.
  intros f name default lines tail Hn Hl Hs Ht Htl Hr Hlk.
  exact (char_loop_spec name default Hn Hl lines tail None Hlk Hs Ht Htl
           (S (length (content f))) f _ Hr (lines_fit f lines tail Hr) allinit_zero).
Qed.

Lemma str_lookup_none_iff : forall name lines,
  (forall l, In l lines -> ~ starts_with name l) -> str_lookup name lines None.
Proof.
  intros name lines. induction lines as [|l ls IH]; intros H; [constructor|].
  apply sl_skip; [apply H; left; reflexivity|]. apply IH. intros l' Hi. apply H. right; exact Hi.
Qed.

(** The two lookups of ReadInputFile lines 1046-1047, started at the beginning
    of the file (position left by the preceding ReadInt2 at 1043). *)
Definition IMPORT_FILES_DIR : list byte :=
  ["i";"m";"p";"o";"r";"t";"_";"f";"i";"l";"e";"s";"_";"d";"i";"r"]%char.
Definition IMPORT_FILE : list byte :=
  ["i";"m";"p";"o";"r";"t";"_";"f";"i";"l";"e"]%char.

Definition read_import_names (f : file) (ddir dfile : list byte)
  : outcome str_result * outcome str_result :=
  let '(d, f1) := ReadChar f IMPORT_FILES_DIR ddir in
  let '(i, _) := ReadChar f1 IMPORT_FILE dfile in (d, i).

Lemma str_lookup_app_skip : forall name a l b v,
  (forall x, In x a -> ~ starts_with name x) -> starts_with name l -> word_after_eq l v ->
  str_lookup name (a ++ l :: b) (Some (v, b)).
Proof.
  intros name a l b v Ha Hl Hv. induction a as [|x a IH]; cbn.
  - apply sl_hit; assumption.
  - apply sl_skip; [apply Ha; left; reflexivity|]. apply IH. intros y Hy. apply Ha. right; exact Hy.
Qed.

Lemma import_file_ignored : forall a ldir b tail vdir ddir dfile,
  Forall short (a ++ ldir :: b) -> ~ In NL tail -> length tail <= 48 ->
  (forall x, In x a -> ~ starts_with IMPORT_FILES_DIR x) ->
  starts_with IMPORT_FILES_DIR ldir -> word_after_eq ldir vdir ->
  (forall x, In x b -> ~ starts_with IMPORT_FILE x) ->
  read_import_names (mkfile (text_of (a ++ ldir :: b) tail) 0) ddir dfile =
  (Val (Heap vdir), Val (Heap dfile)).
Proof.
  intros a ldir b tail vdir ddir dfile Hs Ht Htl Ha Hd Hv Hb.
  unfold read_import_names.
  assert (Hg1 : good_name IMPORT_FILES_DIR).
  { unfold good_name, IMPORT_FILES_DIR. repeat split; intros H; cbn in H;
    repeat (destruct H as [H|H]; [discriminate H|]); exact H. }
  assert (Hg2 : good_name IMPORT_FILE).
  { unfold good_name, IMPORT_FILE. repeat split; intros H; cbn in H;
    repeat (destruct H as [H|H]; [discriminate H|]); exact H. }
  destruct (ReadChar_hit (mkfile (text_of (a ++ ldir :: b) tail) 0) IMPORT_FILES_DIR ddir
              (a ++ ldir :: b) tail vdir b Hg1) as (f1 & E1 & Hr1 & Hc1).
  - cbn. lia.
  - assumption.
  - assumption.
  - assumption.
  - reflexivity.
  - apply str_lookup_app_skip; assumption.
  - rewrite E1.
    rewrite (ReadChar_miss f1 IMPORT_FILE dfile b tail Hg2).
    + reflexivity.
    + cbn. lia.
    + apply Forall_app in Hs. destruct Hs as [_ Hs]. inversion Hs; assumption.
    + assumption.
    + assumption.
    + assumption.
    + apply str_lookup_none_iff. exact Hb.
Qed.
