(** Specification and lemmas for the parameter-file readers. *)
From Coq Require Import List Arith ZArith Ascii Bool Lia.
From Verif Require Import Base ParamModel.
Import ListNotations.

(** ** Specification (independent of the reader) *)

Definition line := list byte.

(* a text: newline-terminated lines followed by an unterminated tail *)
Definition text_of (lines : list line) (tail : list byte) : list byte :=
  concat (map (fun l => l ++ [NL]) lines) ++ tail.

(* a line of printable text that fits the buffer *)
Definition plain (l : line) : Prop := ~ In NL l /\ ~ In NUL l /\ length l <= 998.

(* the line defines parameter [name]: it starts with the name and a space *)
Definition has_key (name : list byte) (l : line) : Prop :=
  exists post, l = name ++ SP :: post.

Definition good_name (name : list byte) : Prop :=
  ~ In SP name /\ ~ In NL name /\ ~ In NUL name.

(* has a space at or after column [m] *)
Definition wide (m : nat) (l : line) : Prop :=
  exists p, m <= p /\ nth_error l p = Some SP.

(* every line has a space at column >= m, or ends before column m-1 *)
Definition spaced (m : nat) (l : line) : Prop := wide m l \/ length l + 2 <= m.

(* value of the first line defining [name]: the text after its first '=' *)
Inductive lookup (name : list byte) : list line -> option (list byte) -> Prop :=
| lk_none : lookup name [] None
| lk_hit : forall l ls pre post,
    has_key name l -> l = pre ++ EQS :: post -> ~ In EQS pre ->
    lookup name (l :: ls) (Some (post ++ [NL]))
| lk_skip : forall l ls r,
    ~ has_key name l -> lookup name ls r -> lookup name (l :: ls) r.

(** ** Lemmas *)

Lemma eqb_refl_a : forall c, Ascii.eqb c c = true.
Proof. intros c. apply Ascii.eqb_refl. Qed.

Lemma eqb_neq_a : forall a b, a <> b -> Ascii.eqb a b = false.
Proof. intros a b H. apply Ascii.eqb_neq. exact H. Qed.

Lemma bytes_eqb_true : forall a b, bytes_eqb a b = true <-> a = b.
Proof.
  intros a b. unfold bytes_eqb. destruct (list_eq_dec ascii_dec a b) as [E|E];
    split; intros H; auto; discriminate.
Qed.

Lemma getline_line : forall l n r,
  ~ In NL l -> length l < n -> getline n (l ++ NL :: r) = (l ++ [NL], false).
Proof.
  induction l as [|a l IH]; intros n r HNL Hlen; destruct n as [|n];
    cbn in Hlen; try lia; cbn [getline app].
  - rewrite eqb_refl_a. reflexivity.
  - assert (Ha : a <> NL) by (intros E; apply HNL; left; auto).
    rewrite (eqb_neq_a _ _ Ha).
    rewrite IH; [reflexivity | | lia].
    intros Hin. apply HNL. right. exact Hin.
Qed.

Lemma getline_tail : forall l n,
  ~ In NL l -> length l < n -> getline n l = (l, true).
Proof.
  induction l as [|a l IH]; intros n HNL Hlen; destruct n as [|n];
    cbn in Hlen; try lia; cbn [getline].
  - reflexivity.
  - assert (Ha : a <> NL) by (intros E; apply HNL; left; auto).
    rewrite (eqb_neq_a _ _ Ha).
    rewrite IH; [reflexivity | | lia].
    intros Hin. apply HNL. right. exact Hin.
Qed.

Lemma overlay_nonempty : forall c b,
  c <> [] -> overlay c b = map Some c ++ Some NUL :: skipn (S (length c)) b.
Proof. intros c b H. destruct c; [congruence|reflexivity]. Qed.

Lemma rest_advance : forall c p n,
  rest (mkfile c (p + n)) = skipn n (rest (mkfile c p)).
Proof.
  intros c p n. unfold rest. cbn. rewrite skipn_skipn_add. reflexivity.
Qed.

Lemma skipn_exact : forall {A} (l r : list A), skipn (length l) (l ++ r) = r.
Proof.
  intros A l r. rewrite skipn_app, skipn_all, Nat.sub_diag. reflexivity.
Qed.

(* scanning *)
Lemma scan_for_bytes : forall c pre post,
  ~ In c pre -> scan_for c (map Some pre ++ Some c :: post) = Some (length pre).
Proof.
  intros c pre post. induction pre as [|a pre IH]; intros H; cbn.
  - rewrite eqb_refl_a. reflexivity.
  - rewrite eqb_neq_a by (intros E; apply H; left; auto).
    rewrite IH; [reflexivity|]. intros Hi. apply H. right; auto.
Qed.

Lemma search_for_bytes : forall c pre post,
  ~ In c pre -> search_for c (map Some pre ++ Some c :: post) = Found (length pre).
Proof.
  intros c pre post. induction pre as [|a pre IH]; intros H; cbn.
  - rewrite eqb_refl_a. reflexivity.
  - rewrite eqb_neq_a by (intros E; apply H; left; auto).
    rewrite IH; [reflexivity|]. intros Hi. apply H. right; auto.
Qed.

Lemma take_bytes_map : forall pre post,
  take_bytes (length pre) (map Some pre ++ post) = Some pre.
Proof.
  induction pre as [|a pre IH]; intros post; cbn; [reflexivity|].
  rewrite IH. reflexivity.
Qed.

Lemma cutnul_id : forall l, ~ In NUL l -> cutnul l = l.
Proof.
  induction l as [|a l IH]; intros H; cbn; [reflexivity|].
  rewrite eqb_neq_a by (intros E; apply H; left; auto).
  rewrite IH; [reflexivity|]. intros Hi. apply H; right; auto.
Qed.

Lemma cutnul_stop : forall l r, ~ In NUL l -> cutnul (l ++ NUL :: r) = l.
Proof.
  induction l as [|a l IH]; intros r H; cbn; [reflexivity|].
  rewrite eqb_neq_a by (intros E; apply H; left; auto).
  rewrite IH; [reflexivity|]. intros Hi. apply H; right; auto.
Qed.

Lemma cstring_bytes : forall l r,
  ~ In NUL l -> cstring (map Some l ++ Some NUL :: r) = Some l.
Proof.
  induction l as [|a l IH]; intros r H; cbn; [reflexivity|].
  rewrite eqb_neq_a by (intros E; apply H; left; auto).
  rewrite IH; [reflexivity|]. intros Hi. apply H; right; auto.
Qed.

(* splitting at the first occurrence *)
Lemma first_split : forall (c : byte) l, In c l ->
  exists pre post, l = pre ++ c :: post /\ ~ In c pre.
Proof.
  intros c l. induction l as [|a l IH]; intros H; [destruct H|].
  destruct (ascii_dec a c) as [E|E].
  - subst. exists [], l. split; [reflexivity|]. intros [].
  - destruct H as [H|H]; [congruence|].
    destruct (IH H) as (pre & post & E1 & H1). subst.
    exists (a :: pre), post. split; [reflexivity|].
    intros [H2|H2]; [congruence|auto].
Qed.

Lemma has_key_split : forall name pre post,
  ~ In SP name -> ~ In SP pre ->
  has_key name (pre ++ SP :: post) <-> name = pre.
Proof.
  intros name pre post Hn Hp. split.
  - intros [q E]. revert pre E Hp.
    induction name as [|a name IH]; intros pre E Hp; destruct pre as [|b pre];
      cbn in E; auto.
    + inversion E. subst. exfalso. apply Hp. left; reflexivity.
    + inversion E. subst. exfalso. apply Hn. left; reflexivity.
    + inversion E. subst. f_equal. apply IH.
      * intros Hi. apply Hn; right; auto.
      * assumption.
      * intros Hi. apply Hp; right; auto.
  - intros ->. exists post. reflexivity.
Qed.

(* the buffer invariant between two fgets calls: an initialised prefix that
   contains a space at column >= m *)
Definition binv (m : nat) (buf : list cell) : Prop :=
  exists init rest0, buf = map Some init ++ rest0 /\
    exists p, m <= p /\ nth_error init p = Some SP.

Lemma binv_overlay_wide : forall m l buf, wide m l ->
  binv m (overlay (l ++ [NL]) buf).
Proof.
  intros m l buf (p & Hp & Hn). rewrite overlay_nonempty by (destruct l; discriminate).
  exists (l ++ [NL]), (Some NUL :: skipn (S (length (l ++ [NL]))) buf).
  split; [reflexivity|]. exists p. split; [assumption|].
  rewrite nth_error_app1; [assumption|]. apply nth_error_Some. congruence.
Qed.

Lemma binv_overlay_short : forall m l buf, length l + 2 <= m -> binv m buf ->
  binv m (overlay (l ++ [NL]) buf).
Proof.
  intros m l buf Hl (init & r0 & E & p & Hp & Hn). subst buf.
  rewrite overlay_nonempty by (destruct l; discriminate).
  assert (Hlen : p < length init) by (apply nth_error_Some; congruence).
  exists (l ++ [NL] ++ NUL :: skipn (S (length (l ++ [NL]))) init), r0.
  split.
  - rewrite skipn_app. rewrite app_length. cbn [length].
    replace (S (length l + 1) - length (map Some init)) with 0
      by (rewrite map_length; lia).
    change (skipn 0 r0) with r0.
    rewrite skipn_map_c. rewrite !map_app. cbn [map].
    repeat (rewrite <- app_assoc; cbn [app]). reflexivity.
  - exists p. split; [assumption|].
    rewrite nth_error_app2 by lia.
    cbn [app]. rewrite app_length. cbn [length].
    destruct (p - length l) as [|[|q]] eqn:Eq; [lia|lia|].
    cbn [nth_error].
    rewrite <- Hn.
    replace p with (S (length l + 1) + q) by lia.
    clear. revert init. generalize (S (length l + 1)) as k.
    induction k as [|k IH]; intros init; [reflexivity|].
    destruct init as [|a init]; [cbn; destruct q; reflexivity|].
    cbn. apply IH.
Qed.

Lemma key_of_overlay : forall m l buf name,
  plain l -> spaced m l -> (wide m l \/ binv m buf) -> good_name name ->
  exists k, line_key (overlay (l ++ [NL]) buf) = Some k /\
            (name = k <-> has_key name l).
Proof.
  intros m l buf name (HNL & HNUL & Hlen) Hsp Hbuf (Hn1 & Hn2 & Hn3).
  destruct (in_dec ascii_dec SP l) as [Hin|Hnin].
  - destruct (first_split SP l Hin) as (pre & post & -> & Hpre).
    exists pre.
    rewrite overlay_nonempty by (destruct pre; discriminate).
    unfold line_key. rewrite !map_app. cbn [map].
    repeat (rewrite <- app_assoc; cbn [app]).
    rewrite scan_for_bytes by assumption.
    rewrite take_bytes_map. cbn [option_map].
    rewrite cutnul_id by (intros Hi; apply HNUL; apply in_or_app; auto).
    split; [reflexivity|].
    rewrite has_key_split by assumption. reflexivity.
  - (* no space in the line: the stale part of the buffer provides one *)
    assert (Hw : ~ wide m l).
    { intros (p & _ & Hp). apply Hnin. eapply nth_error_In; eauto. }
    destruct Hsp as [Hsp|Hsp]; [contradiction|].
    destruct Hbuf as [Hbuf|Hbuf]; [contradiction|].
    destruct (binv_overlay_short m l buf Hsp Hbuf)
      as (init & r0 & E & p & Hp & Hn).
    assert (Hinit : exists q, init = l ++ [NL] ++ NUL :: q).
    { rewrite overlay_nonempty in E by (destruct l; discriminate).
      assert (Hlen2 : p < length init) by (apply nth_error_Some; congruence).
      exists (skipn (S (length (l ++ [NL]))) init).
      assert (Ef : firstn (S (length (l ++ [NL])))
                     (map Some (l ++ [NL]) ++ Some NUL :: skipn (S (length (l ++ [NL]))) buf)
                   = map Some (l ++ [NL] ++ [NUL])).
      { replace (map Some (l ++ [NL]) ++ Some NUL :: skipn (S (length (l ++ [NL]))) buf)
          with (map Some (l ++ [NL] ++ [NUL]) ++ skipn (S (length (l ++ [NL]))) buf).
        - replace (S (length (l ++ [NL]))) with (length (map Some (l ++ [NL] ++ [NUL])))
            at 1 by (rewrite map_length, !app_length; cbn; lia).
          rewrite firstn_app, firstn_all, Nat.sub_diag. cbn. rewrite app_nil_r. reflexivity.
        - rewrite !map_app. cbn. repeat (rewrite <- app_assoc; cbn [app]). reflexivity. }
      rewrite E in Ef.
      rewrite firstn_app in Ef.
      replace (S (length (l ++ [NL])) - length (map Some init)) with 0 in Ef
        by (rewrite map_length, app_length; cbn [length]; lia).
      change (firstn 0 r0) with (@nil cell) in Ef. rewrite app_nil_r, firstn_map in Ef.
      assert (Einj : forall a b : list byte, map (@Some byte) a = map Some b -> a = b).
      { clear. induction a as [|x a IHa]; intros b H; destruct b as [|y b];
          try discriminate H; [reflexivity|].
        cbn in H. injection H as H1 H2. rewrite H1, (IHa b H2). reflexivity. }
      apply Einj in Ef.
      rewrite <- (firstn_skipn (S (length (l ++ [NL]))) init) at 1.
      rewrite Ef. repeat (rewrite <- app_assoc; cbn [app]). reflexivity. }
    destruct Hinit as (q & Hq).
    rewrite E.
    assert (Hin : In SP init) by (eapply nth_error_In; eauto).
    destruct (first_split SP init Hin) as (pre & post & Hs & Hpre).
    exists (l ++ [NL]).
    unfold line_key. rewrite Hs, map_app. cbn [map].
    rewrite <- app_assoc; cbn [app].
    rewrite scan_for_bytes by assumption.
    rewrite take_bytes_map. cbn [option_map].
    (* pre extends l ++ [NL; NUL] *)
    assert (Hpx : exists q', pre = (l ++ [NL]) ++ NUL :: q').
    { assert (Hpref : firstn (length pre) init = pre).
      { rewrite Hs. rewrite firstn_app, firstn_all, Nat.sub_diag. cbn. apply app_nil_r. }
      assert (Hge : length (l ++ [NL; NUL]) <= length pre).
      { destruct (le_lt_dec (length (l ++ [NL; NUL])) (length pre)) as [|Hlt]; [assumption|].
        exfalso.
        assert (Hnp : nth_error init (length pre) = Some SP).
        { rewrite Hs, nth_error_app2, Nat.sub_diag by lia. reflexivity. }
        rewrite Hq in Hnp.
        change (l ++ [NL] ++ NUL :: q) with (l ++ [NL; NUL] ++ q) in Hnp.
        rewrite app_assoc, nth_error_app1 in Hnp by assumption.
        apply nth_error_In in Hnp. apply in_app_or in Hnp.
        destruct Hnp as [Hnp|Hnp]; [contradiction|].
        cbn in Hnp. destruct Hnp as [Hnp|[Hnp|[]]]; discriminate. }
      exists (firstn (length pre - length (l ++ [NL; NUL])) q).
      rewrite <- Hpref at 1. rewrite Hq.
      change (l ++ [NL] ++ NUL :: q) with (l ++ [NL; NUL] ++ q).
      rewrite app_assoc, firstn_app.
      rewrite firstn_all2 by assumption.
      repeat (rewrite <- app_assoc; cbn [app]). reflexivity. }
    destruct Hpx as (q' & ->).
    rewrite cutnul_stop.
    2:{ intros Hi. apply in_app_or in Hi. destruct Hi as [Hi|[Hi|[]]];
        [contradiction|discriminate]. }
    split; [reflexivity|]. split.
    + intros ->. exfalso. apply Hn2. apply in_or_app. right. left. reflexivity.
    + intros [post' ->]. exfalso. apply Hnin. apply in_or_app. right. left. reflexivity.
Qed.

Lemma skipn_past : forall (pre : list byte) (x : cell) r,
  skipn (S (length pre)) (map Some pre ++ x :: r) = r.
Proof.
  intros pre x r. induction pre as [|a pre IH]; [reflexivity|]. exact IH.
Qed.

Lemma value_of_overlay : forall l buf pre post,
  plain l -> l = pre ++ EQS :: post -> ~ In EQS pre ->
  value_text (overlay (l ++ [NL]) buf) = Text (post ++ [NL]).
Proof.
  intros l buf pre post (HNL & HNUL & Hlen) -> Hpre.
  rewrite overlay_nonempty by (destruct pre; discriminate).
  unfold value_text.
  rewrite cstring_bytes.
  2:{ intros Hi. apply in_app_or in Hi. destruct Hi as [Hi|[Hi|[]]];
      [contradiction|discriminate]. }
  destruct ((pre ++ EQS :: post) ++ [NL]) eqn:E0; [destruct pre; discriminate|].
  rewrite <- E0. clear E0.
  rewrite !map_app. cbn [map]. repeat (rewrite <- app_assoc; cbn [app]).
  rewrite search_for_bytes by assumption.
  rewrite skipn_past.
  change (map Some post ++ Some NL :: ?r) with (map Some post ++ map Some [NL] ++ r).
  rewrite app_assoc, <- map_app.
  rewrite cstring_bytes; [reflexivity|].
  intros Hi. apply in_app_or in Hi. destruct Hi as [Hi|[Hi|[]]]; [|discriminate].
  apply HNUL. apply in_or_app. right. right. assumption.
Qed.

Lemma BUFMAX_val : BUFMAX = 1000. Proof. reflexivity. Qed.
#[global] Opaque BUFMAX.

Lemma fgets_line : forall f buf l r,
  rest f = l ++ NL :: r -> plain l ->
  exists f1, fgets (BUFMAX - 1) f buf = (overlay (l ++ [NL]) buf, false, f1) /\
             rest f1 = r /\ content f1 = content f.
Proof.
  intros f buf l r Hr (HNL & HNUL & Hlen). unfold fgets. rewrite Hr.
  rewrite getline_line by (try assumption; rewrite BUFMAX_val; lia).
  eexists. split; [reflexivity|]. split; [|reflexivity].
  rewrite rest_advance. destruct f as [c p]. cbn [content pos] in *. rewrite Hr.
  change (NL :: r) with ([NL] ++ r). rewrite app_assoc. apply skipn_exact.
Qed.

Lemma fgets_tail : forall f buf,
  ~ In NL (rest f) -> length (rest f) <= 998 ->
  exists f1, fgets (BUFMAX - 1) f buf = (overlay (rest f) buf, true, f1) /\
             content f1 = content f.
Proof.
  intros f buf HNL Hlen. unfold fgets.
  rewrite getline_tail by (try assumption; rewrite BUFMAX_val; lia).
  eexists. split; reflexivity.
Qed.

Lemma text_of_cons : forall l ls t, text_of (l :: ls) t = l ++ NL :: text_of ls t.
Proof.
  intros. unfold text_of. cbn. repeat (rewrite <- app_assoc; cbn [app]). reflexivity.
Qed.

Definition good_tail (t : list byte) : Prop := ~ In NL t /\ length t <= 998.

(* main simulation for ReadInt2/ReadDou2 *)
Lemma read_loop_spec : forall name, good_name name ->
  forall m lines tail r, lookup name lines r -> good_tail tail ->
  Forall plain lines -> Forall (spaced m) lines ->
  forall fuel f buf,
  rest f = text_of lines tail ->
  length lines < fuel ->
  (match lines with [] => True | l :: _ => wide m l \/ binv m buf end) ->
  read_loop fuel name f buf = (Val r, rewind f).
Proof.
  intros name Hname m lines tail r Hlk (HtNL & Htlen).
  induction Hlk as [|l ls pre post Hk Hl Hpre|l ls r Hnk Hlk IH];
    intros Hpl Hsp fuel f buf Hrest Hfuel Hbuf;
    destruct fuel as [|fuel]; try (cbn in Hfuel; lia); cbn [read_loop].
  - unfold text_of in Hrest. cbn in Hrest.
    destruct (fgets_tail f buf) as (f1 & -> & Hc); try (rewrite Hrest; assumption).
    unfold rewind. rewrite Hc. reflexivity.
  - rewrite text_of_cons in Hrest.
    inversion Hpl as [|? ? Hp1 Hp2]; subst. inversion Hsp as [|? ? Hs1 Hs2]; subst.
    destruct (fgets_line f buf _ _ Hrest Hp1) as (f1 & -> & Hr1 & Hc1).
    destruct (key_of_overlay m _ buf name Hp1 Hs1 Hbuf Hname) as (k & -> & Hkk).
    assert (E : bytes_eqb name k = true) by (apply bytes_eqb_true; apply Hkk; assumption).
    rewrite E.
    rewrite (value_of_overlay _ buf pre post Hp1 eq_refl Hpre).
    unfold rewind. rewrite Hc1. reflexivity.
  - rewrite text_of_cons in Hrest.
    inversion Hpl as [|? ? Hp1 Hp2]; subst. inversion Hsp as [|? ? Hs1 Hs2]; subst.
    destruct (fgets_line f buf _ _ Hrest Hp1) as (f1 & -> & Hr1 & Hc1).
    destruct (key_of_overlay m _ buf name Hp1 Hs1 Hbuf Hname) as (k & -> & Hkk).
    assert (E : bytes_eqb name k = false).
    { destruct (bytes_eqb name k) eqn:E; [|reflexivity].
      apply bytes_eqb_true in E. apply Hkk in E. contradiction. }
    rewrite E.
    rewrite IH; auto.
    + unfold rewind. rewrite Hc1. reflexivity.
    + cbn in Hfuel. lia.
    + assert (Hb1 : binv m (overlay (l ++ [NL]) buf)).
      { destruct Hs1 as [Hw|Hw]; [apply binv_overlay_wide; assumption|].
        destruct Hbuf as [Hb|Hb]; [apply binv_overlay_wide; assumption|].
        apply binv_overlay_short; assumption. }
      destruct ls; auto.
Qed.

Lemma text_of_length : forall ls t, length ls <= length (text_of ls t).
Proof.
  induction ls as [|l ls IH]; intros t; [cbn; lia|].
  rewrite text_of_cons, app_length. cbn [length]. specialize (IH t). lia.
Qed.

(* shape of an acceptable parameter file *)
Definition well_formed (m : nat) (lines : list line) (tail : list byte) : Prop :=
  Forall plain lines /\ Forall (spaced m) lines /\ good_tail tail /\
  match lines with [] => True | l :: _ => wide m l end.

Lemma read_param_spec : forall name m lines tail r p,
  good_name name -> well_formed m lines tail -> lookup name lines r ->
  read_param name (mkfile (text_of lines tail) p) = (Val r, mkfile (text_of lines tail) 0).
Proof.
  intros name m lines tail r p Hname (Hpl & Hsp & Ht & Hw) Hlk.
  unfold read_param.
  rewrite (read_loop_spec name Hname m lines tail r Hlk Ht Hpl Hsp).
  - reflexivity.
  - reflexivity.
  - cbn. pose proof (text_of_length lines tail). lia.
  - destruct lines; auto.
Qed.

Lemma ReadInt2_spec : forall name m lines tail r p default,
  good_name name -> well_formed m lines tail -> lookup name lines r ->
  ReadInt2 (mkfile (text_of lines tail) p) name default =
  (Val (match r with Some t => atoi t | None => default end),
   mkfile (text_of lines tail) 0).
Proof.
  intros. unfold ReadInt2. rewrite (read_param_spec name m lines tail r p) by assumption.
  reflexivity.
Qed.

Lemma ReadDou2_spec : forall V (atof : list byte -> V) name m lines tail r p default,
  good_name name -> well_formed m lines tail -> lookup name lines r ->
  ReadDou2 atof (mkfile (text_of lines tail) p) name default =
  (Val (match r with Some t => atof t | None => default end),
   mkfile (text_of lines tail) 0).
Proof.
  intros. unfold ReadDou2. rewrite (read_param_spec name m lines tail r p) by assumption.
  reflexivity.
Qed.

(* lookup is a function, total when matching lines contain '=' *)
Lemma lookup_det : forall name ls r1 r2, lookup name ls r1 -> lookup name ls r2 -> r1 = r2.
Proof.
  intros name ls r1 r2 H1. revert r2.
  induction H1 as [|l ls pre post Hk Hl Hpre|l ls r Hnk Hlk IH]; intros r2 H2;
    inversion H2; subst; auto; try contradiction.
  assert (E : forall (a b c d : list byte), a ++ EQS :: b = c ++ EQS :: d ->
               ~ In EQS a -> ~ In EQS c -> b = d).
  { clear. induction a as [|x a IHa]; intros b [|y c] d H Ha Hc; cbn in H; inversion H; subst; auto.
    - exfalso; apply Hc; left; auto.
    - exfalso; apply Ha; left; auto.
    - apply IHa with c; auto; intros Hi; [apply Ha|apply Hc]; right; auto. }
  f_equal. f_equal. eapply E; eauto.
Qed.

Lemma lookup_total : forall name ls,
  (forall l, In l ls -> has_key name l -> In EQS l) -> exists r, lookup name ls r.
Proof.
  intros name ls. induction ls as [|l ls IH]; intros H.
  - exists None. constructor.
  - assert (D : has_key name l \/ ~ has_key name l).
    { destruct (list_eq_dec ascii_dec (firstn (S (length name)) l) (name ++ [SP])) as [E|E].
      - left. exists (skipn (S (length name)) l).
        rewrite <- (firstn_skipn (S (length name)) l) at 1. rewrite E.
        rewrite <- app_assoc. reflexivity.
      - right. intros [post ->]. apply E.
        change (SP :: post) with ([SP] ++ post). rewrite app_assoc.
        replace (S (length name)) with (length (name ++ [SP])) by (rewrite app_length; cbn; lia).
        rewrite firstn_app, firstn_all, Nat.sub_diag. cbn. apply app_nil_r. }
    destruct D as [D|D].
    + destruct (first_split EQS l) as (pre & post & E & Hpre).
      { apply H; [left; reflexivity|assumption]. }
      exists (Some (post ++ [NL])). eapply lk_hit; eauto.
    + destruct IH as (r & Hr). { intros l' Hi. apply H. right; assumption. }
      exists r. apply lk_skip; assumption.
Qed.

(** frame: only the lines carrying the name matter *)
Inductive same_for (name : list byte) : list line -> list line -> Prop :=
| sf_nil : same_for name [] []
| sf_both : forall l a b, same_for name a b -> same_for name (l :: a) (l :: b)
| sf_left : forall l a b, ~ has_key name l -> same_for name a b -> same_for name (l :: a) b
| sf_right : forall l a b, ~ has_key name l -> same_for name a b -> same_for name a (l :: b).

Lemma lookup_same_for : forall name a b r, same_for name a b ->
  lookup name a r -> lookup name b r.
Proof.
  intros name a b r H. revert r.
  induction H as [|l a b H IH|l a b Hk H IH|l a b Hk H IH]; intros r Hl.
  - assumption.
  - inversion Hl; subst.
    + eapply lk_hit; eauto.
    + apply lk_skip; auto.
  - inversion Hl; subst; [contradiction|auto].
  - apply lk_skip; auto.
Qed.

Lemma same_for_sym : forall name a b, same_for name a b -> same_for name b a.
Proof. intros name a b H. induction H; constructor; auto. Qed.

Lemma same_for_refl : forall name a, same_for name a a.
Proof. intros name a. induction a; constructor; auto. Qed.

(* swapping two adjacent lines not both defining the name *)
Lemma same_for_swap : forall name l1 l2 a,
  ~ has_key name l1 -> same_for name (l1 :: l2 :: a) (l2 :: l1 :: a).
Proof.
  intros name l1 l2 a H1.
  apply sf_left; [assumption|]. apply sf_both. apply sf_right; [assumption|].
  apply same_for_refl.
Qed.

Lemma lookup_frame : forall V (atof : list byte -> V) name m1 m2 la lb ta tb p q d,
  good_name name -> well_formed m1 la ta -> well_formed m2 lb tb ->
  (forall l, In l la -> has_key name l -> In EQS l) ->
  same_for name la lb ->
  fst (ReadDou2 atof (mkfile (text_of la ta) p) name d) =
  fst (ReadDou2 atof (mkfile (text_of lb tb) q) name d).
Proof.
  intros V atof name m1 m2 la lb ta tb p q d Hn Ha Hb Heq Hs.
  destruct (lookup_total name la Heq) as (r & Hr).
  rewrite (ReadDou2_spec V atof name m1 la ta r p d Hn Ha Hr).
  rewrite (ReadDou2_spec V atof name m2 lb tb r q d Hn Hb (lookup_same_for _ _ _ _ Hs Hr)).
  reflexivity.
Qed.

(** ** UB when the very first line has no space *)

Lemma scan_for_none : forall c l n, ~ In c l ->
  scan_for c (map Some l ++ uninit n) = None.
Proof.
  intros c l n. induction l as [|a l IH]; intros H; cbn.
  - destruct n; reflexivity.
  - rewrite eqb_neq_a by (intros E; apply H; left; auto).
    rewrite IH; [reflexivity|]. intros Hi; apply H; right; auto.
Qed.

Lemma first_line_no_space_UB : forall name l r p,
  ~ In SP l -> ~ In NL l -> length l <= 998 ->
  fst (read_param name (mkfile (l ++ NL :: r) p)) = UB.
Proof.
  intros name l r p Hs HNL Hlen. unfold read_param. cbn [read_loop].
  unfold fgets.
  replace (rest (rewind {| content := l ++ NL :: r; pos := p |})) with (l ++ NL :: r) by reflexivity.
  rewrite getline_line by (try assumption; rewrite BUFMAX_val; lia).
  cbv iota beta.
  rewrite overlay_nonempty by (destruct l; discriminate).
  unfold line_key.
  assert (E : scan_for SP (map Some (l ++ [NL]) ++ Some NUL ::
             skipn (S (length (l ++ [NL]))) (uninit BUFMAX)) = None).
  { replace (skipn (S (length (l ++ [NL]))) (uninit BUFMAX))
      with (uninit (BUFMAX - S (length (l ++ [NL])))).
    - change (Some NUL :: ?u) with (map Some [NUL] ++ u). rewrite app_assoc, <- map_app.
      apply scan_for_none.
      intros Hi. apply in_app_or in Hi. destruct Hi as [Hi|[Hi|[]]]; [|discriminate].
      apply in_app_or in Hi. destruct Hi as [Hi|[Hi|[]]]; [contradiction|discriminate].
    - unfold uninit. generalize BUFMAX as n. generalize (S (length (l ++ [NL]))) as k.
      induction k as [|k IHk]; intros n; [rewrite Nat.sub_0_r; reflexivity|].
      destruct n as [|n]; [reflexivity|]. cbn. apply IHk. }
  rewrite E. reflexivity.
Qed.
