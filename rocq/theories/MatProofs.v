(** Specification and lemmas for ReadMatProps and for sequences of lookups. *)
From Coq Require Import List Arith ZArith Ascii Bool Lia.
From Verif Require Import Base ParamModel ParamProofs.
Import ListNotations.

(** ** Specification *)

(* [l] is the header line of a phase block carrying number [z] *)
Inductive id_line (l : line) (z : Z) : Prop :=
| id_intro : forall pre post, has_key ID_NAME l -> l = pre ++ EQS :: post ->
    ~ In EQS pre -> atoi (post ++ [NL]) = z -> id_line l z.

(* value of [name] in the block starting at the first of the given lines; the
   block ends at the next ID line or at the end of the file.  The unterminated
   tail of the file, if any, belongs to the last block. *)
Inductive block_value (name : list byte) : list line -> list byte -> option (list byte) -> Prop :=
| bv_next : forall l ls t, has_key ID_NAME l -> block_value name (l :: ls) t None
| bv_hit : forall l ls t pre post,
    has_key name l -> l = pre ++ EQS :: post -> ~ In EQS pre ->
    block_value name (l :: ls) t (Some (post ++ [NL]))
| bv_skip : forall l ls t r,
    ~ has_key ID_NAME l -> ~ has_key name l -> block_value name ls t r ->
    block_value name (l :: ls) t r
| bv_end_hit : forall t pre post,
    has_key name t -> t = pre ++ EQS :: post -> ~ In EQS pre ->
    block_value name [] t (Some post)
| bv_end_none : forall t, ~ has_key name t -> block_value name [] t None.

(* value of [name] for phase [p] *)
Inductive phase_value (name : list byte) (p : Z) : list line -> list byte -> option (list byte) -> Prop :=
| pv_skip : forall l ls t r, ~ has_key ID_NAME l ->
    phase_value name p ls t r -> phase_value name p (l :: ls) t r
| pv_other : forall l ls t r z, id_line l z -> z <> p ->
    phase_value name p ls t r -> phase_value name p (l :: ls) t r
| pv_block : forall l ls t r, id_line l p ->
    block_value name ls t r -> phase_value name p (l :: ls) t r.

(* no header line carries number [p] *)
Inductive no_phase (p : Z) : list line -> Prop :=
| np_nil : no_phase p []
| np_skip : forall l ls, ~ has_key ID_NAME l -> no_phase p ls -> no_phase p (l :: ls)
| np_other : forall l ls z, id_line l z -> z <> p -> no_phase p ls -> no_phase p (l :: ls).

(* a line that follows a header line contains a space at column >= m, and so does
   an unterminated tail *)
Fixpoint first_after_id (m : nat) (lines : list line) (tail : list byte) : Prop :=
  match lines with
  | [] => True
  | l :: ls =>
      (has_key ID_NAME l ->
         match ls with [] => tail <> [] | l2 :: _ => wide m l2 end)
      /\ first_after_id m ls tail
  end.

Definition mat_file (m : nat) (lines : list line) (tail : list byte) : Prop :=
  well_formed m lines tail /\ first_after_id m lines tail /\
  (tail = [] \/ (plain tail /\ wide m tail)).

(** ** Lemmas *)

Lemma ID_good : good_name ID_NAME.
Proof.
  unfold ID_NAME. repeat split; intros H; cbn in H;
    repeat (destruct H as [H|H]; [discriminate H|]); exact H.
Qed.

Lemma has_key_unique : forall a b l, ~ In SP a -> ~ In SP b ->
  has_key a l -> has_key b l -> a = b.
Proof.
  intros a b l Ha Hb [p ->] H. apply has_key_split in H; auto.
Qed.

Lemma key_of_tail : forall m t buf name,
  plain t -> wide m t -> good_name name ->
  exists k, line_key (overlay t buf) = Some k /\ (name = k <-> has_key name t).
Proof.
  intros m t buf name (HNL & HNUL & Hlen) (p & Hp & Hn) (Hn1 & Hn2 & Hn3).
  assert (Hin : In SP t) by (eapply nth_error_In; eauto).
  destruct (first_split SP t Hin) as (pre & post & -> & Hpre).
  exists pre.
  rewrite overlay_nonempty by (destruct pre; discriminate).
  unfold line_key. rewrite !map_app. cbn [map].
  repeat (rewrite <- app_assoc; cbn [app]).
  rewrite scan_for_bytes by assumption.
  rewrite take_bytes_map. cbn [option_map].
  rewrite cutnul_id by (intros Hi; apply HNUL; apply in_or_app; auto).
  split; [reflexivity|].
  rewrite has_key_split by assumption. reflexivity.
Qed.

Lemma value_of_tail : forall t buf pre post,
  plain t -> t = pre ++ EQS :: post -> ~ In EQS pre ->
  value_text (overlay t buf) = Text post.
Proof.
  intros l buf pre post (HNL & HNUL & Hlen) -> Hpre.
  rewrite overlay_nonempty by (destruct pre; discriminate).
  unfold value_text.
  rewrite cstring_bytes by assumption.
  assert (HNUL' : ~ In NUL post)
    by (intros Hi; apply HNUL; apply in_or_app; right; right; assumption).
  destruct (pre ++ EQS :: post) eqn:E0; [destruct pre; discriminate|].
  rewrite <- E0. clear E0.
  rewrite !map_app. cbn [map]. repeat (rewrite <- app_assoc; cbn [app]).
  rewrite search_for_bytes by assumption.
  rewrite skipn_past.
  rewrite cstring_bytes; [reflexivity|assumption].
Qed.

Lemma bytes_eqb_false : forall a b, a <> b -> bytes_eqb a b = false.
Proof.
  intros a b H. destruct (bytes_eqb a b) eqn:E; [|reflexivity].
  apply bytes_eqb_true in E. contradiction.
Qed.

Lemma key_two : forall m l buf name,
  plain l -> spaced m l -> (wide m l \/ binv m buf) -> good_name name ->
  exists k, line_key (overlay (l ++ [NL]) buf) = Some k /\
            (name = k <-> has_key name l) /\ (ID_NAME = k <-> has_key ID_NAME l).
Proof.
  intros m l buf name Hp Hs Hb Hn.
  destruct (key_of_overlay m l buf name Hp Hs Hb Hn) as (k & E & Hk).
  destruct (key_of_overlay m l buf ID_NAME Hp Hs Hb ID_good) as (k2 & E2 & Hk2).
  rewrite E in E2. inversion E2; subst. exists k2. auto.
Qed.

Lemma binv_step : forall m l buf, spaced m l -> (wide m l \/ binv m buf) ->
  binv m (overlay (l ++ [NL]) buf).
Proof.
  intros m l buf Hs Hb. destruct Hs as [Hw|Hw]; [apply binv_overlay_wide; assumption|].
  destruct Hb as [Hb|Hb]; [apply binv_overlay_wide; assumption|].
  apply binv_overlay_short; assumption.
Qed.

Lemma mat_block_spec : forall name, good_name name -> name <> ID_NAME ->
  forall m lines tail r, block_value name lines tail r ->
  Forall plain lines -> Forall (spaced m) lines ->
  good_tail tail -> (tail = [] \/ (plain tail /\ wide m tail)) ->
  forall fuel f buf,
  rest f = text_of lines tail -> length lines < fuel ->
  (match lines with
   | [] => tail <> [] \/
           exists k, line_key buf = Some k /\ k <> ID_NAME /\ k <> name
   | l :: _ => wide m l \/
        (binv m buf /\ exists k, line_key buf = Some k /\ k <> ID_NAME /\ k <> name)
   end) ->
  exists f1, mat_block fuel name f buf = (Val r, f1) /\ content f1 = content f.
Proof.
  intros name Hname Hnid m lines tail r Hbv.
  induction Hbv as [l ls t Hid|l ls t pre post Hk Hl Hpre|l ls t r Hnid1 Hnk Hbv IH
                   |t pre post Hk Ht Hpre|t Hnk];
    intros Hpl Hsp Hgt Htail fuel f buf Hrest Hfuel Hbuf;
    destruct fuel as [|fuel]; try (cbn in Hfuel; lia); cbn [mat_block].
  - rewrite text_of_cons in Hrest.
    inversion Hpl as [|? ? Hp1 Hp2]; subst. inversion Hsp as [|? ? Hs1 Hs2]; subst.
    destruct (fgets_line f buf _ _ Hrest Hp1) as (f1 & -> & Hr1 & Hc1).
    assert (Hb : wide m l \/ binv m buf) by tauto.
    destruct (key_two m l buf name Hp1 Hs1 Hb Hname) as (k & -> & Hk1 & Hk2).
    rewrite (proj2 (bytes_eqb_true k ID_NAME)) by (symmetry; tauto).
    eexists. split; [reflexivity|]. exact Hc1.
  - rewrite text_of_cons in Hrest.
    inversion Hpl as [|? ? Hp1 Hp2]; subst. inversion Hsp as [|? ? Hs1 Hs2]; subst.
    destruct (fgets_line f buf _ _ Hrest Hp1) as (f1 & -> & Hr1 & Hc1).
    assert (Hb : wide m (pre ++ EQS :: post) \/ binv m buf) by tauto.
    destruct (key_two m _ buf name Hp1 Hs1 Hb Hname) as (k & -> & Hk1 & Hk2).
    assert (E : name = k) by tauto. subst k.
    rewrite bytes_eqb_false by assumption.
    rewrite (proj2 (bytes_eqb_true name name)) by reflexivity.
    rewrite (value_of_overlay _ buf pre post Hp1 eq_refl Hpre).
    eexists. split; [reflexivity|]. exact Hc1.
  - rewrite text_of_cons in Hrest.
    inversion Hpl as [|? ? Hp1 Hp2]; subst. inversion Hsp as [|? ? Hs1 Hs2]; subst.
    destruct (fgets_line f buf _ _ Hrest Hp1) as (f1 & -> & Hr1 & Hc1).
    assert (Hb : wide m l \/ binv m buf) by tauto.
    destruct (key_two m l buf name Hp1 Hs1 Hb Hname) as (k & Ek & Hk1 & Hk2).
    rewrite Ek.
    assert (N1 : k <> ID_NAME) by (intros E; apply Hnid1; apply Hk2; auto).
    assert (N2 : k <> name) by (intros E; apply Hnk; apply Hk1; auto).
    rewrite bytes_eqb_false by assumption.
    rewrite bytes_eqb_false by auto.
    destruct (IH Hp2 Hs2 Hgt Htail fuel f1 (overlay (l ++ [NL]) buf) Hr1) as (f2 & E2 & Hc2).
    + cbn in Hfuel. lia.
    + assert (Hbi := binv_step m l buf Hs1 Hb).
      destruct ls as [|l2 ls]; right; [exists k; auto|].
      split; [assumption|]. exists k; auto.
    + exists f2. split; [exact E2|]. congruence.
  - unfold text_of in Hrest. cbn in Hrest.
    destruct Htail as [->|[Hpt Hwt]]; [destruct pre; discriminate|].
    destruct Hgt as (HtNL & Htlen).
    destruct (fgets_tail f buf) as (f1 & -> & Hc1); try (rewrite Hrest; assumption).
    rewrite Hrest.
    destruct (key_of_tail m t buf name Hpt Hwt Hname) as (k & -> & Hk1).
    assert (E : name = k) by tauto. subst k.
    rewrite bytes_eqb_false by assumption.
    rewrite (proj2 (bytes_eqb_true name name)) by reflexivity.
    rewrite (value_of_tail t buf pre post Hpt Ht Hpre).
    eexists. split; [reflexivity|]. exact Hc1.
  - unfold text_of in Hrest. cbn in Hrest. destruct Hgt as (HtNL & Htlen).
    destruct (fgets_tail f buf) as (f1 & -> & Hc1); try (rewrite Hrest; assumption).
    rewrite Hrest.
    destruct Htail as [->|[Hpt Hwt]].
    + destruct Hbuf as [Hbuf|(k & Ek & N1 & N2)]; [congruence|].
      cbn [overlay]. rewrite Ek.
      rewrite bytes_eqb_false by assumption.
      rewrite bytes_eqb_false by auto.
      eexists. split; [reflexivity|]. exact Hc1.
    + destruct (key_of_tail m t buf name Hpt Hwt Hname) as (k & -> & Hk1).
      destruct (bytes_eqb k ID_NAME).
      * eexists. split; [reflexivity|]. exact Hc1.
      * rewrite bytes_eqb_false by (intros E; apply Hnk; apply Hk1; exact E).
        eexists. split; [reflexivity|]. exact Hc1.
Qed.

Lemma mat_find_spec : forall name, good_name name -> name <> ID_NAME ->
  forall m p lines tail r, phase_value name p lines tail r ->
  Forall plain lines -> Forall (spaced m) lines ->
  good_tail tail -> (tail = [] \/ (plain tail /\ wide m tail)) ->
  first_after_id m lines tail ->
  forall fuel idv f buf,
  rest f = text_of lines tail -> length lines < fuel ->
  (match lines with [] => True | l :: _ => wide m l \/ binv m buf end) ->
  exists f1, mat_find fuel name p idv f buf = (Val r, f1) /\ content f1 = content f.
Proof.
  intros name Hname Hnid m p lines tail r Hpv.
  induction Hpv as [l ls t r Hnk Hpv IH|l ls t r z Hz Hzp Hpv IH|l ls t r Hz Hbv];
    intros Hpl Hsp Hgt Htail Hfa fuel idv f buf Hrest Hfuel Hbuf;
    destruct fuel as [|fuel]; try (cbn in Hfuel; lia); cbn [mat_find];
    rewrite text_of_cons in Hrest;
    inversion Hpl as [|? ? Hp1 Hp2]; subst; inversion Hsp as [|? ? Hs1 Hs2]; subst;
    destruct (fgets_line f buf _ _ Hrest Hp1) as (f1 & -> & Hr1 & Hc1);
    destruct (key_of_overlay m _ buf ID_NAME Hp1 Hs1 Hbuf ID_good) as (k & -> & Hk);
    assert (Hbi := binv_step m l buf Hs1 Hbuf);
    destruct Hfa as [Hfa1 Hfa2].
  - rewrite bytes_eqb_false by (intros E; apply Hnk; apply Hk; exact E).
    destruct (IH Hp2 Hs2 Hgt Htail Hfa2 fuel idv f1 (overlay (l ++ [NL]) buf) Hr1) as (f2 & E2 & Hc2).
    + cbn in Hfuel. lia.
    + destruct ls; auto.
    + exists f2. split; [exact E2|congruence].
  - inversion Hz as [pre post Hk0 Hl Hpre Hat].
    rewrite (proj2 (bytes_eqb_true _ _)) by tauto.
    rewrite (value_of_overlay l buf pre post Hp1 Hl Hpre).
    rewrite Hat.
    destruct (Z.eqb_spec z p) as [E|E]; [contradiction|].
    destruct (IH Hp2 Hs2 Hgt Htail Hfa2 fuel (Some z) f1 (overlay (l ++ [NL]) buf) Hr1) as (f2 & E2 & Hc2).
    + cbn in Hfuel. lia.
    + destruct ls; auto.
    + exists f2. split; [exact E2|congruence].
  - inversion Hz as [pre post Hk0 Hl Hpre Hat].
    rewrite (proj2 (bytes_eqb_true _ _)) by tauto.
    rewrite (value_of_overlay l buf pre post Hp1 Hl Hpre).
    rewrite Hat. rewrite Z.eqb_refl.
    specialize (Hfa1 Hk0).
    destruct (mat_block_spec name Hname Hnid m ls t r Hbv Hp2 Hs2 Hgt Htail
                (S (length (content f1))) f1 (uninit BUFMAX) Hr1) as (f2 & E2 & Hc2).
    + assert (Hlen : length (rest f1) <= length (content f1)).
      { unfold rest. rewrite skipn_length. lia. }
      rewrite Hr1 in Hlen. pose proof (text_of_length ls t). lia.
    + destruct ls as [|l2 ls]; left; assumption.
    + exists f2. split; [exact E2|congruence].
Qed.

Lemma ReadMatProps_spec : forall V (atof : list byte -> V) name m p lines tail r d q,
  good_name name -> name <> ID_NAME -> mat_file m lines tail ->
  phase_value name p lines tail r ->
  fst (ReadMatProps atof (mkfile (text_of lines tail) q) name p d) =
  Val (match r with Some t => atof t | None => d end).
Proof.
  intros V atof name m p lines tail r d q Hn Hnid ((Hpl & Hsp & Hgt & Hw) & Hfa & Ht) Hpv.
  unfold ReadMatProps.
  destruct (mat_find_spec name Hn Hnid m p lines tail r Hpv Hpl Hsp Hgt Ht Hfa
     (S (length (text_of lines tail))) None
     (rewind (mkfile (text_of lines tail) q)) (uninit BUFMAX)) as (f1 & E & Hc).
  - reflexivity.
  - pose proof (text_of_length lines tail). lia.
  - destruct lines; auto.
  - cbn [content]. rewrite E. reflexivity.
Qed.

Lemma mat_find_missing : forall name m p lines tail,
  no_phase p lines ->
  Forall plain lines -> Forall (spaced m) lines -> good_tail tail ->
  forall fuel idv f buf,
  rest f = text_of lines tail -> length lines < fuel ->
  (match lines with [] => True | l :: _ => wide m l \/ binv m buf end) ->
  exists f1, mat_find fuel name p idv f buf = (Stop, f1).
Proof.
  intros name m p lines tail Hno.
  induction Hno as [|l ls Hnk Hno IH|l ls z Hz Hzp Hno IH];
    intros Hpl Hsp Hgt fuel idv f buf Hrest Hfuel Hbuf;
    destruct fuel as [|fuel]; try (cbn in Hfuel; lia); cbn [mat_find].
  - unfold text_of in Hrest. cbn in Hrest. destruct Hgt as (HtNL & Htlen).
    destruct (fgets_tail f buf) as (f1 & -> & Hc1); try (rewrite Hrest; assumption).
    eexists; reflexivity.
  - rewrite text_of_cons in Hrest.
    inversion Hpl as [|? ? Hp1 Hp2]; subst. inversion Hsp as [|? ? Hs1 Hs2]; subst.
    destruct (fgets_line f buf _ _ Hrest Hp1) as (f1 & -> & Hr1 & Hc1).
    destruct (key_of_overlay m _ buf ID_NAME Hp1 Hs1 Hbuf ID_good) as (k & -> & Hk).
    assert (Hbi := binv_step m l buf Hs1 Hbuf).
    rewrite bytes_eqb_false by (intros E; apply Hnk; apply Hk; exact E).
    apply IH; auto. cbn in Hfuel; lia. destruct ls; auto.
  - rewrite text_of_cons in Hrest.
    inversion Hpl as [|? ? Hp1 Hp2]; subst. inversion Hsp as [|? ? Hs1 Hs2]; subst.
    destruct (fgets_line f buf _ _ Hrest Hp1) as (f1 & -> & Hr1 & Hc1).
    destruct (key_of_overlay m _ buf ID_NAME Hp1 Hs1 Hbuf ID_good) as (k & -> & Hk).
    assert (Hbi := binv_step m l buf Hs1 Hbuf).
    inversion Hz as [pre post Hk0 Hl Hpre Hat].
    rewrite (proj2 (bytes_eqb_true _ _)) by tauto.
    rewrite (value_of_overlay l buf pre post Hp1 Hl Hpre).
    rewrite Hat.
    destruct (Z.eqb_spec z p) as [E|E]; [contradiction|].
    apply IH; auto. cbn in Hfuel; lia. destruct ls; auto.
Qed.

Lemma ReadMatProps_missing : forall V (atof : list byte -> V) name m p lines tail d q,
  well_formed m lines tail -> no_phase p lines ->
  fst (ReadMatProps atof (mkfile (text_of lines tail) q) name p d) = Stop.
Proof.
  intros V atof name m p lines tail d q (Hpl & Hsp & Hgt & Hw) Hno.
  unfold ReadMatProps.
  destruct (mat_find_missing name m p lines tail Hno Hpl Hsp Hgt
     (S (length (text_of lines tail))) None
     (rewind (mkfile (text_of lines tail) q)) (uninit BUFMAX)) as (f1 & E).
  - reflexivity.
  - pose proof (text_of_length lines tail). lia.
  - destruct lines; auto.
  - cbn [content]. rewrite E. reflexivity.
Qed.

(** ** Sequences of lookups *)

(* one call of any of the readers *)
Inductive call :=
| CInt  (name : list byte)
| CMat  (name : list byte) (p : Z)
| CChar (name default : list byte).

Definition do_call (f : file) (c : call) : file :=
  match c with
  | CInt n => snd (ReadInt2 f n 0%Z)
  | CMat n p => snd (ReadMatProps (fun t => t) f n p [])
  | CChar n d => snd (ReadChar f n d)
  end.

Lemma fgets_content : forall n f b b1 e f1, fgets n f b = (b1, e, f1) -> content f1 = content f.
Proof.
  intros n f b b1 e f1 H. unfold fgets in H. destruct (getline n (rest f)).
  inversion H. reflexivity.
Qed.

Lemma read_loop_content : forall fuel name f buf,
  content (snd (read_loop fuel name f buf)) = content f.
Proof.
  induction fuel as [|fuel IH]; intros name f buf; [reflexivity|]. cbn [read_loop].
  destruct (fgets (BUFMAX - 1) f buf) as [[b1 e] f1] eqn:E.
  apply fgets_content in E. rewrite <- E.
  destruct e; [reflexivity|].
  destruct (line_key b1) as [k|]; [|reflexivity].
  destruct (bytes_eqb name k).
  - destruct (value_text b1); try reflexivity. apply IH.
  - apply IH.
Qed.

Lemma mat_block_content : forall fuel name f buf,
  content (snd (mat_block fuel name f buf)) = content f.
Proof.
  induction fuel as [|fuel IH]; intros name f buf; [reflexivity|]. cbn [mat_block].
  destruct (fgets (BUFMAX - 1) f buf) as [[b1 e] f1] eqn:E.
  apply fgets_content in E. rewrite <- E.
  destruct (line_key b1) as [k|]; [|reflexivity].
  destruct (bytes_eqb k ID_NAME); [reflexivity|].
  destruct (bytes_eqb name k).
  - destruct (value_text b1); reflexivity.
  - destruct e; [reflexivity|]. apply IH.
Qed.

Lemma mat_find_content : forall fuel name p idv f buf,
  content (snd (mat_find fuel name p idv f buf)) = content f.
Proof.
  induction fuel as [|fuel IH]; intros name p idv f buf; [reflexivity|]. cbn [mat_find].
  destruct (fgets (BUFMAX - 1) f buf) as [[b1 e] f1] eqn:E.
  apply fgets_content in E. rewrite <- E.
  destruct e; [reflexivity|].
  destruct (line_key b1) as [k|]; [|reflexivity].
  destruct (bytes_eqb ID_NAME k).
  - destruct (value_text b1) as [t| |]; cbn [snd]; try reflexivity.
    + destruct (atoi t =? p)%Z; [apply mat_block_content|apply IH].
    + destruct idv as [z|]; [|reflexivity].
      destruct (z =? p)%Z; [apply mat_block_content|apply IH].
  - apply IH.
Qed.

Lemma char_loop_content : forall fuel name d f buf,
  content (snd (char_loop fuel name d f buf)) = content f.
Proof.
  induction fuel as [|fuel IH]; intros name d f buf; [reflexivity|]. cbn [char_loop].
  destruct (fgets (BUFCHAR - 1) f buf) as [[b1 e] f1] eqn:E.
  apply fgets_content in E. rewrite <- E.
  destruct e; [reflexivity|].
  destruct (take_bytes (length name) b1) as [p2|]; [|reflexivity].
  destruct (bytes_eqb name (cutnul p2)).
  - destruct (cstring b1) as [[|? ?]|]; try reflexivity.
    destruct (search_for EQS b1); try reflexivity.
    destruct (copy_value 30 (skipn (h + 2) b1)) as [[s tm]|]; [|reflexivity].
    destruct (tm || existsb (Ascii.eqb NUL) s); reflexivity.
  - apply IH.
Qed.

Lemma do_call_content : forall f c, content (do_call f c) = content f.
Proof.
  intros f c. destruct c as [n|n p|n d]; cbn [do_call].
  - unfold ReadInt2, read_param.
    pose proof (read_loop_content (S (length (content f))) n (rewind f) (uninit BUFMAX)) as H.
    destruct (read_loop _ _ _ _) as [o f']. exact H.
  - unfold ReadMatProps.
    pose proof (mat_find_content (S (length (content f))) n p None (rewind f) (uninit BUFMAX)) as H.
    destruct (mat_find _ _ _ _ _ _) as [o f']. exact H.
  - apply char_loop_content.
Qed.

Lemma calls_content : forall cs f, content (fold_left do_call cs f) = content f.
Proof.
  induction cs as [|c cs IH]; intros f; [reflexivity|]. cbn.
  rewrite IH. apply do_call_content.
Qed.

Lemma read_param_pos : forall name c p q,
  read_param name (mkfile c p) = read_param name (mkfile c q).
Proof. reflexivity. Qed.

Lemma lookup_after_calls : forall V (atof : list byte -> V) cs f name d,
  ReadDou2 atof (fold_left do_call cs f) name d = ReadDou2 atof f name d.
Proof.
  intros V atof cs f name d. unfold ReadDou2.
  pose proof (calls_content cs f) as H.
  destruct (fold_left do_call cs f) as [c p]. destruct f as [c0 p0]. cbn in H. subst c0.
  rewrite (read_param_pos name c p p0). reflexivity.
Qed.

Lemma int_lookup_after_calls : forall cs f name d,
  ReadInt2 (fold_left do_call cs f) name d = ReadInt2 f name d.
Proof.
  intros cs f name d. unfold ReadInt2.
  pose proof (calls_content cs f) as H.
  destruct (fold_left do_call cs f) as [c p]. destruct f as [c0 p0]. cbn in H. subst c0.
  rewrite (read_param_pos name c p p0). reflexivity.
Qed.

Lemma mat_after_calls : forall V (atof : list byte -> V) cs f name p d,
  ReadMatProps atof (fold_left do_call cs f) name p d = ReadMatProps atof f name p d.
Proof.
  intros V atof cs f name p d. unfold ReadMatProps.
  pose proof (calls_content cs f) as H.
  destruct (fold_left do_call cs f) as [c q]. destruct f as [c0 q0]. cbn in H. subst c0.
  reflexivity.
Qed.

(** the header line of the phase is the very last line of the file *)
Inductive last_header (p : Z) : list line -> Prop :=
| lh_here : forall l, id_line l p -> last_header p [l]
| lh_skip : forall l ls, ~ has_key ID_NAME l -> last_header p ls -> last_header p (l :: ls)
| lh_other : forall l ls z, id_line l z -> z <> p -> last_header p ls -> last_header p (l :: ls).

Lemma mat_find_last_header : forall name m p lines,
  last_header p lines -> Forall plain lines -> Forall (spaced m) lines ->
  forall fuel idv f buf,
  rest f = text_of lines [] -> length lines < fuel ->
  (match lines with [] => True | l :: _ => wide m l \/ binv m buf end) ->
  exists f1, mat_find fuel name p idv f buf = (UB, f1).
Proof.
  intros name m p lines Hlh.
  induction Hlh as [l Hz|l ls Hnk Hno IH|l ls z Hz Hzp Hno IH];
    intros Hpl Hsp fuel idv f buf Hrest Hfuel Hbuf;
    destruct fuel as [|fuel]; try (cbn in Hfuel; lia); cbn [mat_find];
    rewrite text_of_cons in Hrest;
    inversion Hpl as [|? ? Hp1 Hp2]; subst; inversion Hsp as [|? ? Hs1 Hs2]; subst;
    destruct (fgets_line f buf _ _ Hrest Hp1) as (f1 & -> & Hr1 & Hc1);
    destruct (key_of_overlay m _ buf ID_NAME Hp1 Hs1 Hbuf ID_good) as (k & -> & Hk);
    assert (Hbi := binv_step m l buf Hs1 Hbuf).
  - inversion Hz as [pre post Hk0 Hl Hpre Hat].
    rewrite (proj2 (bytes_eqb_true _ _)) by tauto.
    rewrite (value_of_overlay l buf pre post Hp1 Hl Hpre).
    rewrite Hat, Z.eqb_refl. cbn [mat_block].
    destruct (fgets_tail f1 (uninit BUFMAX)) as (f2 & -> & Hc2).
    { rewrite Hr1. intros []. }
    { rewrite Hr1. cbn. lia. }
    rewrite Hr1. change (text_of [] []) with (@nil byte). cbn [overlay].
    assert (E : line_key (uninit BUFMAX) = None) by (rewrite BUFMAX_val; reflexivity).
    rewrite E. eexists; reflexivity.
  - rewrite bytes_eqb_false by (intros E; apply Hnk; apply Hk; exact E).
    apply IH; auto. cbn in Hfuel; lia. destruct ls; auto.
  - inversion Hz as [pre post Hk0 Hl Hpre Hat].
    rewrite (proj2 (bytes_eqb_true _ _)) by tauto.
    rewrite (value_of_overlay l buf pre post Hp1 Hl Hpre).
    rewrite Hat.
    destruct (Z.eqb_spec z p) as [E|E]; [contradiction|].
    apply IH; auto. cbn in Hfuel; lia. destruct ls; auto.
Qed.

Lemma ReadMatProps_last_header : forall V (atof : list byte -> V) name m p lines d q,
  well_formed m lines [] -> last_header p lines ->
  fst (ReadMatProps atof (mkfile (text_of lines []) q) name p d) = UB.
Proof.
  intros V atof name m p lines d q (Hpl & Hsp & Hgt & Hw) Hlh.
  unfold ReadMatProps.
  destruct (mat_find_last_header name m p lines Hlh Hpl Hsp
     (S (length (text_of lines []))) None
     (rewind (mkfile (text_of lines []) q)) (uninit BUFMAX)) as (f1 & E).
  - reflexivity.
  - pose proof (text_of_length lines []). lia.
  - destruct lines; auto.
  - cbn [content]. rewrite E. reflexivity.
Qed.

(* values defined in other blocks or before the first block never matter:
   the result is determined by the header scan and the phase's own block *)
Lemma block_value_own : forall name lines t r,
  block_value name lines t r ->
  forall own nxt others, lines = own ++ nxt :: others ->
  (forall l, In l own -> ~ has_key ID_NAME l) -> has_key ID_NAME nxt ->
  name <> ID_NAME -> ~ In SP name ->
  forall others' t', block_value name (own ++ nxt :: others') t' r.
Proof.
  intros name lines t r H.
  induction H as [l ls t Hid|l ls t pre post Hk Hl Hpre|l ls t r Hnid Hnk Hbv IH
                 |t pre post Hk Ht Hpre|t Hnk];
    intros own nxt others E Hown Hn Hne Hsp others' t'.
  - destruct own as [|o own]; cbn in E; inversion E; subst; cbn.
    + apply bv_next; assumption.
    + exfalso. apply (Hown o); [left; reflexivity|assumption].
  - destruct own as [|o own]; cbn in E; inversion E; subst; cbn.
    + exfalso. apply Hne. apply (has_key_unique name ID_NAME (pre ++ EQS :: post)); auto.
      apply ID_good.
    + eapply bv_hit; eauto.
  - destruct own as [|o own]; cbn in E; inversion E; subst; cbn.
    + contradiction.
    + apply bv_skip; auto. eapply IH; eauto. intros l Hl. apply Hown. right; exact Hl.
  - destruct own; discriminate.
  - destruct own; discriminate.
Qed.
