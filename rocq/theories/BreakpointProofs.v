(** Lemmas about checkpoint files. *)
From Coq Require Import List Arith Bool String Lia.
From Coq Require Import Init.Byte.
From Verif Require Import BreakpointModel.
Import ListNotations.
Open Scope string_scope.
Open Scope list_scope.

(** ** Memory *)
Lemma fid_eqb_eq : forall a b, fid_eqb a b = true <-> a = b.
Proof.
  intros [s n] [t k]. unfold fid_eqb. cbn. rewrite andb_true_iff, String.eqb_eq, Nat.eqb_eq.
  split; [intros [? ?]; subst; reflexivity | intros E; inversion E; auto].
Qed.

Lemma fid_eqb_neq : forall a b, fid_eqb a b = false <-> a <> b.
Proof.
  intros a b. destruct (fid_eqb a b) eqn:E; split; intros H; try discriminate; try reflexivity.
  - apply fid_eqb_eq in E. contradiction.
  - intros Hab. apply fid_eqb_eq in Hab. congruence.
Qed.

Lemma fid_dec : forall a b : fid, {a = b} + {a <> b}.
Proof.
  intros a b. destruct (fid_eqb a b) eqn:E; [left; apply fid_eqb_eq|right; apply fid_eqb_neq]; assumption.
Qed.

Lemma upd_same : forall m f v, upd m f v f = v.
Proof. intros. unfold upd. replace (fid_eqb f f) with true; [reflexivity|]. symmetry. apply fid_eqb_eq. reflexivity. Qed.

Lemma upd_other : forall m f v g, f <> g -> upd m f v g = m g.
Proof. intros m f v g H. unfold upd. apply fid_eqb_neq in H. rewrite H. reflexivity. Qed.

(** ** Generic round trip of a statement list, with renaming of targets *)
Definition rn (f : fid) : fid :=
  if fid_eqb f ("mesh->sxxd0", 0) then ("mesh->sxxd", 0)
  else if fid_eqb f ("mesh->szzd0", 0) then ("mesh->szzd", 0)
  else if fid_eqb f ("mesh->sxz0", 0) then ("mesh->sxz", 0)
  else f.
Definition ren (i : item) : item := mkitem (rn (i_name i)) (i_size i) (i_count i).

Definition deps (i : item) : list string :=
  match i_size i with SzVar v => [v] | SzLit _ => [] end ++
  match i_count i with nb f => [f] | _ => [] end.

Definition is_int (i : item) : bool :=
  match i_size i, i_count i with
  | SzVar v, one => (v =? "s1")%string && (snd (i_name i) =? 0)%nat
  | _, _ => false
  end.
Definition add_known (i : item) (known : list string) : list string :=
  if is_int i then fst (i_name i) :: known else known.

Definition smem (s : string) (l : list string) : bool := existsb (String.eqb s) l.
Lemma smem_In : forall s l, smem s l = true <-> In s l.
Proof.
  intros s l. unfold smem. rewrite existsb_exists. split.
  - intros (x & H & E). apply String.eqb_eq in E. subst. assumption.
  - intros H. exists s. split; [assumption|apply String.eqb_refl].
Qed.

Fixpoint wf (known : list string) (l : list item) : bool :=
  match l with
  | [] => true
  | i :: r => forallb (fun d => smem d known) (deps i) &&
              (if is_int i then fid_eqb (rn (i_name i)) (i_name i) else true) &&
              wf (add_known i known) r
  end.

Definition targets (l : list item) : list fid := map (fun i => rn (i_name i)) l.

Lemma bytes_of_agree : forall c known wm lm i,
  forallb (fun d => smem d known) (deps i) = true ->
  (forall v, In v known -> int_of lm v = int_of wm v) ->
  bytes_of c lm (ren i) = bytes_of c wm i.
Proof.
  intros c known wm lm [f s n] Hd Hk. unfold bytes_of, ren, deps in *. cbn in *.
  rewrite forallb_app in Hd. apply andb_true_iff in Hd. destruct Hd as [Hs Hn].
  f_equal.
  - destruct s as [k|v]; cbn in *; [reflexivity|].
    rewrite andb_true_r in Hs. apply smem_In in Hs. auto.
  - destruct n; cbn in *; try reflexivity.
    rewrite andb_true_r in Hn. apply smem_In in Hn. auto.
Qed.

Lemma firstn_app_exact : forall A (a b : list A) n, List.length a = n -> firstn n (a ++ b) = a.
Proof.
  intros A a b n H. subst n. rewrite firstn_app, firstn_all, Nat.sub_diag. cbn.
  apply app_nil_r.
Qed.
Lemma skipn_app_exact : forall A (a b : list A) n, List.length a = n -> skipn n (a ++ b) = b.
Proof.
  intros A a b n H. subst n. rewrite skipn_app, skipn_all, Nat.sub_diag. reflexivity.
Qed.

Lemma roundtrip : forall c wm, int_of wm "s1" = 4 -> forall l known lm rest bytes,
  wf known l = true ->
  NoDup (targets l) ->
  (forall v, In v known -> ~ In (v, 0) (targets l)) ->
  (forall v, In v known -> int_of lm v = int_of wm v) ->
  (forall i, In i l -> bytes_of c wm i <= List.length (lm (rn (i_name i)))) ->
  fwrite_all c wm l = Some bytes ->
  exists lm', fread_all c lm (bytes ++ rest) (map ren l) = Some (lm', rest) /\
    (forall i, In i l -> lm' (rn (i_name i)) =
       firstn (bytes_of c wm i) (wm (i_name i)) ++
       skipn (bytes_of c wm i) (lm (rn (i_name i)))) /\
    (forall f, ~ In f (targets l) -> lm' f = lm f).
Proof.
  intros c wm Hs1. induction l as [|i r IH]; intros known lm rest bytes Hwf Hnd Hk Hag Hcap Hw.
  - cbn in Hw. inversion Hw; subst. exists lm. cbn. repeat split; auto. intros i [].
  - cbn [wf] in Hwf. apply andb_true_iff in Hwf. destruct Hwf as [Hwf Hwfr].
    apply andb_true_iff in Hwf. destruct Hwf as [Hdeps Hint].
    cbn [fwrite_all] in Hw. unfold fwrite in Hw.
    set (n := bytes_of c wm i) in *.
    destruct (n <=? List.length (wm (i_name i)))%nat eqn:En; [|discriminate].
    apply Nat.leb_le in En.
    destruct (fwrite_all c wm r) as [b|] eqn:Eb; [|discriminate].
    inversion Hw; subst bytes. clear Hw.
    set (a := firstn n (wm (i_name i))) in *.
    assert (La : List.length a = n) by (unfold a; rewrite firstn_length; lia).
    cbn [map fread_all]. unfold fread.
    rewrite (bytes_of_agree c known wm lm i Hdeps Hag). fold n.
    rewrite <- app_assoc. rewrite (firstn_app_exact _ a _ n La), (skipn_app_exact _ a _ n La).
    cbn [ren i_name]. rewrite La.
    assert (Hc : n <= List.length (lm (rn (i_name i)))) by (apply Hcap; left; reflexivity).
    apply Nat.leb_le in Hc. rewrite Hc. apply Nat.leb_le in Hc.
    inversion Hnd as [|? ? Hni Hnd']; subst.
    set (lm1 := upd lm (rn (i_name i)) (a ++ skipn n (lm (rn (i_name i))))) in *.
    destruct (IH (add_known i known) lm1 rest b) as (lm' & Er & Hd & Hfr); auto.
    + intros v Hv. unfold add_known in Hv. destruct (is_int i) eqn:Ei.
      * destruct Hv as [Hv|Hv].
        -- subst v. apply fid_eqb_eq in Hint.
           assert (E0 : (fst (i_name i), 0) = rn (i_name i)).
           { rewrite Hint. unfold is_int in Ei. destruct i as [[f k] s cn]; cbn in *.
             destruct s; [discriminate|]. destruct cn; try discriminate.
             apply andb_true_iff in Ei. destruct Ei as [_ Ek]. apply Nat.eqb_eq in Ek.
             subst k. reflexivity. }
           rewrite E0. exact Hni.
        -- intros Hin. apply (Hk v Hv). right. exact Hin.
      * intros Hin. apply (Hk v Hv). right. exact Hin.
    + intros v Hv.
      assert (Hold : In v known -> int_of lm1 v = int_of wm v).
      { intros Hvk. unfold int_of, lm1. rewrite upd_other; [apply Hag; assumption|].
        intros E. apply (Hk v Hvk). left. exact E. }
      unfold add_known in Hv. destruct (is_int i) eqn:Ei; [|auto].
      destruct Hv as [Hv|Hv]; [|auto]. subst v.
      apply fid_eqb_eq in Hint.
      unfold is_int in Ei.
      assert (E0 : (fst (i_name i), 0) = i_name i /\ n = 4).
      { unfold n, bytes_of. destruct i as [[f k] s cn]; cbn in *.
        destruct s as [|v]; [discriminate|]. destruct cn; try discriminate.
        apply andb_true_iff in Ei. destruct Ei as [Ev Ek]. apply Nat.eqb_eq in Ek.
        apply String.eqb_eq in Ev. subst k v. cbn. split; [reflexivity|]. rewrite Hs1. reflexivity. }
      destruct E0 as [E0 En4]. unfold int_of, lm1. rewrite E0. rewrite Hint. rewrite upd_same.
      f_equal. rewrite <- En4. rewrite (firstn_app_exact _ a _ n La). reflexivity.
    + intros j Hj. unfold lm1. destruct (fid_dec (rn (i_name i)) (rn (i_name j))) as [E|E].
      * exfalso. apply Hni. rewrite E. unfold targets. apply in_map_iff. exists j. auto.
      * rewrite upd_other by assumption. apply Hcap. right. assumption.
    + exists lm'. split; [exact Er|]. split.
      * intros j [Hj|Hj].
        -- subst j. rewrite Hfr by exact Hni. unfold lm1. rewrite upd_same. reflexivity.
        -- rewrite (Hd j Hj). f_equal. unfold lm1.
           destruct (fid_dec (rn (i_name i)) (rn (i_name j))) as [E|E].
           ++ exfalso. apply Hni. rewrite E. unfold targets. apply in_map_iff. exists j. auto.
           ++ rewrite upd_other by assumption. reflexivity.
      * intros f Hf. rewrite Hfr.
        -- unfold lm1. apply upd_other. intros E. apply Hf. left. exact E.
        -- intros Hin. apply Hf. right. exact Hin.
Qed.

Lemma fread_all_app : forall c l1 l2 m f,
  fread_all c m f (l1 ++ l2) =
  match fread_all c m f l1 with Some (m', f') => fread_all c m' f' l2 | None => None end.
Proof.
  intros c l1. induction l1 as [|i r IH]; intros l2 m f; [reflexivity|].
  cbn [app fread_all]. destruct (fread c m f i) as [[m' f']|]; [apply IH|reflexivity].
Qed.

Lemma fwrite_all_app : forall c m l1 l2,
  fwrite_all c m (l1 ++ l2) =
  match fwrite_all c m l1, fwrite_all c m l2 with
  | Some a, Some b => Some (a ++ b) | _, _ => None end.
Proof.
  intros c m l1. induction l1 as [|i r IH]; intros l2.
  - cbn. destruct (fwrite_all c m l2); reflexivity.
  - cbn [app fwrite_all]. rewrite IH. destruct (fwrite c m i); [|reflexivity].
    destruct (fwrite_all c m r); [|reflexivity]. destruct (fwrite_all c m l2); [|reflexivity].
    rewrite app_assoc. reflexivity.
Qed.

(** ** Scaling loops *)
Fixpoint slook (f : fid) (l : list scl) : option (count * unit_) :=
  match l with
  | [] => None
  | s :: r => if fid_eqb (s_name s) f then Some (s_count s, s_unit s) else slook f r
  end.

Definition scaled_as op (c : cfg) (m : mem) (f : fid) (o : option (count * unit_)) : list byte :=
  match o with
  | Some (n, u) => map_words (count_val c m n) (op u) (m f)
  | None => m f
  end.

Definition fmem (f : fid) (l : list fid) : bool := existsb (fid_eqb f) l.
Lemma fmem_In : forall f l, fmem f l = true <-> In f l.
Proof.
  intros f l. unfold fmem. rewrite existsb_exists. split.
  - intros (x & H & E). apply fid_eqb_eq in E. subst. assumption.
  - intros H. exists f. split; [assumption|apply fid_eqb_eq; reflexivity].
Qed.
Lemma fmem_not_In : forall f l, fmem f l = false <-> ~ In f l.
Proof.
  intros f l. rewrite <- fmem_In. destruct (fmem f l); split; intros; try discriminate; auto.
  contradiction H. reflexivity.
Qed.

Fixpoint nodupb (l : list fid) : bool :=
  match l with [] => true | f :: r => negb (fmem f r) && nodupb r end.
Lemma nodupb_NoDup : forall l, nodupb l = true -> NoDup l.
Proof.
  induction l as [|f r IH]; intros H; constructor; cbn in H; apply andb_true_iff in H;
    destruct H as [H1 H2]; [|auto].
  apply negb_true_iff in H1. apply fmem_not_In in H1. assumption.
Qed.

Definition counts_free (names : list fid) (l : list scl) : bool :=
  forallb (fun s => match s_count s with nb g => negb (fmem (g, 0) names) | _ => true end) l.

Lemma count_val_agree : forall c m m' n,
  (forall g, n = nb g -> m' (g, 0) = m (g, 0)) -> count_val c m' n = count_val c m n.
Proof.
  intros c m m' n H. destruct n; cbn; try reflexivity. unfold int_of. rewrite (H f); reflexivity.
Qed.

Lemma slook_notin : forall f l, ~ In f (map s_name l) -> slook f l = None.
Proof.
  intros f l. induction l as [|s r IH]; intros H; [reflexivity|]. cbn in *.
  destruct (fid_eqb (s_name s) f) eqn:E.
  - apply fid_eqb_eq in E. tauto.
  - apply IH. tauto.
Qed.

Lemma scale_all_spec : forall op c l names m,
  NoDup (map s_name l) -> incl (map s_name l) names -> counts_free names l = true ->
  forall f, scale_all op c m l f = scaled_as op c m f (slook f l).
Proof.
  intros op c l. induction l as [|s r IH]; intros names m Hnd Hin Hc f.
  - reflexivity.
  - cbn [map] in Hnd, Hin. inversion Hnd as [|? ? Hni Hnd']; subst.
    assert (Hin' : incl (map s_name r) names) by (intros x Hx; apply Hin; right; assumption).
    cbn [counts_free forallb] in Hc. apply andb_true_iff in Hc. destruct Hc as [Hc1 Hc2].
    unfold scale_all. cbn [fold_left]. fold (scale_all op c (scale1 op c m s) r).
    rewrite (IH names _ Hnd' Hin' Hc2).
    cbn [slook]. destruct (fid_eqb (s_name s) f) eqn:E.
    + apply fid_eqb_eq in E. subst f. rewrite slook_notin by assumption.
      cbn [scaled_as]. unfold scale1. rewrite upd_same. reflexivity.
    + apply fid_eqb_neq in E.
      destruct (slook f r) as [[n u]|] eqn:El; cbn [scaled_as].
      * unfold scale1 at 2. rewrite upd_other by assumption. f_equal.
        apply count_val_agree. intros g Hg. unfold scale1. apply upd_other.
        intros E2.
        assert (Hex : exists s', In s' r /\ s_count s' = n).
        { clear - El. induction r as [|s' r IHr]; [discriminate|]. cbn in El.
          destruct (fid_eqb (s_name s') f).
          - inversion El; subst. exists s'. split; [left; reflexivity|reflexivity].
          - destruct (IHr El) as (x & Hx & Ex). exists x. split; [right; assumption|assumption]. }
        destruct Hex as (s' & Hs' & Es'). unfold counts_free in Hc2. rewrite forallb_forall in Hc2.
        specialize (Hc2 s' Hs'). rewrite Es', Hg in Hc2. apply negb_true_iff in Hc2.
        apply fmem_not_In in Hc2. apply Hc2. rewrite <- E2. apply Hin. left. reflexivity.
      * unfold scale1. apply upd_other. assumption.
Qed.

(** ** Word maps *)
Definition keeps8 (g : list byte -> list byte) : Prop :=
  forall w, List.length w = 8 -> List.length (g w) = 8.

Lemma map_words_length : forall k g l, keeps8 g -> 8 * k <= List.length l ->
  List.length (map_words k g l) = List.length l.
Proof.
  induction k as [|k IH]; intros g l Hg Hl; cbn [map_words]; [reflexivity|].
  rewrite app_length, Hg by (rewrite firstn_length; lia).
  rewrite IH; [rewrite skipn_length; lia|assumption|rewrite skipn_length; lia].
Qed.

Lemma map_words_firstn : forall k g l, keeps8 g -> 8 * k <= List.length l ->
  firstn (8 * k) (map_words k g l) = map_words k g (firstn (8 * k) l).
Proof.
  induction k as [|k IH]; intros g l Hg Hl; [reflexivity|].
  cbn [map_words]. replace (8 * S k) with (8 + 8 * k) by lia.
  assert (L : List.length (g (firstn 8 l)) = 8) by (apply Hg; rewrite firstn_length; lia).
  rewrite firstn_app, L. rewrite firstn_all2 by lia.
  replace (8 + 8 * k - 8) with (8 * k) by lia.
  rewrite IH; [|assumption|rewrite skipn_length; lia].
  f_equal.
  - f_equal. rewrite firstn_firstn. reflexivity.
  - f_equal. rewrite firstn_skipn_comm. reflexivity.
Qed.

Lemma map_words_app : forall k g a b, List.length a = 8 * k ->
  map_words k g (a ++ b) = map_words k g a ++ b.
Proof.
  induction k as [|k IH]; intros g a b Ha.
  - destruct a; [reflexivity|cbn in Ha; lia].
  - cbn [map_words]. rewrite <- app_assoc. f_equal.
    + f_equal. rewrite firstn_app. replace (8 - List.length a) with 0 by lia.
      cbn [firstn]. apply app_nil_r.
    + rewrite <- IH by (rewrite skipn_length; lia). f_equal.
      rewrite skipn_app. replace (8 - List.length a) with 0 by lia. reflexivity.
Qed.

Lemma map_words_comp : forall k g h l, keeps8 h -> 8 * k <= List.length l ->
  map_words k g (map_words k h l) = map_words k (fun w => g (h w)) l.
Proof.
  induction k as [|k IH]; intros g h l Hh Hl; [reflexivity|].
  cbn [map_words].
  assert (L : List.length (h (firstn 8 l)) = 8) by (apply Hh; rewrite firstn_length; lia).
  rewrite (firstn_app_exact _ _ _ 8 L), (skipn_app_exact _ _ _ 8 L).
  f_equal. apply IH; [assumption|rewrite skipn_length; lia].
Qed.

Lemma map_words_id : forall k g l, (forall w, g w = w) -> map_words k g l = l.
Proof.
  induction k as [|k IH]; intros g l Hg; [reflexivity|].
  cbn [map_words]. rewrite Hg, IH by assumption. apply firstn_skipn.
Qed.
