(** Checkpoint files: the concrete statement lists of writer and reader. *)
From Coq Require Import List Arith Bool String Lia.
From Coq Require Import Init.Byte.
From Verif Require Import BreakpointModel BreakpointProofs.
Import ListNotations.
Open Scope string_scope.
Open Scope list_scope.

Ltac flags c := destruct c as [Nx Nz Nt nph [] [] [] [] []].

Definition body (c : cfg) : list item :=
  w_pre c ++ flat_map w_phase (seq 0 (c_nph c)) ++ w_post c ++ w_series c.

Lemma w_items_body : forall c, w_items c = w_header ++ body c.
Proof. reflexivity. Qed.

Lemma phases_match : forall l, flat_map r_phase l = map ren (flat_map w_phase l).
Proof.
  induction l as [|k l IH]; [reflexivity|]. cbn [flat_map]. rewrite map_app, IH. reflexivity.
Qed.

Lemma body_match : forall c,
  r_items c = r_header ++ map ren (body c).
Proof.
  intros c. unfold r_items, body. rewrite !map_app, phases_match.
  f_equal. f_equal. flags c; reflexivity.
Qed.

(* targets *)
Definition plain_targets (c : cfg) : list fid := targets (w_pre c ++ w_post c ++ w_series c).
Lemma plain_nodup : forall c,
  nodupb (("s1",0) :: ("s2",0) :: ("s3",0) :: ("s4",0) :: plain_targets c) = true.
Proof. intros c. flags c; vm_compute; reflexivity. Qed.

Lemma phase_targets : forall l f, In f (targets (flat_map w_phase l)) ->
  exists k, In k l /\ (f = ("mesh->phase_perc_n", k) \/ f = ("mesh->phase_perc_s", k)).
Proof.
  induction l as [|k l IH]; intros f H; [destruct H|].
  cbn [flat_map] in H. unfold targets in H. rewrite map_app in H. apply in_app_or in H.
  destruct H as [H|H].
  - exists k. split; [left; reflexivity|]. cbn in H. destruct H as [H|[H|[]]]; subst f; auto.
  - destruct (IH f H) as (k' & Hk & Hf). exists k'. split; [right; assumption|assumption].
Qed.

Lemma phase_nodup : forall l, NoDup l -> NoDup (targets (flat_map w_phase l)).
Proof.
  induction l as [|k l IH]; intros H; [constructor|].
  inversion H as [|? ? Hk Hl]; subst.
  change (NoDup (("mesh->phase_perc_n", k) :: ("mesh->phase_perc_s", k)
                 :: targets (flat_map w_phase l))).
  constructor; [|constructor].
  - intros [E|E]; [discriminate|]. apply phase_targets in E.
    destruct E as (k' & Hk' & [E|E]); inversion E; subst; contradiction.
  - intros E. apply phase_targets in E.
    destruct E as (k' & Hk' & [E|E]); inversion E; subst; contradiction.
  - auto.
Qed.

Lemma plain_no_phase : forall c k,
  ~ In ("mesh->phase_perc_n", k) (plain_targets c) /\ ~ In ("mesh->phase_perc_s", k) (plain_targets c).
Proof.
  intros c k. split; apply fmem_not_In; flags c; vm_compute; reflexivity.
Qed.

Lemma NoDup_app_intro : forall A (a b : list A),
  NoDup a -> NoDup b -> (forall x, In x a -> ~ In x b) -> NoDup (a ++ b).
Proof.
  induction a as [|x a IH]; intros b Ha Hb Hd; [assumption|].
  inversion Ha; subst. cbn. constructor.
  - intros H. apply in_app_or in H. destruct H; [contradiction|]. apply (Hd x); [left; reflexivity|assumption].
  - apply IH; auto. intros y Hy. apply Hd. right. assumption.
Qed.
Lemma NoDup_app_inv : forall A (a b : list A), NoDup (a ++ b) ->
  NoDup a /\ NoDup b /\ (forall x, In x a -> ~ In x b).
Proof.
  induction a as [|x a IH]; intros b H; cbn in H.
  - repeat split; auto. constructor.
  - inversion H; subst. destruct (IH b H3) as (Ha & Hb & Hd). repeat split; auto.
    + constructor; auto. intros Hx. apply H2. apply in_or_app. auto.
    + intros y [Hy|Hy]; [subst y; intros Hb'; apply H2; apply in_or_app; auto|auto].
Qed.

Lemma body_targets_nodup : forall c, NoDup (targets (body c)).
Proof.
  intros c. pose proof (nodupb_NoDup _ (plain_nodup c)) as H.
  assert (Hp : NoDup (plain_targets c)) by (do 4 (apply NoDup_cons_iff in H; destruct H as [_ H]); exact H).
  unfold plain_targets, targets in Hp. rewrite map_app in Hp.
  apply NoDup_app_inv in Hp. destruct Hp as (H1 & H2 & H3).
  unfold body, targets. rewrite map_app, map_app.
  apply NoDup_app_intro; [exact H1| |].
  - apply NoDup_app_intro; [apply phase_nodup; apply seq_NoDup|exact H2|].
    intros x Hx Hx2. apply phase_targets in Hx.
    destruct Hx as (k & _ & [E|E]); subst x; [apply (proj1 (plain_no_phase c k))|apply (proj2 (plain_no_phase c k))];
      unfold plain_targets, targets; rewrite map_app; apply in_or_app; right; assumption.
  - intros x Hx Hx2. apply in_app_or in Hx2. destruct Hx2 as [Hx2|Hx2]; [|apply (H3 x); assumption].
    apply phase_targets in Hx2.
    destruct Hx2 as (k & _ & [E|E]); subst x; [apply (proj1 (plain_no_phase c k))|apply (proj2 (plain_no_phase c k))];
      unfold plain_targets, targets; rewrite map_app; apply in_or_app; left; assumption.
Qed.

Definition locals4 := ["s1"; "s2"; "s3"; "s4"].

Lemma locals_not_plain : forall c v, In v locals4 -> ~ In (v, 0) (plain_targets c).
Proof.
  intros c v Hv.
  assert (H : forallb (fun v => negb (fmem (v, 0) (plain_targets c))) locals4 = true)
    by (flags c; vm_compute; reflexivity).
  rewrite forallb_forall in H. specialize (H v Hv). apply negb_true_iff in H.
  apply fmem_not_In. assumption.
Qed.

Lemma locals_not_target : forall c v, In v locals4 -> ~ In (v, 0) (targets (body c)).
Proof.
  intros c v Hv Hin. apply (locals_not_plain c v Hv).
  unfold plain_targets, body, targets in *. rewrite !map_app in *.
  apply in_app_or in Hin. destruct Hin as [Hin|Hin]; [apply in_or_app; left; assumption|].
  apply in_app_or in Hin. destruct Hin as [Hin|Hin]; [|apply in_or_app; right; assumption].
  exfalso. apply phase_targets in Hin. destruct Hin as (k & _ & [E|E]); inversion E; subst;
    repeat (destruct Hv as [Hv|Hv]; [discriminate|]); destruct Hv.
Qed.

(* every size and count variable is known when used *)
Fixpoint known_after (known : list string) (l : list item) : list string :=
  match l with [] => known | i :: r => known_after (add_known i known) r end.
Lemma wf_app : forall a b known, wf known (a ++ b) = wf known a && wf (known_after known a) b.
Proof.
  induction a as [|i a IH]; intros b known; [reflexivity|].
  cbn [app wf known_after]. rewrite IH, andb_assoc. reflexivity.
Qed.
Lemma known_after_app : forall a b known,
  known_after known (a ++ b) = known_after (known_after known a) b.
Proof. induction a as [|i a IH]; intros b known; [reflexivity|]. cbn. apply IH. Qed.
Lemma wf_phases : forall known l, smem "s3" known = true -> wf known (flat_map w_phase l) = true
  /\ known_after known (flat_map w_phase l) = known.
Proof.
  intros known l H. induction l as [|k l [IH1 IH2]]; [split; reflexivity|].
  assert (A : wf known (w_phase k) = true) by (unfold w_phase; cbn -[smem]; rewrite H; reflexivity).
  assert (B : known_after known (w_phase k) = known) by reflexivity.
  cbn [flat_map]. rewrite wf_app, known_after_app, A, B, IH1, IH2. auto.
Qed.
Lemma wf_body : forall c, wf locals4 (body c) = true.
Proof.
  intros c. unfold body. rewrite wf_app, wf_app.
  assert (H : smem "s3" (known_after locals4 (w_pre c)) = true) by (flags c; vm_compute; reflexivity).
  destruct (wf_phases _ (seq 0 (c_nph c)) H) as [H1 H2]. rewrite H1, H2.
  flags c; vm_compute; reflexivity.
Qed.

(* scaling lists *)
Lemma w_mul_ok : forall c, nodupb (map s_name (w_mul c)) = true /\
  counts_free (map s_name (w_mul c)) (w_mul c) = true.
Proof. intros c; split; flags c; vm_compute; reflexivity. Qed.
Lemma w_div_ok : forall c, nodupb (map s_name (w_div c)) = true /\
  counts_free (map s_name (w_div c)) (w_div c) = true.
Proof. intros c; split; flags c; vm_compute; reflexivity. Qed.
Lemma r_div_ok : forall c, nodupb (map s_name (r_div c)) = true /\
  counts_free (map s_name (r_div c)) (r_div c) = true.
Proof. intros c; split; flags c; vm_compute; reflexivity. Qed.

Lemma w_mul_spec : forall op c m f, scale_all op c m (w_mul c) f = scaled_as op c m f (slook f (w_mul c)).
Proof. intros. destruct (w_mul_ok c) as [H1 H2]. eapply scale_all_spec; [apply nodupb_NoDup; eassumption|apply incl_refl|eassumption]. Qed.
Lemma w_div_spec : forall op c m f, scale_all op c m (w_div c) f = scaled_as op c m f (slook f (w_div c)).
Proof. intros. destruct (w_div_ok c) as [H1 H2]. eapply scale_all_spec; [apply nodupb_NoDup; eassumption|apply incl_refl|eassumption]. Qed.
Lemma r_div_spec : forall op c m f, scale_all op c m (r_div c) f = scaled_as op c m f (slook f (r_div c)).
Proof. intros. destruct (r_div_ok c) as [H1 H2]. eapply scale_all_spec; [apply nodupb_NoDup; eassumption|apply incl_refl|eassumption]. Qed.

Definition unit_eqb (a b : unit_) : bool :=
  match a, b with
  | u_t, u_t | u_L, u_L | u_S, u_S | u_T, u_T | u_E, u_E | u_rho, u_rho | u_V, u_V
  | u_eta, u_eta | u_1, u_1 | u_rhoEL2, u_rhoEL2 => true
  | _, _ => false
  end.
Lemma unit_eqb_eq : forall a b, unit_eqb a b = true -> a = b.
Proof. intros [] []; cbn; intros H; try discriminate; reflexivity. Qed.
Definition count_eqb (a b : count) : bool :=
  match a, b with
  | one, one | cells, cells | verts, verts | vxn, vxn | vzn, vzn | nx, nx | ncx, ncx
  | nxp1, nxp1 | ntp1, ntp1 => true
  | nb f, nb g => (f =? g)%string
  | _, _ => false
  end.
Lemma count_eqb_eq : forall a b, count_eqb a b = true -> a = b.
Proof.
  intros [] []; cbn; intros H; try discriminate; try reflexivity.
  apply String.eqb_eq in H. subst. reflexivity.
Qed.

(* element size in bytes *)
Definition esz (s : esize) : nat :=
  match s with
  | SzLit n => n
  | SzVar v => if (v =? "s1")%string then 4 else if (v =? "s2")%string then 8
               else if (v =? "s3")%string then 8 else if (v =? "s4")%string then 1 else 0
  end.

(* per item: writer multiplies, writer divides and reader divides by the same
   unit over the same extent, or none of them scales the field *)
Definition chk (c : cfg) (i : item) : bool :=
  match slook (i_name i) (w_mul c), slook (i_name i) (w_div c), slook (rn (i_name i)) (r_div c) with
  | Some (n1, u1), Some (n2, u2), Some (n3, u3) =>
      count_eqb n1 (i_count i) && count_eqb n2 (i_count i) && count_eqb n3 (i_count i) &&
      unit_eqb u1 u2 && unit_eqb u1 u3 && (esz (i_size i) =? 8)%nat
  | None, None, None => true
  | _, _, _ => false
  end.

Definition depok (i : item) : bool :=
  forallb (fun d => smem d ("topo_chain->Nb_part" :: "topo_chain_ini->Nb_part" :: "particles->Nb_part" :: locals4)) (deps i)
  && match i_size i with SzVar v => smem v locals4 | SzLit _ => false end
  && match i_count i with nb v => negb (smem v locals4) | _ => true end.

Lemma phase_items : forall l i, In i (flat_map w_phase l) -> exists k,
  i = mkitem ("mesh->phase_perc_n", k) (SzVar "s3") cells \/
  i = mkitem ("mesh->phase_perc_s", k) (SzVar "s3") verts.
Proof.
  intros l i H. apply in_flat_map in H. destruct H as (k & _ & H). exists k.
  cbn in H. destruct H as [H|[H|[]]]; auto.
Qed.

Lemma phase_chk : forall c k,
  chk c (mkitem ("mesh->phase_perc_n", k) (SzVar "s3") cells) = true /\
  chk c (mkitem ("mesh->phase_perc_s", k) (SzVar "s3") verts) = true.
Proof. intros c k. split; flags c; vm_compute; reflexivity. Qed.

Lemma plain_chk : forall c,
  forallb (fun i => chk c i && depok i) (w_pre c ++ w_post c ++ w_series c) = true.
Proof. intros c. flags c; vm_compute; reflexivity. Qed.

Lemma body_chk : forall c i, In i (body c) -> chk c i = true /\ depok i = true.
Proof.
  intros c i H. pose proof (plain_chk c) as P. rewrite forallb_forall in P.
  unfold body in H. apply in_app_or in H. destruct H as [H|H].
  { apply andb_true_iff. apply P. apply in_or_app. auto. }
  apply in_app_or in H. destruct H as [H|H].
  { apply phase_items in H. destruct H as (k & [E|E]); subst i; (split; [apply phase_chk|reflexivity]). }
  apply andb_true_iff. apply P. apply in_or_app. auto.
Qed.

Definition special := ["topo_chain->Nb_part"; "topo_chain_ini->Nb_part"; "particles->Nb_part"; "s1"; "s2"; "s3"; "s4"].
Lemma special_unscaled : forall c v, In v special -> slook (v, 0) (w_mul c) = None.
Proof.
  intros c v Hv.
  assert (H : forallb (fun v => match slook (v, 0) (w_mul c) with None => true | _ => false end) special = true)
    by (flags c; vm_compute; reflexivity).
  rewrite forallb_forall in H. specialize (H v Hv). destruct (slook (v, 0) (w_mul c)); [discriminate|reflexivity].
Qed.

(* sizes as the user sees them *)
Definition nbytes (c : cfg) (m : mem) (i : item) : nat := esz (i_size i) * count_val c m (i_count i).

Lemma locals_other : forall m a b c d f, ~ In f [("s1",0);("s2",0);("s3",0);("s4",0)] ->
  locals m a b c d f = m f.
Proof.
  intros m a b c d f H. unfold locals. cbn in H.
  rewrite !upd_other; [reflexivity| | | |]; intros E; apply H; auto.
Qed.

Lemma depok_bytes : forall dmul c m i, depok i = true ->
  bytes_of c (scale_all dmul c (locals m x04 x08 x08 x01) (w_mul c)) i = nbytes c m i.
Proof.
  intros dmul c m [f s n] H. unfold depok in H. cbn [deps i_size i_count] in H.
  apply andb_true_iff in H. destruct H as [H Hn]. apply andb_true_iff in H. destruct H as [Hd Hs].
  unfold bytes_of, nbytes. cbn [i_size i_count]. f_equal.
  - destruct s as [k|v]; [discriminate|]. cbn [size_val]. unfold int_of. rewrite w_mul_spec.
    apply smem_In in Hs.
    rewrite special_unscaled by (cbn in *; tauto). cbn [scaled_as].
    cbn in Hs. destruct Hs as [E|[E|[E|[E|[]]]]]; subst v; reflexivity.
  - destruct n; try reflexivity. cbn [count_val]. unfold int_of. rewrite w_mul_spec.
    apply negb_true_iff in Hn.
    assert (Hin : In f0 special).
    { unfold deps in Hd. cbn [i_size i_count] in Hd. rewrite forallb_app in Hd.
      apply andb_true_iff in Hd. destruct Hd as [_ Hd]. cbn [forallb] in Hd.
      rewrite andb_true_r in Hd. apply smem_In in Hd. exact Hd. }
    rewrite special_unscaled by assumption. cbn [scaled_as].
    rewrite locals_other; [reflexivity|].
    intros Hx. assert (smem f0 locals4 = true); [|congruence].
    apply smem_In. cbn in *. intuition (try congruence);
    repeat match goal with H : (_, _) = (_, _) |- _ => inversion H; clear H end; auto.
Qed.

(** header *)
Lemma header_written : forall dmul c m,
  fwrite_all c (scale_all dmul c (locals m x04 x08 x08 x01) (w_mul c)) w_header
  = Some [x04; x08; x08; x01].
Proof.
  intros dmul c m. unfold w_header. cbn [fwrite_all]. unfold fwrite, bytes_of. cbn [it i_size i_count i_name size_val count_val].
  rewrite !w_mul_spec.
  rewrite !special_unscaled by (cbn; tauto). reflexivity.
Qed.

Lemma header_read : forall c m rest, exists lm,
  fread_all c (locals m x00 x00 x00 x00) ([x04; x08; x08; x01] ++ rest) r_header = Some (lm, rest) /\
  int_of lm "s1" = 4 /\ int_of lm "s2" = 8 /\ int_of lm "s3" = 8 /\ int_of lm "s4" = 1 /\
  (forall f, ~ In f [("s1",0);("s2",0);("s3",0);("s4",0)] -> lm f = m f).
Proof.
  intros c m rest. eexists. split; [reflexivity|].
  repeat split; try reflexivity.
  intros f Hf. rewrite !upd_other; [apply locals_other; assumption| | | |];
    intros E; apply Hf; cbn; auto.
Qed.

Lemma r_div_extents : forall c, forallb (fun s => match s_count s with
  | nb g => existsb (fun i => count_eqb (i_count i) (nb g)) (w_pre c)
  | _ => true end) (r_div c) = true.
Proof. intros c. flags c; vm_compute; reflexivity. Qed.

Opaque w_pre w_post w_series w_phase w_mul w_div r_div r_pre r_post r_series r_phase
  w_header r_header body locals.

(** ** Main lemma *)
Definition old_stress (f : fid) : Prop :=
  f = ("mesh->sxxd0", 0) \/ f = ("mesh->szzd0", 0) \/ f = ("mesh->sxz0", 0).

Lemma scaled_window : forall op c m1 m2 f g o n,
  (forall u, keeps8 (op u)) ->
  (forall k u, o = Some (k, u) -> n = 8 * count_val c m1 k /\ count_val c m2 k = count_val c m1 k) ->
  n <= List.length (m1 f) ->
  m2 g = firstn n (m1 f) ++ skipn n (m2 g) ->
  firstn n (scaled_as op c m2 g o) = firstn n (scaled_as op c m1 f o).
Proof.
  intros op c m1 m2 f g o n Hop Ho Hn Hg.
  assert (Lf : List.length (firstn n (m1 f)) = n) by (rewrite firstn_length; lia).
  assert (Lg : n <= List.length (m2 g)) by (rewrite Hg, app_length; lia).
  assert (E : firstn n (m2 g) = firstn n (m1 f)).
  { rewrite Hg. rewrite firstn_app_exact by exact Lf. reflexivity. }
  destruct o as [[k u]|]; cbn [scaled_as]; [|exact E].
  destruct (Ho k u eq_refl) as [En Ec]. rewrite Ec. subst n.
  rewrite !map_words_firstn by auto. rewrite E. reflexivity.
Qed.

Lemma save_load : forall dmul ddiv c m m' file mc,
  (forall u, keeps8 (ddiv u)) ->
  save dmul ddiv c m = Some (file, mc) ->
  (forall i, In i (body c) -> nbytes c m i <= List.length (m' (rn (i_name i)))) ->
  exists m2, load ddiv c m' file = Some (m2, []) /\
  (forall i, In i (body c) -> is_model (i_name i) = false ->
     firstn (nbytes c m i) (m2 (rn (i_name i))) = firstn (nbytes c m i) (mc (i_name i))) /\
  (forall i, In i (body c) ->
     firstn (nbytes c m i) (m2 (rn (i_name i))) =
     firstn (nbytes c m i) (scale_all ddiv c (scale_all dmul c (locals m x04 x08 x08 x01) (w_mul c)) (w_div c) (i_name i))
     /\ nbytes c m i <= List.length (scale_all dmul c (locals m x04 x08 x08 x01) (w_mul c) (i_name i))) /\
  (forall f, ~ In f (targets (body c)) -> ~ In (fst f) locals4 ->
     m2 f = match slook f (r_div c) with
            | Some (n, u) => map_words (count_val c m n) (ddiv u) (m' f)
            | None => m' f
            end).
Proof.
  intros dmul ddiv c m m' file mc Hdiv Hsave Hcap.
  unfold save in Hsave.
  set (m1 := scale_all dmul c (locals m x04 x08 x08 x01) (w_mul c)) in *.
  rewrite w_items_body, fwrite_all_app in Hsave.
  unfold m1 in Hsave at 1. rewrite header_written in Hsave.
  destruct (fwrite_all c m1 (body c)) as [b|] eqn:Eb; [|discriminate].
  inversion Hsave; subst file mc. clear Hsave.
  assert (Hb : forall i, In i (body c) -> bytes_of c m1 i = nbytes c m i).
  { intros i Hi. apply depok_bytes. apply body_chk in Hi. tauto. }
  assert (Hint : forall v, In v special -> m1 (v, 0) = locals m x04 x08 x08 x01 (v, 0)).
  { intros v Hv. unfold m1. rewrite w_mul_spec, special_unscaled by assumption. reflexivity. }
  unfold load. rewrite body_match, fread_all_app.
  destruct (header_read c m' b) as (lm & Eh & I1 & I2 & I3 & I4 & Hlm). cbn [app] in Eh |- *. rewrite Eh.
  destruct (roundtrip c m1) with (l := body c) (known := locals4) (lm := lm) (rest := @nil byte) (bytes := b)
    as (lm' & Er & Hd & Hfr).
  - unfold int_of. rewrite Hint by (cbn; tauto). reflexivity.
  - apply wf_body.
  - apply body_targets_nodup.
  - apply locals_not_target.
  - intros v Hv. cbn in Hv.
    destruct Hv as [E|[E|[E|[E|[]]]]]; subst v; [rewrite I1|rewrite I2|rewrite I3|rewrite I4];
      unfold int_of; rewrite Hint by (cbn; tauto); reflexivity.
  - intros i Hi. rewrite Hb by assumption. rewrite Hlm; [apply Hcap; assumption|].
    intros Hx. cbn in Hx.
    destruct Hx as [E|[E|[E|[E|[]]]]];
    [apply (locals_not_target c "s1")|apply (locals_not_target c "s2")|
     apply (locals_not_target c "s3")|apply (locals_not_target c "s4")]; try (cbn; tauto);
    unfold targets; apply in_map_iff; exists i; auto.
  - exact Eb.
  - rewrite app_nil_r in Er. rewrite Er. eexists. split; [reflexivity|].
    assert (Hlen : forall i, In i (body c) -> nbytes c m i <= List.length (m1 (i_name i))).
    { intros i Hi. rewrite <- Hb by assumption. clear - Eb Hi. revert b Eb.
      induction (body c) as [|j r IH]; intros b Eb; [destruct Hi|].
      cbn [fwrite_all] in Eb. unfold fwrite in Eb.
      destruct (bytes_of c m1 j <=? List.length (m1 (i_name j)))%nat eqn:E; [|discriminate].
      destruct (fwrite_all c m1 r) as [b'|]; [|discriminate].
      destruct Hi as [Hi|Hi]; [subst j; apply Nat.leb_le; assumption|]. eapply IH; eauto. }
    (* integer objects restored *)
    assert (Hnb : forall g, In (g, 0) (targets (body c)) \/ True -> True) by auto. clear Hnb.
    assert (Hnbv : forall i g, In i (body c) -> i_count i = nb g -> int_of lm' g = int_of m1 g).
    { intros i g Hi Hg.
      (* g is an int object read by an earlier item *)
      assert (Hj : exists j, In j (body c) /\ i_name j = (g, 0) /\ rn (g, 0) = (g, 0) /\ nbytes c m j = 4).
      { pose proof (wf_body c) as W. clear - W Hi Hg.
        assert (G : forall l known, wf known l = true -> In i l -> ~ In g known ->
                  exists j, In j l /\ i_name j = (g, 0) /\ rn (g, 0) = (g, 0) /\ is_int j = true).
        { induction l as [|j r IH]; intros known Hw Hin Hk; [destruct Hin|].
          cbn [wf] in Hw. apply andb_true_iff in Hw. destruct Hw as [Hw Hr].
          apply andb_true_iff in Hw. destruct Hw as [Hd Hrn].
          destruct Hin as [E|Hin].
          - subst j. exfalso. apply Hk. rewrite forallb_forall in Hd.
            apply smem_In. apply Hd. unfold deps. rewrite Hg. apply in_or_app. right. left. reflexivity.
          - unfold add_known in Hr. destruct (is_int j) eqn:Ej.
            + destruct (string_dec (fst (i_name j)) g) as [Eg|Eg].
              * exists j. apply fid_eqb_eq in Hrn.
                assert (Ei : i_name j = (g, 0)).
                { unfold is_int in Ej. destruct j as [[a k] s n]; cbn in *.
                  destruct s; [discriminate|]. destruct n; try discriminate.
                  apply andb_true_iff in Ej. destruct Ej as [_ Ek]. apply Nat.eqb_eq in Ek. subst. reflexivity. }
                rewrite Ei in Hrn. repeat split; auto. left; reflexivity.
              * destruct (IH _ Hr Hin) as (j' & A & B); [intros [?|?]; contradiction|].
                exists j'. split; [right; assumption|assumption].
            + destruct (IH _ Hr Hin Hk) as (j' & A & B). exists j'. split; [right; assumption|assumption]. }
        destruct (G (body c) locals4 W Hi) as (j & A & B & C & D).
        - apply body_chk in Hi. destruct Hi as [_ Hi]. unfold depok in Hi. rewrite Hg in Hi.
          apply andb_true_iff in Hi. destruct Hi as [_ Hi]. apply negb_true_iff in Hi.
          intros Hx. apply smem_In in Hx. congruence.
        - exists j. repeat split; auto. unfold nbytes. unfold is_int in D.
          destruct j as [fn s n]; cbn in *. destruct s as [|v]; [discriminate|]. destruct n; try discriminate.
          apply andb_true_iff in D. destruct D as [D _]. apply String.eqb_eq in D. subst v. reflexivity. }
      destruct Hj as (j & Hj & En & Ern & E4).
      unfold int_of. f_equal.
      pose proof (Hd j Hj) as Hdj. rewrite En, Ern in Hdj. rewrite Hdj.
      rewrite Hb by assumption. rewrite E4.
      rewrite firstn_app_exact; [reflexivity|]. rewrite firstn_length.
      pose proof (Hlen j Hj) as HL. rewrite En, E4 in HL. lia. }
    assert (Hmain : forall i, In i (body c) ->
      firstn (nbytes c m i) (scale_all ddiv c lm' (r_div c) (rn (i_name i))) =
      firstn (nbytes c m i) (scale_all ddiv c m1 (w_div c) (i_name i))).
    { intros i Hi. rewrite r_div_spec, w_div_spec.
      destruct (body_chk c i Hi) as [Hc _]. unfold chk in Hc.
      assert (Eo : slook (rn (i_name i)) (r_div c) = slook (i_name i) (w_div c) /\
                   forall k u, slook (i_name i) (w_div c) = Some (k, u) -> k = i_count i /\ esz (i_size i) = 8).
      { destruct (slook (i_name i) (w_mul c)) as [[n1 u1]|];
        destruct (slook (i_name i) (w_div c)) as [[n2 u2]|];
        destruct (slook (rn (i_name i)) (r_div c)) as [[n3 u3]|]; try discriminate.
        - repeat (apply andb_true_iff in Hc; let H := fresh "H" in destruct Hc as [Hc H]).
          apply count_eqb_eq in Hc. apply count_eqb_eq in H3. apply count_eqb_eq in H2.
          apply unit_eqb_eq in H1. apply unit_eqb_eq in H0. apply Nat.eqb_eq in H. subst.
          split; [reflexivity|]. intros k u E. inversion E; subst. auto.
        - split; [reflexivity|]. intros k u E. discriminate. }
      destruct Eo as [Eo Ek]. rewrite Eo.
      apply scaled_window.
      - exact Hdiv.
      - intros k u E. destruct (Ek k u E) as [-> E8]. split.
        + rewrite <- Hb by assumption. unfold bytes_of.
          f_equal. pose proof (Hb i Hi) as HB. clear - Hi E8 Hint.
          apply body_chk in Hi. destruct Hi as [_ Hd]. unfold depok in Hd.
          destruct i as [f s n]; cbn [i_size] in *. apply andb_true_iff in Hd. destruct Hd as [Hd _].
          apply andb_true_iff in Hd. destruct Hd as [_ Hs]. destruct s as [|v]; [discriminate|].
          apply smem_In in Hs. cbn in E8 |- *. unfold int_of.
          cbn in Hs. destruct Hs as [E|[E|[E|[E|[]]]]]; subst v; cbn in E8; try discriminate;
          rewrite Hint by (cbn; tauto); reflexivity.
        + destruct (i_count i) eqn:Ec; try reflexivity. cbn [count_val]. apply (Hnbv i); assumption.
      - apply Hlen. assumption.
      - rewrite (Hd i Hi). rewrite Hb by assumption.
        rewrite skipn_app_exact; [reflexivity|]. rewrite firstn_length. pose proof (Hlen i Hi). lia. }
    split; [|split; [|]].
    + intros i Hi Hm. rewrite Hm. apply Hmain. assumption.
    + intros i Hi. split; [apply Hmain; assumption|apply Hlen; assumption].
    + intros f Hf Hl. rewrite r_div_spec.
      assert (Ef : lm' f = m' f).
      { rewrite Hfr by assumption. apply Hlm. intros Hx. apply Hl.
        cbn in Hx |- *. destruct Hx as [E|[E|[E|[E|[]]]]]; subst f; cbn; auto. }
      destruct (slook f (r_div c)) as [[n u]|] eqn:El; cbn [scaled_as]; [|exact Ef].
      rewrite Ef. f_equal.
      (* the loop extent is the saved one *)
      destruct n; try reflexivity. cbn [count_val].
      assert (Hi : exists i, In i (body c) /\ i_count i = nb f0).
      { clear - El.
        pose proof (r_div_extents c) as H.
        assert (Hs : exists s, In s (r_div c) /\ s_count s = nb f0).
        { induction (r_div c) as [|s r IH]; [discriminate|]. cbn [slook forallb] in El, H.
          apply andb_true_iff in H. destruct H as [_ H].
          destruct (fid_eqb (s_name s) f).
          - injection El as E1 E2. exists s. split; [left; reflexivity|exact E1].
          - destruct (IH El H) as (x & A & B). exists x. split; [right; assumption|assumption]. }
        destruct Hs as (s & Hs & Es). rewrite forallb_forall in H. specialize (H s Hs).
        rewrite Es in H. apply existsb_exists in H. destruct H as (i & Hi & Ei).
        apply count_eqb_eq in Ei. exists i. split; [|assumption].
        Transparent body. unfold body. apply in_or_app. left. assumption. }
      destruct Hi as (i & Hi & Ei). rewrite (Hnbv i) by assumption.
      pose proof (Hb i Hi) as HB.
      unfold int_of. f_equal. f_equal.
      assert (Hsp : In f0 special).
      { apply body_chk in Hi. destruct Hi as [_ Hd2]. unfold depok in Hd2.
        apply andb_true_iff in Hd2. destruct Hd2 as [Hd2 _]. apply andb_true_iff in Hd2. destruct Hd2 as [Hd2 _].
        rewrite forallb_forall in Hd2. apply smem_In. apply Hd2. unfold deps. rewrite Ei.
        apply in_or_app. right. left. reflexivity. }
      rewrite Hint by assumption. apply locals_other.
      apply body_chk in Hi. destruct Hi as [_ Hd2]. unfold depok in Hd2. rewrite Ei in Hd2.
      apply andb_true_iff in Hd2. destruct Hd2 as [_ Hd2]. apply negb_true_iff in Hd2.
      intros Hx. assert (smem f0 locals4 = true); [|congruence]. apply smem_In.
      cbn in Hx |- *. destruct Hx as [E|[E|[E|[E|[]]]]]; inversion E; auto.
Qed.
