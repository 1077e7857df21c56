(** Restoring a checkpoint under a different final step number. *)
From Coq Require Import List Arith Bool String Lia.
From Coq Require Import Init.Byte.
From Verif Require Import Base BreakpointModel BreakpointProofs BreakpointMain.
Import ListNotations.
Open Scope string_scope.
Open Scope list_scope.

Transparent w_pre w_post w_series w_phase w_mul w_div r_div r_pre r_post r_series r_phase
  w_header r_header body locals.

Definition set_Nt (c : cfg) (n : nat) : cfg :=
  mkcfg (c_Nx c) (c_Nz c) n (c_nph c) (c_fs c) (c_el c) (c_fst c) (c_an c) (c_tr c).

Definition front (c : cfg) : list item :=
  w_pre c ++ flat_map w_phase (seq 0 (c_nph c)) ++ w_post c.

Lemma body_front : forall c, body c = front c ++ w_series c.
Proof. intros c. unfold body, front. rewrite <- !app_assoc. reflexivity. Qed.

Lemma front_Nt : forall c n, front (set_Nt c n) = front c.
Proof. reflexivity. Qed.
Lemma r_div_Nt : forall c n, r_div (set_Nt c n) = r_div c.
Proof. reflexivity. Qed.

Lemma r_items_front : forall c, r_items c = r_header ++ map ren (front c) ++ w_series c.
Proof.
  intros c. rewrite body_match, body_front, map_app. reflexivity.
Qed.

Definition noNt (i : item) : bool := match i_count i with ntp1 => false | _ => true end.
Lemma front_noNt : forall c i, In i (front c) -> noNt i = true.
Proof.
  intros c i H. unfold front in H. apply in_app_or in H. destruct H as [H|H].
  - assert (A : forallb noNt (w_pre c) = true) by (flags c; vm_compute; reflexivity).
    rewrite forallb_forall in A. auto.
  - apply in_app_or in H. destruct H as [H|H].
    + apply phase_items in H. destruct H as (k & [E|E]); subst; reflexivity.
    + assert (A : forallb noNt (w_post c) = true) by reflexivity.
      rewrite forallb_forall in A. auto.
Qed.

Lemma count_val_Nt : forall c n m k, k <> ntp1 -> count_val (set_Nt c n) m k = count_val c m k.
Proof. intros c n m k H. destruct k; try reflexivity. contradiction. Qed.

Lemma bytes_of_Nt : forall c n m i, noNt i = true -> bytes_of (set_Nt c n) m i = bytes_of c m i.
Proof.
  intros c n m [f s k] H. unfold bytes_of, noNt in *. cbn [i_size i_count] in *.
  rewrite count_val_Nt; [reflexivity|]. intros E. rewrite E in H. discriminate.
Qed.

Lemma fwrite_all_Nt : forall c n m l, (forall i, In i l -> noNt i = true) ->
  fwrite_all (set_Nt c n) m l = fwrite_all c m l.
Proof.
  intros c n m l. induction l as [|i r IH]; intros H; [reflexivity|].
  cbn [fwrite_all]. unfold fwrite. rewrite bytes_of_Nt by (apply H; left; reflexivity).
  rewrite IH by (intros j Hj; apply H; right; assumption). reflexivity.
Qed.

Lemma front_sub : forall c i, In i (front c) -> In i (body c).
Proof. intros c i H. rewrite body_front. apply in_or_app. auto. Qed.

(* reading consecutive blocks of equal length *)
Lemma series_read : forall c names lm S,
  int_of lm "s3" = 8 -> NoDup names -> ~ In "s3" names ->
  (forall s, In s names -> 8 * (c_Nt c + 1) <= List.length (lm (s, 0))) ->
  exists lm2, fread_all c lm S (map (fun s => it s (SzVar "s3") ntp1) names)
      = Some (lm2, skipn (List.length names * (8 * (c_Nt c + 1))) S) /\
    (forall k s, nth_error names k = Some s ->
       let got := firstn (8 * (c_Nt c + 1)) (skipn (k * (8 * (c_Nt c + 1))) S) in
       lm2 (s, 0) = got ++ skipn (List.length got) (lm (s, 0))) /\
    (forall f, ~ In f (map (fun s => (s, 0)) names) -> lm2 f = lm f).
Proof.
  intros c names. set (L := 8 * (c_Nt c + 1)).
  induction names as [|s r IH]; intros lm S H3 Hnd Hn3 Hcap.
  - exists lm. cbn. repeat split; auto. intros k s H. destruct k; discriminate.
  - cbn [map fread_all]. unfold fread.
    change (it s (SzVar "s3") ntp1) with (mkitem (s, 0) (SzVar "s3") ntp1). cbn [i_name].
    replace (bytes_of c lm (mkitem (s, 0) (SzVar "s3") ntp1)) with L
      by (unfold bytes_of; cbn [i_size i_count size_val count_val]; rewrite H3; reflexivity).
    assert (Hc : (List.length (firstn L S) <= List.length (lm (s, 0)))).
    { rewrite firstn_length. pose proof (Hcap s (or_introl eq_refl)). lia. }
    apply Nat.leb_le in Hc. rewrite Hc.
    inversion Hnd as [|? ? Hni Hnd']; subst.
    set (lm1 := upd lm (s, 0) (firstn L S ++ skipn (List.length (firstn L S)) (lm (s, 0)))).
    destruct (IH lm1 (skipn L S)) as (lm2 & E & Hd & Hf).
    + unfold int_of, lm1. rewrite upd_other; [exact H3|]. intros X. inversion X. apply Hn3. left. auto.
    + assumption.
    + intros X. apply Hn3. right. assumption.
    + intros s' Hs'. unfold lm1. rewrite upd_other; [apply Hcap; right; assumption|].
      intros X. inversion X. subst. contradiction.
    + exists lm2. split.
      { rewrite E. f_equal. f_equal. cbn [List.length]. cbn [Nat.mul].
        rewrite skipn_skipn_add. reflexivity. }
      split.
      * intros k s' Hk. destruct k as [|k]; cbn [nth_error] in Hk.
        -- inversion Hk; subst s'. cbn zeta. cbn [Nat.mul]. change (skipn 0 S) with S.
           rewrite Hf; [unfold lm1; rewrite upd_same; reflexivity|].
           rewrite in_map_iff. intros (x & Ex & Hx). inversion Ex; subst. contradiction.
        -- rewrite (Hd k s' Hk). cbn zeta. rewrite skipn_skipn_add.
           replace (Datatypes.S k * L) with (L + k * L) by lia.
           f_equal. f_equal. unfold lm1. apply upd_other. intros X. inversion X. subst.
           apply Hni. eapply nth_error_In; eauto.
      * intros f Hf'. cbn in Hf'. rewrite Hf by tauto. unfold lm1. apply upd_other. tauto.
Qed.

Definition series_names : list string :=
  ["mesh->Time_time"; "mesh->Short_time"; "mesh->Work_time"; "mesh->Uthermal_time";
   "mesh->Uelastic_time"; "mesh->T_mean_time"; "mesh->P_mean_time"; "mesh->sxxd_mean_time";
   "mesh->szzd_mean_time"; "mesh->sxz_mean_time"; "mesh->Tii_mean_time"; "mesh->exxd_mean_time";
   "mesh->ezzd_mean_time"; "mesh->exz_mean_time"; "mesh->Eii_mean_time"].

Lemma w_series_names : forall c, w_series c = map (fun s => it s (SzVar "s3") ntp1) series_names.
Proof. reflexivity. Qed.

Lemma series_nodup : NoDup series_names.
Proof.
  assert (H : nodupb (map (fun s => (s, 0)) series_names) = true) by reflexivity.
  apply nodupb_NoDup in H. apply NoDup_map_inv in H. exact H.
Qed.

(* concatenation of the series as written *)
Definition series_bytes (c : cfg) (m1 : mem) : list byte :=
  flat_map (fun s => firstn (8 * (c_Nt c + 1)) (m1 (s, 0))) series_names.

Lemma fwrite_series : forall c m1 names b, int_of m1 "s3" = 8 ->
  fwrite_all c m1 (map (fun s => it s (SzVar "s3") ntp1) names) = Some b ->
  b = flat_map (fun s => firstn (8 * (c_Nt c + 1)) (m1 (s, 0))) names /\
  (forall s, In s names -> 8 * (c_Nt c + 1) <= List.length (m1 (s, 0))).
Proof.
  intros c m1 names. induction names as [|s r IH]; intros b H3 H; cbn [map] in H.
  - cbn in H. inversion H. split; [reflexivity|]. intros s [].
  - cbn [fwrite_all] in H. unfold fwrite in H.
    change (it s (SzVar "s3") ntp1) with (mkitem (s, 0) (SzVar "s3") ntp1) in H. cbn [i_name] in H.
    replace (bytes_of c m1 (mkitem (s, 0) (SzVar "s3") ntp1)) with (8 * (c_Nt c + 1)) in H
      by (unfold bytes_of; cbn [i_size i_count size_val count_val]; rewrite H3; reflexivity).
    destruct (8 * (c_Nt c + 1) <=? List.length (m1 (s, 0)))%nat eqn:E; [|discriminate].
    apply Nat.leb_le in E.
    destruct (fwrite_all c m1 _) as [b'|] eqn:Eb; [|discriminate].
    destruct (IH b' H3 eq_refl) as [E1 E2]. inversion H. subst b'. split; [reflexivity|].
    intros s' [Hs|Hs]; [subst; assumption|auto].
Qed.

Opaque w_pre w_post w_series w_phase w_mul w_div r_div r_pre r_post r_series r_phase
  w_header r_header body locals.

Lemma series_unscaled_ints : forall c v, In v special -> slook (v, 0) (w_mul c) = None.
Proof. exact special_unscaled. Qed.

Lemma wf_front : forall c, wf locals4 (front c) = true.
Proof.
  intros c. pose proof (wf_body c) as H. rewrite body_front, wf_app in H.
  apply andb_true_iff in H. tauto.
Qed.

Lemma targets_app : forall a b, targets (a ++ b) = targets a ++ targets b.
Proof. intros. apply map_app. Qed.

Lemma restore_other_Nt : forall dmul ddiv c n m m' file mc,
  (forall u, keeps8 (ddiv u)) ->
  save dmul ddiv c m = Some (file, mc) ->
  let c' := set_Nt c n in
  let m1 := scale_all dmul c (locals m x04 x08 x08 x01) (w_mul c) in
  (forall i, In i (front c) -> nbytes c m i <= List.length (m' (rn (i_name i)))) ->
  (forall s, In s series_names -> 8 * (n + 1) <= List.length (m' (s, 0))) ->
  exists m2 rest, load ddiv c' m' file = Some (m2, rest) /\
    rest = skipn (15 * (8 * (n + 1))) (series_bytes c m1) /\
    (forall i, In i (front c) -> is_model (i_name i) = false ->
       firstn (nbytes c m i) (m2 (rn (i_name i))) = firstn (nbytes c m i) (mc (i_name i))) /\
    (forall k s, nth_error series_names k = Some s ->
       (k + 1) * (8 * (n + 1)) <= List.length (series_bytes c m1) ->
       exists u, slook (s, 0) (r_div c) = Some (ntp1, u) /\
         firstn (8 * (n + 1)) (m2 (s, 0)) =
         map_words (n + 1) (ddiv u) (firstn (8 * (n + 1)) (skipn (k * (8 * (n + 1))) (series_bytes c m1)))).
Proof.
  intros dmul ddiv c n m m' file mc Hdiv Hsave c' m1 Hcap Hcaps.
  unfold save in Hsave. fold m1 in Hsave.
  rewrite w_items_body, fwrite_all_app in Hsave.
  unfold m1 in Hsave at 1. rewrite header_written in Hsave.
  rewrite body_front, fwrite_all_app in Hsave.
  destruct (fwrite_all c m1 (front c)) as [b|] eqn:Eb; [|discriminate].
  destruct (fwrite_all c m1 (w_series c)) as [S|] eqn:ES; [|discriminate].
  inversion Hsave; subst file mc. clear Hsave.
  assert (Hint : forall v, In v special -> m1 (v, 0) = locals m x04 x08 x08 x01 (v, 0)).
  { intros v Hv. unfold m1. rewrite w_mul_spec, special_unscaled by assumption. reflexivity. }
  assert (I3w : int_of m1 "s3" = 8) by (unfold int_of; rewrite Hint by (cbn; tauto); reflexivity).
  rewrite w_series_names in ES. destruct (fwrite_series c m1 series_names S I3w ES) as [HS HSlen].
  fold (series_bytes c m1) in HS.
  assert (Hb : forall i, In i (front c) -> bytes_of c m1 i = nbytes c m i).
  { intros i Hi. apply depok_bytes. apply front_sub in Hi. apply body_chk in Hi. tauto. }
  assert (Hb' : forall i, In i (front c) -> bytes_of c' m1 i = nbytes c m i).
  { intros i Hi. unfold c'. rewrite bytes_of_Nt; [auto|]. eapply front_noNt; eauto. }
  unfold load. rewrite r_items_front, fread_all_app.
  destruct (header_read c' m' (b ++ S)) as (lm & Eh & I1 & I2 & I3 & I4 & Hlm).
  cbn [app] in Eh |- *. rewrite Eh. clear Eh.
  unfold c' at 2. rewrite front_Nt. rewrite fread_all_app.
  assert (Eb' : fwrite_all c' m1 (front c) = Some b).
  { unfold c'. rewrite fwrite_all_Nt; [assumption|]. apply front_noNt. }
  assert (Hnotl : forall v, In v locals4 -> ~ In (v, 0) (targets (front c))).
  { intros v Hv Hin. apply (locals_not_target c v Hv). rewrite body_front, targets_app.
    apply in_or_app. left. assumption. }
  destruct (roundtrip c' m1) with (l := front c) (known := locals4) (lm := lm) (rest := S) (bytes := b)
    as (lm' & Er & Hd & Hfr).
  - unfold int_of. rewrite Hint by (cbn; tauto). reflexivity.
  - apply wf_front.
  - pose proof (body_targets_nodup c) as HN. rewrite body_front, targets_app in HN.
    apply NoDup_app_inv in HN. tauto.
  - exact Hnotl.
  - intros v Hv. cbn in Hv.
    destruct Hv as [E|[E|[E|[E|[]]]]]; subst v; [rewrite I1|rewrite I2|rewrite I3|rewrite I4];
      unfold int_of; rewrite Hint by (cbn; tauto); reflexivity.
  - intros i Hi. rewrite Hb' by assumption. rewrite Hlm; [apply Hcap; assumption|].
    intros Hx. cbn in Hx.
    destruct Hx as [E|[E|[E|[E|[]]]]];
    [apply (Hnotl "s1")|apply (Hnotl "s2")|apply (Hnotl "s3")|apply (Hnotl "s4")]; try (cbn; tauto);
    unfold targets; apply in_map_iff; exists i; auto.
  - exact Eb'.
  - rewrite Er.
    assert (Hser : forall s, In s series_names -> lm' (s, 0) = m' (s, 0)).
    { intros s Hs. rewrite Hfr.
      - apply Hlm. intros Hx.
        assert (A : In s locals4) by (cbn in Hx |- *; destruct Hx as [E|[E|[E|[E|[]]]]]; inversion E; auto).
        clear - A Hs. cbn in A. destruct A as [E|[E|[E|[E|[]]]]]; subst s; cbn in Hs;
          repeat (destruct Hs as [Hs|Hs]; [discriminate|]); destruct Hs.
      - pose proof (body_targets_nodup c) as HN. rewrite body_front, targets_app in HN.
        apply NoDup_app_inv in HN. destruct HN as (_ & _ & HN).
        intros Hx. apply (HN _ Hx). rewrite w_series_names. unfold targets. rewrite map_map.
        apply in_map_iff. exists s. split; [|assumption].
        clear - Hs. cbn in Hs. repeat (destruct Hs as [Hs|Hs]; [subst s; reflexivity|]). destruct Hs. }
    unfold c' at 1 2. rewrite w_series_names.
    destruct (series_read c' series_names lm' S) as (lm2 & E2 & Hd2 & Hf2).
    + unfold int_of. rewrite Hfr; [exact I3|]. apply Hnotl. cbn; tauto.
    + exact series_nodup.
    + intros Hx. cbn in Hx. repeat (destruct Hx as [Hx|Hx]; [discriminate|]). destruct Hx.
    + intros s Hs. rewrite Hser by assumption. apply Hcaps. assumption.
    + fold c'. rewrite E2. eexists. eexists. split; [reflexivity|].
      assert (Hlen : forall i, In i (front c) -> nbytes c m i <= List.length (m1 (i_name i))).
      { intros i Hi. rewrite <- Hb by assumption. clear - Eb Hi. revert b Eb.
        induction (front c) as [|j r IH]; intros b Eb; [destruct Hi|].
        cbn [fwrite_all] in Eb. unfold fwrite in Eb.
        destruct (bytes_of c m1 j <=? List.length (m1 (i_name j)))%nat eqn:E; [|discriminate].
        destruct (fwrite_all c m1 r) as [b'|]; [|discriminate].
        destruct Hi as [Hi|Hi]; [subst j; apply Nat.leb_le; assumption|]. eapply IH; eauto. }
      split; [rewrite HS; reflexivity|].
      split.
      * intros i Hi Hm. rewrite Hm.
        (* target of a front item is not a series *)
        assert (Hns : ~ In (rn (i_name i)) (map (fun s => (s, 0)) series_names)).
        { pose proof (body_targets_nodup c) as HN. rewrite body_front, targets_app in HN.
          apply NoDup_app_inv in HN. destruct HN as (_ & _ & HN).
          intros Hx. apply (HN (rn (i_name i))).
          - unfold targets. apply in_map_iff. exists i. auto.
          - rewrite w_series_names. unfold targets. rewrite map_map. rewrite in_map_iff in Hx |- *.
            destruct Hx as (s & Es & Hs). exists s. split; [|assumption]. rewrite <- Es.
            clear - Hs. cbn in Hs. repeat (destruct Hs as [Hs|Hs]; [subst s; reflexivity|]). destruct Hs. }
        rewrite r_div_spec, w_div_spec. unfold c' at 2. rewrite r_div_Nt.
        destruct (body_chk c i (front_sub c i Hi)) as [Hc Hdep]. unfold chk in Hc.
        assert (Eo : slook (rn (i_name i)) (r_div c) = slook (i_name i) (w_div c) /\
                     forall k u, slook (i_name i) (w_div c) = Some (k, u) -> k = i_count i /\ esz (i_size i) = 8).
        { destruct (slook (i_name i) (w_mul c)) as [[n1 u1]|];
          destruct (slook (i_name i) (w_div c)) as [[n2 u2]|];
          destruct (slook (rn (i_name i)) (r_div c)) as [[n3 u3]|]; try discriminate.
          - repeat (apply andb_true_iff in Hc; let H := fresh "H" in destruct Hc as [Hc H]).
            apply count_eqb_eq in Hc. apply count_eqb_eq in H3. apply count_eqb_eq in H2.
            apply unit_eqb_eq in H1. apply unit_eqb_eq in H0. apply Nat.eqb_eq in H. subst.
            split; [reflexivity|]. intros k u E. inversion E; subst. auto.
          - split; [reflexivity|]. intros k u E. discriminate. }
        destruct Eo as [Eo Ek]. rewrite Eo.
        assert (HL : lm2 (rn (i_name i)) = firstn (nbytes c m i) (m1 (i_name i)) ++
                       skipn (nbytes c m i) (lm (rn (i_name i)))).
        { rewrite Hf2 by assumption. rewrite (Hd i Hi). rewrite Hb' by assumption. reflexivity. }
        (* extents *)
        assert (Hext : forall k u, slook (i_name i) (w_div c) = Some (k, u) ->
           nbytes c m i = 8 * count_val c m1 k /\ count_val c' lm2 k = count_val c m1 k).
        { intros k u E. destruct (Ek k u E) as [-> E8]. split.
          - unfold nbytes. rewrite E8. f_equal. symmetry. apply count_val_agree.
            intros g Hg. rewrite Hint.
            + apply locals_other. intros Hx. unfold depok in Hdep. rewrite Hg in Hdep.
              apply andb_true_iff in Hdep. destruct Hdep as [_ Hdep]. apply negb_true_iff in Hdep.
              assert (smem g locals4 = true); [|congruence]. apply smem_In. cbn in Hx |- *.
              destruct Hx as [E'|[E'|[E'|[E'|[]]]]]; inversion E'; auto.
            + unfold depok in Hdep. apply andb_true_iff in Hdep. destruct Hdep as [Hdep _].
              apply andb_true_iff in Hdep. destruct Hdep as [Hdep _]. rewrite forallb_forall in Hdep.
              apply smem_In. apply Hdep. unfold deps. rewrite Hg. apply in_or_app. right. left. reflexivity.
          - pose proof (front_noNt c i Hi) as Hno. unfold noNt in Hno.
            destruct (i_count i) eqn:Ec; try reflexivity; [discriminate|]. cbn [count_val].
            (* the stored count itself *)
            assert (Hj : exists j, In j (front c) /\ i_name j = (f, 0) /\ rn (f, 0) = (f, 0) /\ nbytes c m j = 4).
            { pose proof (wf_front c) as W.
              assert (G : forall l known, wf known l = true -> In i l -> ~ In f known ->
                  exists j, In j l /\ i_name j = (f, 0) /\ rn (f, 0) = (f, 0) /\ is_int j = true).
              { induction l as [|j r IH]; intros known Hw Hin Hk; [destruct Hin|].
                cbn [wf] in Hw. apply andb_true_iff in Hw. destruct Hw as [Hw Hr].
                apply andb_true_iff in Hw. destruct Hw as [Hd0 Hrn].
                destruct Hin as [E0|Hin].
                - subst j. exfalso. apply Hk. rewrite forallb_forall in Hd0.
                  apply smem_In. apply Hd0. unfold deps. rewrite Ec. apply in_or_app. right. left. reflexivity.
                - unfold add_known in Hr. destruct (is_int j) eqn:Ej.
                  + destruct (string_dec (fst (i_name j)) f) as [Eg|Eg].
                    * exists j. apply fid_eqb_eq in Hrn.
                      assert (Ei : i_name j = (f, 0)).
                      { unfold is_int in Ej. destruct j as [[a k] s0 n0]; cbn in *.
                        destruct s0; [discriminate|]. destruct n0; try discriminate.
                        apply andb_true_iff in Ej. destruct Ej as [_ Ek0]. apply Nat.eqb_eq in Ek0. subst. reflexivity. }
                      rewrite Ei in Hrn. repeat split; auto. left; reflexivity.
                    * destruct (IH _ Hr Hin) as (j' & A & B); [intros [?|?]; contradiction|].
                      exists j'. split; [right; assumption|assumption].
                  + destruct (IH _ Hr Hin Hk) as (j' & A & B). exists j'. split; [right; assumption|assumption]. }
              destruct (G (front c) locals4 W Hi) as (j & A & B & C & D).
              - unfold depok in Hdep. rewrite Ec in Hdep.
                apply andb_true_iff in Hdep. destruct Hdep as [_ Hdep]. apply negb_true_iff in Hdep.
                intros Hx. apply smem_In in Hx. congruence.
              - exists j. repeat split; auto. unfold nbytes. unfold is_int in D.
                destruct j as [fn s0 n0]; cbn in *. destruct s0 as [|v]; [discriminate|]. destruct n0; try discriminate.
                apply andb_true_iff in D. destruct D as [D _]. apply String.eqb_eq in D. subst v. reflexivity. }
            destruct Hj as (j & Hj & En & Ern & E4).
            unfold int_of. f_equal.
            assert (HLj : lm2 (f, 0) = firstn 4 (m1 (f, 0)) ++ skipn 4 (lm (f, 0))).
            { rewrite Hf2.
              - pose proof (Hd j Hj) as Hdj. rewrite En, Ern in Hdj. rewrite Hdj.
                rewrite Hb' by assumption. rewrite E4. reflexivity.
              - pose proof (body_targets_nodup c) as HN. rewrite body_front, targets_app in HN.
                apply NoDup_app_inv in HN. destruct HN as (_ & _ & HN).
                intros Hx. apply (HN (f, 0)).
                + unfold targets. apply in_map_iff. exists j. rewrite En, Ern. auto.
                + rewrite w_series_names. unfold targets. rewrite map_map. rewrite in_map_iff in Hx |- *.
                  destruct Hx as (s & Es & Hs). exists s. split; [|assumption]. rewrite <- Es.
                  clear - Hs. cbn in Hs. repeat (destruct Hs as [Hs|Hs]; [subst s; reflexivity|]). destruct Hs. }
            rewrite HLj. rewrite firstn_app_exact; [reflexivity|]. rewrite firstn_length.
            pose proof (Hlen j Hj) as HL4. rewrite En, E4 in HL4. lia. }
        pose proof (Hlen i Hi) as Hli.
        assert (Lf : List.length (firstn (nbytes c m i) (m1 (i_name i))) = nbytes c m i) by (rewrite firstn_length; lia).
        destruct (slook (i_name i) (w_div c)) as [[k u]|]; cbn [scaled_as].
        -- destruct (Hext k u eq_refl) as [X1 X2]. rewrite X2, X1.
           rewrite !map_words_firstn; auto; try (rewrite <- X1; rewrite ?HL, ?app_length; lia).
           rewrite <- X1, HL, firstn_app_exact by exact Lf. reflexivity.
        -- rewrite HL, firstn_app_exact by exact Lf. reflexivity.
      * intros k s Hk Hroom.
        assert (Hs : In s series_names) by (eapply nth_error_In; eauto).
        assert (Hu : exists u, slook (s, 0) (r_div c) = Some (ntp1, u)).
        { assert (A : forallb (fun s => match slook (s, 0) (r_div c) with Some (ntp1, _) => true | _ => false end) series_names = true).
          { Transparent r_div. flags c; vm_compute; reflexivity. }
          rewrite forallb_forall in A. specialize (A s Hs).
          destruct (slook (s, 0) (r_div c)) as [[[] u]|]; try discriminate. exists u. reflexivity. }
        destruct Hu as [u Hu]. exists u. split; [exact Hu|].
        rewrite r_div_spec. unfold c' at 2. rewrite r_div_Nt, Hu. cbn [scaled_as count_val].
        replace (c_Nt c' + 1) with (n + 1) by reflexivity.
        pose proof (Hd2 k s Hk) as Hgot. cbn zeta in Hgot.
        replace (c_Nt c' + 1) with (n + 1) in Hgot by reflexivity.
        set (got := firstn (8 * (n + 1)) (skipn (k * (8 * (n + 1))) S)) in *.
        assert (Lg : List.length got = 8 * (n + 1)).
        { unfold got. rewrite firstn_length, skipn_length. rewrite HS. lia. }
        rewrite Hgot. rewrite map_words_firstn; [|auto|rewrite app_length; lia].
        rewrite firstn_app_exact by exact Lg. unfold got. rewrite HS. reflexivity.
Qed.
