(** Properties C103, C104: memory of a run. *)
From Coq Require Import List Arith NArith ZArith Bool String Lia.
From Coq Require Import Init.Byte.
From Verif Require ParamModel ParamProofs ParamProps.
From Verif Require Import MemModel MemProofs MemRun MemFit MemSize.
From Verif Require BreakpointModel BreakpointProofs BreakpointMain BreakpointProps.
Import ListNotations.
Open Scope string_scope.
Open Scope list_scope.
Open Scope nat_scope.

(** ** C103 *)
Definition strings_of_the_setup_file : list string :=
  ["model.writer_subfolder"; "model.import_files_dir"; "model.import_file"; "model.initial_markers_file"].

(* a run frees no block twice, nothing it does not own, and reads no table of pointers
   out of bounds, unless one of the four strings is the literal of its default *)
Theorem C103_run_undefined_iff_literal : forall o,
  run o = None <-> exists s, In s strings_of_the_setup_file /\ is_default o s = true.
Proof.
  intros o. split.
  - intros H. destruct (existsb (is_default o) four) eqn:E.
    + apply existsb_exists in E. exact E.
    + exfalso. destruct (run_ok o) as [t [R _]]; [|congruence]. intros s Hs. destruct (is_default o s) eqn:D; [|reflexivity].
      enough (existsb (is_default o) four = true) by congruence. apply existsb_exists. exists s. split; assumption.
  - intros [s [H D]]. exact (run_fails o s H D).
Qed.
Print Assumptions C103_run_undefined_iff_literal.

Lemma defined_no_literal o t : run o = Some t -> forall s, In s four -> is_default o s = false.
Proof. intros R s H. destruct (is_default o s) eqn:D; [|reflexivity]. rewrite (run_fails o s H D) in R. discriminate. Qed.

(* at the end every block is given back, except the stresses of a free-surface run *)
Theorem C103_only_stress_is_left : forall o t, run o = Some t ->
  forall b n, size_of t b = Some n <-> free_surface o = true /\ value t ("input.stress", 0) = Block b /\ n = 16%N.
Proof.
  intros o t R b n. pose proof (defined_no_literal o t R) as D. destruct (run_ok o D) as [t' [R' I]]. rewrite R in R'. injection R' as <-.
  assert (St : free_surface o = true -> exists b, value t ("input.stress", 0) = Block b /\ size_of t b = Some 16%N).
  { intros F. pose proof (i_agrees _ _ I ("input.stress", 0)) as A. rewrite stress_part, F in A. exact A. }
  split.
  - intros L. destruct (i_owned _ _ I b) as [f Hf]; [rewrite L; discriminate|].
    pose proof (i_agrees _ _ I f) as A. destruct (final o f) eqn:E; cbn in A.
    + congruence.
    + congruence.
    + congruence.
    + destruct A as [c [A1 A2]]. rewrite Hf in A1. injection A1 as <-. rewrite L in A2. injection A2 as <-.
      destruct (part_run o f D) as [_ P]. destruct (P _ E) as (-> & F & ->). auto.
    + destruct A as [c [A1 A2]]. rewrite Hf in A1. injection A1 as <-. congruence.
  - intros (F & V & ->). destruct (St F) as [c [Vc Sc]]. rewrite V in Vc. injection Vc as ->. exact Sc.
Qed.
Print Assumptions C103_only_stress_is_left.

Theorem C103_every_block_is_given_back_refuted : exists o t b, run o = Some t /\ size_of t b = Some 16%N.
Proof.
  exists (Opts 11 11 5 2 4000 10 true false false false false false (fun _ => 1%Z) false 0 (fun _ => 5%N) (fun _ => false)).
  set (o := Opts _ _ _ _ _ _ _ _ _ _ _ _ _ _ _ _ _). destruct (run_ok o) as [t [R I]]; [reflexivity|].
  pose proof (i_agrees _ _ I ("input.stress", 0)) as A. rewrite stress_part in A. destruct A as [b [_ A]]. exists t, b. split; assumption.
Qed.
Print Assumptions C103_every_block_is_given_back_refuted.

(* the allocations before the first step are always defined *)
Theorem C103_startup_defined : forall o, exec initial (ops (startup o)) <> None.
Proof. intros o. destruct (startup_ok o) as [s [-> _]]. discriminate. Qed.
Print Assumptions C103_startup_defined.

(* a line of the setup file with the parameter but no equals sign: the literal is
   kept, and the run ends in a free of it *)
Example C103_ex_setup_line :
  fst (ParamModel.ReadChar (ParamModel.mkfile (ParamProofs.text_of [ParamProps.txt "import_file blah.bin"] []) 0) (ParamProps.txt "import_file") (ParamProps.txt "blah.bin"))
    = ParamModel.Val ParamModel.Literal.
Proof. vm_compute. reflexivity. Qed.
Example C103_ex_run : let o d := Opts 11 11 5 2 4000 10 true true true true false false (fun k => Z.of_nat (2 * k)) true 2 (fun _ => 5%N) d in
  (exists t, run (o (fun _ => false)) = Some t) /\ run (o (fun s => (s =? "model.import_file")%string)) = None.
Proof.
  intros o. split.
  - destruct (run_ok (o (fun _ => false))) as [t [R _]]; [reflexivity|]. exists t. exact R.
  - apply (run_fails _ "model.import_file"); [cbn; tauto|reflexivity].
Qed.

(** ** C104 *)
(* what a checkpoint reads from and writes to an object stays inside the memory
   obtained at startup; so does every loop that rescales it *)
Theorem C104_checkpoint_fits : forall o s c m m',
  exec initial (ops (startup o)) = Some s -> same_options o c -> laid_out s m -> laid_out s m' -> in_capacity o m ->
  BreakpointProps.allocated c m /\ BreakpointProps.room c m m' /\
  forall q, In q (BreakpointModel.w_mul c ++ BreakpointModel.w_div c ++ BreakpointModel.r_div c) ->
    8 * BreakpointProps.elements c m (BreakpointModel.s_count q) <= List.length (m' (BreakpointModel.s_name q)).
Proof.
  intros o s c m m' E S L L' C. pose proof (obj_body o c S) as B. rewrite Forall_forall in B. split; [|split].
  - intros i Hi. exact (fit_object o s c m m _ _ _ E S L C (proj1 (B i Hi))).
  - intros i Hi. exact (fit_object o s c m m' _ _ _ E S L' C (proj2 (B i Hi))).
  - intros q Hq. rewrite <- BreakpointProps.elements_counted. apply (fit_object o s c m m' _ _ _ E S L' C).
    apply in_app_or in Hq. destruct Hq as [Hq|Hq]; [|apply in_app_or in Hq; destruct Hq as [Hq|Hq]].
    + pose proof (obj_mul o c S) as F. rewrite Forall_forall in F. exact (F q Hq).
    + pose proof (obj_wdiv o c S) as F. rewrite Forall_forall in F. exact (F q Hq).
    + pose proof (obj_rdiv o c S) as F. rewrite Forall_forall in F. exact (F q Hq).
Qed.
Print Assumptions C104_checkpoint_fits.

Lemma slook_some f l n u : BreakpointProofs.slook f l = Some (n, u) -> exists q, In q l /\ BreakpointModel.s_name q = f /\ BreakpointModel.s_count q = n.
Proof.
  induction l as [|q l IH]; [discriminate|]. cbn. destruct (BreakpointModel.fid_eqb (BreakpointModel.s_name q) f) eqn:E.
  - intros H. injection H as <- _. apply BreakpointProofs.fid_eqb_eq in E. exists q. auto.
  - intros H. destruct (IH H) as [r [Hr K]]. exists r. auto.
Qed.

(* hence writing a checkpoint and restarting from it are defined, and the restart has
   the saved state *)
Theorem C104_restart_defined : forall o s c m m' dmul ddiv,
  (forall u, BreakpointProofs.keeps8 (dmul u)) -> (forall u, BreakpointProofs.keeps8 (ddiv u)) ->
  exec initial (ops (startup o)) = Some s -> same_options o c -> laid_out s m -> laid_out s m' -> in_capacity o m ->
  exists file mc m2, BreakpointModel.save dmul ddiv c m = Some (file, mc) /\ BreakpointModel.load ddiv c m' file = Some (m2, []) /\
  forall x sz n, In (x, sz, n) (BreakpointProps.expected c ++ BreakpointProps.time_series) ->
    BreakpointProps.same_window (sz * BreakpointProps.elements c m n) (m2 (x, 0)) (mc (x, 0)).
Proof.
  intros o s c m m' dmul ddiv Km Kd E S L L' C.
  destruct (C104_checkpoint_fits o s c m m E S L L C) as (Al & _ & Sc). destruct (C104_checkpoint_fits o s c m m' E S L L' C) as (_ & Ro & _).
  assert (W : exists file mc, BreakpointModel.save dmul ddiv c m = Some (file, mc)).
  { unfold BreakpointModel.save. set (ml := BreakpointModel.locals m x04 x08 x08 x01). set (m1 := BreakpointModel.scale_all dmul c ml (BreakpointModel.w_mul c)).
    enough (H : exists file, BreakpointModel.fwrite_all c m1 (BreakpointModel.w_items c) = Some file).
    { destruct H as [file ->]. eexists. eexists. reflexivity. }
    rewrite BreakpointMain.w_items_body, BreakpointProofs.fwrite_all_app. unfold m1 at 1. unfold ml at 1. rewrite BreakpointMain.header_written.
    enough (H : exists file, BreakpointModel.fwrite_all c m1 (BreakpointMain.body c) = Some file) by (destruct H as [file ->]; eexists; reflexivity).
    assert (H : forall i, In i (BreakpointMain.body c) -> BreakpointModel.bytes_of c m1 i <= List.length (m1 (BreakpointModel.i_name i))).
    { intros i Hi. destruct (BreakpointMain.body_chk c i Hi) as [_ Hd]. unfold m1 at 1, ml. rewrite (BreakpointMain.depok_bytes dmul c m i Hd).
      assert (NL : ml (BreakpointModel.i_name i) = m (BreakpointModel.i_name i)).
      { apply BreakpointMain.locals_other. intros K.
        assert (K' : exists v, In v BreakpointMain.locals4 /\ BreakpointModel.i_name i = (v, 0)) by (cbn in K; cbn; destruct K as [K|[K|[K|[K|[]]]]]; rewrite <- K; eexists; (split; [|reflexivity]); tauto).
        destruct K' as [v [Hv Ev]]. apply (BreakpointMain.locals_not_target c v Hv). unfold BreakpointProofs.targets. apply in_map_iff. exists i. split; [|exact Hi].
        rewrite Ev. cbn in Hv. destruct Hv as [<-|[<-|[<-|[<-|[]]]]]; reflexivity. }
      replace (List.length (m1 (BreakpointModel.i_name i))) with (List.length (m (BreakpointModel.i_name i))); [exact (Al i Hi)|].
      unfold m1. rewrite BreakpointMain.w_mul_spec. destruct (BreakpointProofs.slook (BreakpointModel.i_name i) (BreakpointModel.w_mul c)) as [[n u]|] eqn:Sl; cbn [BreakpointProofs.scaled_as]; rewrite NL; [|reflexivity].
      symmetry. apply BreakpointProofs.map_words_length; [apply Km|]. destruct (slook_some _ _ _ _ Sl) as (q & Hq & Nq & Cq).
      specialize (Sc q (in_or_app _ _ _ (or_introl Hq))). rewrite Nq, Cq, <- BreakpointProps.elements_counted in Sc.
      replace (BreakpointModel.count_val c ml n) with (BreakpointModel.count_val c m n); [exact Sc|]. symmetry. apply BreakpointProofs.count_val_agree.
      intros g ->. apply BreakpointMain.locals_other. intros K. pose proof (obj_mul o c S) as F. rewrite Forall_forall in F. specialize (F q Hq). unfold scl_object, object in F. rewrite Cq in F.
      destruct F as [[F _]|[[F _]|[_ [F _]]]]; try discriminate. cbn in K. destruct K as [K|[K|[K|[K|[]]]]]; injection K as <-; cbn in F; rewrite andb_false_r in F; discriminate. }
    revert H. generalize (BreakpointMain.body c) as l. induction l as [|i l IH]; intros H; [eexists; reflexivity|]. cbn [BreakpointModel.fwrite_all].
    unfold BreakpointModel.fwrite. destruct (Nat.leb_spec (BreakpointModel.bytes_of c m1 i) (List.length (m1 (BreakpointModel.i_name i)))) as [_|K].
    - destruct IH as [file ->]; [intros j Hj; apply H; right; exact Hj|]. eexists. reflexivity.
    - pose proof (H i (or_introl eq_refl)). lia. }
  destruct W as (file & mc & W). exists file, mc. destruct (BreakpointProps.C08_restart_equals_continuing_run dmul ddiv c m m' file mc Kd W Ro) as (m2 & Ld & H & _).
  exists m2. auto.
Qed.
Print Assumptions C104_restart_defined.

(* the hypotheses hold for the memory as calloc leaves it *)
Definition doubles := ["model.dt"; "model.dt0"; "model.time"; "model.xmin"; "model.xmax"; "model.zmin"; "model.zmax"; "model.L0"; "mesh->Uthermal"; "mesh->Work"].
Definition ints := ["particles->Nb_part"; "topo_chain->Nb_part"; "topo_chain_ini->Nb_part"].
Definition zeros (s : state) : BreakpointModel.mem := fun f =>
  if MemRun.mem (fst f) doubles then repeat x00 8 else if MemRun.mem (fst f) ints then repeat x00 4 else
  match value s f with Block b => match size_of s b with Some n => repeat x00 (N.to_nat n) | None => [] end | _ => [] end.
Lemma zeros_laid_out o s : exec initial (ops (startup o)) = Some s -> laid_out s (zeros s).
Proof.
  intros E. destruct (startup_ok o) as [s' [E' I]]. rewrite E in E'. injection E' as <-.
  assert (P : forall f, In (fst f) (doubles ++ ints) -> flat_map (loc f) (rest1 o) = [] /\ ~ In (fst f) four).
  { intros [x i] H. cbn [fst doubles ints app In] in H. split.
    - rewrite rest1_relevant. repeat (destruct H as [<-|H]; [cbv; reflexivity|]). destruct H.
    - cbn [fst]. intros K. apply mem_spec in K. repeat (destruct H as [<-|H]; [discriminate K|]). destruct H. }
  assert (Q : forall f, In (fst f) (doubles ++ ints) -> forall b, value s f <> Block b).
  { intros [x i] H b. destruct (P _ H) as [P1 P2]. cbn [fst] in P2. pose proof (i_agrees _ _ I (x, i)) as A.
    replace (after o (x, i)) with (start (x, i)) in A by (unfold after, part1; rewrite read_part by exact P2; rewrite P1; reflexivity).
    unfold start in A. destruct (zeroed _); cbn in A; congruence. }
  split; [|split].
  - intros f b n V Sz. unfold zeros. destruct (MemRun.mem (fst f) doubles) eqn:D; [|destruct (MemRun.mem (fst f) ints) eqn:J].
    + apply mem_spec in D. elim (Q f (in_or_app _ _ _ (or_introl D)) b V).
    + apply mem_spec in J. elim (Q f (in_or_app _ _ _ (or_intror J)) b V).
    + rewrite V, Sz, repeat_length. lia.
  - intros x H. unfold zeros. cbn [fst]. assert (M : MemRun.mem x doubles = true) by (apply mem_spec; exact H). rewrite M. reflexivity.
  - intros x H. unfold zeros. cbn [fst]. assert (M : MemRun.mem x ints = true) by (apply mem_spec; exact H). rewrite M.
    destruct (MemRun.mem x doubles) eqn:D; [|reflexivity]. apply mem_spec in D. cbn in H. destruct H as [<-|[<-|[<-|[]]]]; cbn in D; intuition discriminate.
Qed.
Example C104_ex : let o := Opts 11 11 5 2 4000 10 true true true true false false (fun k => Z.of_nat (2 * k)) true 2 (fun _ => 5%N) (fun _ => false) in
  let c := BreakpointModel.mkcfg 11 11 5 2 true true true true true in
  exists s file mc m2, exec initial (ops (startup o)) = Some s /\ BreakpointModel.save BreakpointProps.one_unit BreakpointProps.one_unit c (zeros s) = Some (file, mc) /\
    BreakpointModel.load BreakpointProps.one_unit c (zeros s) file = Some (m2, []).
Proof.
  intros o c. destruct (startup_ok o) as [s [E I]]. pose proof (zeros_laid_out o s E) as L.
  destruct (C104_restart_defined o s c (zeros s) (zeros s) BreakpointProps.one_unit BreakpointProps.one_unit BreakpointProps.one_unit_keeps BreakpointProps.one_unit_keeps E)
    as (file & mc & m2 & H1 & H2 & _); try exact L.
  - repeat split.
  - split; [|intros _; split]; vm_compute; discriminate.
  - exists s, file, mc, m2. auto.
Qed.

(* with more markers than the capacity the same write is out of bounds *)
Theorem C104_fits_for_any_number_of_markers_refuted : exists o s c m i, exec initial (ops (startup o)) = Some s /\ same_options o c /\ laid_out s m /\
  In i (BreakpointMain.body c) /\ BreakpointModel.i_name i = ("particles->x", 0) /\
  List.length (m (BreakpointModel.i_name i)) < 8 * BreakpointProps.elements c m (BreakpointModel.i_count i).
Proof.
  set (o := Opts 11 11 5 2 2 10 true true true true false false (fun k => Z.of_nat (2 * k)) true 2 (fun _ => 5%N) (fun _ => false)).
  destruct (startup_ok o) as [s [E I]]. pose proof (zeros_laid_out o s E) as L.
  set (m := BreakpointModel.upd (zeros s) ("particles->Nb_part", 0) [x03; x00; x00; x00]).
  exists o, s, (BreakpointModel.mkcfg 11 11 5 2 true true true true true), m, (BreakpointModel.it "particles->x" (BreakpointModel.SzVar "s3") (BreakpointModel.nb "particles->Nb_part")).
  split; [exact E|]. split; [repeat split|]. split.
  - assert (U : forall f, m f = zeros s f \/ f = ("particles->Nb_part", 0)).
    { intros f. unfold m, BreakpointModel.upd. destruct (BreakpointModel.fid_eqb ("particles->Nb_part", 0) f) eqn:Q; [|auto]. apply BreakpointProofs.fid_eqb_eq in Q. auto. }
    destruct L as (L1 & L2 & L3). split; [|split].
    + intros f b n V Sz. destruct (U f) as [->| ->]; [exact (L1 f b n V Sz)|]. pose proof (L1 _ b n V Sz) as K. rewrite <- K. reflexivity.
    + intros x H. destruct (U (x, 0)) as [->|Q]; [exact (L2 x H)|]. injection Q as ->. exfalso. cbn in H. intuition discriminate.
    + intros x H. destruct (U (x, 0)) as [->|Q]; [exact (L3 x H)|]. injection Q as ->. reflexivity.
  - split; [|split; [reflexivity|]].
    + apply in_or_app. left. unfold BreakpointModel.w_pre. apply in_or_app. right. apply in_or_app. right. apply in_or_app. left. right. left. reflexivity.
    + cbn [BreakpointModel.i_name BreakpointModel.it BreakpointModel.i_count]. change (m ("particles->x", 0)) with (zeros s ("particles->x", 0)).
      assert (P : exists b, value s ("particles->x", 0) = Block b /\ size_of s b = Some 16%N).
      { apply (obtained o s _ 16 E); [cbn; intuition discriminate|]. vm_compute. reflexivity. }
      destruct P as (b & V & Sz). destruct L as (L1 & _). pose proof (L1 _ _ _ V Sz) as K.
      assert (K' : List.length (zeros s ("particles->x", 0)) = 16) by lia. rewrite K'. vm_compute. lia.
Qed.
Print Assumptions C104_fits_for_any_number_of_markers_refuted.

(* every array of the mesh, the markers, the surface and the residual history has
   exactly the size that its name stands for: _n cell centres, _s vertices, ... *)
Theorem C104_size_from_name : forall o s f b n, exec initial (ops (startup o)) = Some s -> family (fst f) = true ->
  value s f = Block b -> size_of s b = Some n -> bytes_by_name o (fst f) = Some n.
Proof. exact sizes. Qed.
Print Assumptions C104_size_from_name.
Example C104_ex_sizes : let o := Opts 11 21 5 2 4000 10 true true true true false false (fun k => Z.of_nat (2 * k)) true 2 (fun _ => 5%N) (fun _ => false) in
  bytes_by_name o "mesh->eta_n" = Some 1600%N /\ bytes_by_name o "mesh->eta_s" = Some 1848%N /\ bytes_by_name o "mesh->u" = Some 1936%N /\
  bytes_by_name o "mesh->kvz" = Some 1008%N /\ bytes_by_name o "particles->phase" = Some 16000%N /\
  exists s b, exec initial (ops (startup o)) = Some s /\ value s ("mesh->eta_n", 0) = Block b /\ size_of s b = Some 1600%N.
Proof.
  intros o. do 5 (split; [vm_compute; reflexivity|]). destruct (startup_ok o) as [s [E _]]. exists s.
  destruct (obtained o s ("mesh->eta_n", 0) 1600 E) as [b B]; [cbn; intuition discriminate|vm_compute; reflexivity|]. exists b. auto.
Qed.
