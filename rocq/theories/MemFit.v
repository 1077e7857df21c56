(** The state after the allocations of MemModel.v, and the checkpoints of BreakpointModel.v. *)
From Coq Require Import List Arith NArith ZArith Bool String Lia.
From Verif Require Import MemModel MemProofs MemRun.
From Verif Require BreakpointModel BreakpointProofs BreakpointMain BreakpointProps.
Import ListNotations.
Open Scope string_scope.
Open Scope list_scope.
Open Scope nat_scope.

Definition rest1 (o : opts) : list stmt :=
 [ get "model.PD1DnP" (N.of_nat (nph o) * 4); get "model.PD1Drho" (N.of_nat (nph o) * 8); get "model.PD1Dmin" (N.of_nat (nph o) * 8); get "model.PD1Dmax" (N.of_nat (nph o) * 8);
   GetEach (nph o) (fun k => (density o k =? 4)%Z) "model.PD1Drho" "PD1Drho[]" (10000 * 8) ] ++
 sec (isPD o) (AllocatePhaseDiagrams ++ ReadTables) ++
 sec (kinetics o) [ get "model.kin_dG" (675 * 2500 * 8) ] ++
 Begin o ++ GridAlloc o ++ NmodelAlloc o ++ PartAlloc o ++
 sec (free_surface o) (AllocateMarkerChain o "topo" "topo_chain" ++ AllocateMarkerChain o "topo_ini" "topo_chain_ini").
Lemma split_startup o : startup o = map (read_char o) four ++ rest1 o.
Proof. unfold startup, rest1, ReadInputFile. rewrite <- !app_assoc. reflexivity. Qed.
Definition sections1 (o : opts) : list (cond * list stmt) :=
  ltac:(let t := eval cbv beta delta [rest1 Begin GridAlloc PartAlloc NmodelAlloc] in (rest1 o) in
   let r := reify o t in exact r).
Lemma sections1_spec o : rest1 o = chosen (flags o) (sections1 o).
Proof. unfold sections1. rewrite !chosen_app, !chosen_one. reflexivity. Qed.
Lemma rest1_relevant o f : flat_map (loc f) (rest1 o) = flat_map (loc f) (chosen (flags o) (relevant f (sections1 o))).
Proof. rewrite sections1_spec. apply relevant_spec. Qed.

Definition part1 (o : opts) (f : var) : list op := flat_map (loc f) (map (read_char o) four) ++ flat_map (loc f) (rest1 o).
Lemma wf_startup o : forallb wf (startup o) = true.
Proof. pose proof (wf_rest o) as H. rewrite forallb_app in H. apply andb_true_iff in H. apply H. Qed.
Lemma part1_spec o f : filter (on f) (ops (startup o)) = part1 o f.
Proof. rewrite locs_spec by apply wf_startup. rewrite split_startup, flat_map_app. reflexivity. Qed.
Lemma part1_prefix o f : exists r, part o f = part1 o f ++ r.
Proof.
  exists (filter (on f) (ops (cleanup o))). rewrite <- part_spec, <- part1_spec. unfold ops. rewrite flat_map_app, filter_app. reflexivity.
Qed.
Lemma four_part1 o s : In s four -> part1 o (s, 0) = [if is_default o s then Text (s, 0) else Get (s, 0) (text_length o s + 1)].
Proof.
  intros H. unfold part1. rewrite rest1_relevant. cbn [map four flat_map]. unfold read_char.
  cbn [four In] in H. destruct H as [<-|[<-|[<-|[<-|[]]]]];
  destruct (is_default o "model.writer_subfolder"), (is_default o "model.import_files_dir"), (is_default o "model.import_file"), (is_default o "model.initial_markers_file");
  cbv -[text_length N.add]; reflexivity.
Qed.
Definition after (o : opts) (f : var) : status := match lrun (start f) (part1 o f) with Some y => y | None => SNull end.
Lemma part1_run o f : lrun (start f) (part1 o f) = Some (after o f).
Proof.
  unfold after. destruct f as [s i]. destruct (part1_prefix o (s, i)) as [r Hr].
  destruct (in_dec string_dec s four) as [F|F].
  - destruct i as [|i].
    + rewrite four_part1 by exact F. cbn [lrun]. unfold start. destruct (zeroed _), (is_default o s); reflexivity.
    + rewrite four_other in Hr by exact F. symmetry in Hr. apply app_eq_nil in Hr. destruct Hr as [-> _]. reflexivity.
  - destruct (good_run _ _ _ (part_good o s i F)) as [y [Hy _]]. rewrite Hr, app_lrun in Hy. destruct (lrun _ (part1 o (s, i))); [reflexivity|discriminate].
Qed.
Lemma startup_ok o : exists s, exec initial (ops (startup o)) = Some s /\ inv s (after o).
Proof. apply (exec_sim _ initial start); [apply inv_initial|]. intros f. rewrite part1_spec. apply part1_run. Qed.

(** The block of a variable after the allocations. *)
Lemma obtained o s f z : exec initial (ops (startup o)) = Some s -> ~ In (fst f) four -> flat_map (loc f) (rest1 o) = [Get f z] ->
  exists b, value s f = Block b /\ size_of s b = Some z.
Proof.
  intros E NF H. destruct (startup_ok o) as [s' [E' I]]. rewrite E in E'. injection E' as <-. pose proof (i_agrees _ _ I f) as A.
  replace (after o f) with (SLive z) in A; [exact A|]. unfold after, part1. destruct f as [n i]. cbn [fst] in NF. rewrite read_part by exact NF.
  rewrite H. cbn. unfold start. destruct (zeroed _); reflexivity.
Qed.

(** ** Checkpoints *)
Definition same_options (o : opts) (c : BreakpointModel.cfg) : Prop :=
  nx o = N.of_nat (BreakpointModel.c_Nx c) /\ nz o = N.of_nat (BreakpointModel.c_Nz c) /\ nt o = N.of_nat (BreakpointModel.c_Nt c) /\
  nph o = BreakpointModel.c_nph c /\ free_surface o = BreakpointModel.c_fs c /\ anisotropy o = BreakpointModel.c_an c /\
  finite_strain o = BreakpointModel.c_fst c /\ track o = BreakpointModel.c_tr c.
(* the bytes of [m] are those of the blocks of [s]; doubles and ints of the structures *)
Definition laid_out (s : state) (m : BreakpointModel.mem) : Prop :=
  (forall f b n, value s f = Block b -> size_of s b = Some n -> N.of_nat (List.length (m f)) = n) /\
  (forall x, In x ["model.dt"; "model.dt0"; "model.time"; "model.xmin"; "model.xmax"; "model.zmin"; "model.zmax"; "model.L0"; "mesh->Uthermal"; "mesh->Work"] ->
     List.length (m (x, 0)) = 8) /\
  (forall x, In x ["particles->Nb_part"; "topo_chain->Nb_part"; "topo_chain_ini->Nb_part"] -> List.length (m (x, 0)) = 4).
Definition in_capacity (o : opts) (m : BreakpointModel.mem) : Prop :=
  (N.of_nat (BreakpointModel.int_of m "particles->Nb_part") <= npmax o)%N /\
  (free_surface o = true -> (N.of_nat (BreakpointModel.int_of m "topo_chain->Nb_part") <= 50 * nx o)%N /\
                            (N.of_nat (BreakpointModel.int_of m "topo_chain_ini->Nb_part") <= 50 * nx o)%N).

Definition cap (o : opts) (n : BreakpointModel.count) : N :=
  match n with
  | BreakpointModel.one => 1 | BreakpointModel.cells => cells o | BreakpointModel.verts => verts o
  | BreakpointModel.vxn => vxn o | BreakpointModel.vzn => vzn o | BreakpointModel.nx => nx o | BreakpointModel.ncx => nx o - 1
  | BreakpointModel.nxp1 => nx o + 1 | BreakpointModel.ntp1 => nt o + 1
  | BreakpointModel.nb f => if (f =? "particles->Nb_part")%string then npmax o else 50 * nx o
  end%N.
Definition known (fs : bool) (n : BreakpointModel.count) : bool :=
  match n with BreakpointModel.nb f => (f =? "particles->Nb_part")%string || (fs && ((f =? "topo_chain->Nb_part")%string || (f =? "topo_chain_ini->Nb_part")%string)) | _ => true end.
Lemma count_cap o c m n : same_options o c -> in_capacity o m -> known (free_surface o) n = true -> (N.of_nat (BreakpointModel.count_val c m n) <= cap o n)%N.
Proof.
  intros (X & Z & T & _) (P & Q) K. destruct n; cbn [cap BreakpointModel.count_val]; unfold cells, verts, vxn, vzn; rewrite ?X, ?Z, ?T; try lia.
  cbn [known] in K. destruct (String.eqb_spec f "particles->Nb_part") as [->|N]; [exact P|]. cbn [orb] in K. apply andb_true_iff in K. destruct K as [K1 K2].
  destruct (Q K1) as [Q1 Q2]. rewrite X in Q1, Q2. apply orb_true_iff in K2. destruct K2 as [K2|K2]; apply String.eqb_eq in K2; subst f; assumption.
Qed.

Lemma fit_array o s c m m' f z sz n : exec initial (ops (startup o)) = Some s -> same_options o c -> laid_out s m' -> in_capacity o m ->
  mem (fst f) four = false -> known (free_surface o) n = true -> flat_map (loc f) (rest1 o) = [Get f z] -> (cap o n * N.of_nat sz <= z)%N ->
  sz * BreakpointModel.count_val c m n <= List.length (m' f).
Proof.
  intros E S (L & _) C NF K H Z. assert (NF' : ~ In (fst f) four) by (intros I; apply mem_spec in I; congruence).
  destruct (obtained o s f z E NF' H) as (b & V & Sz). pose proof (L f b z V Sz) as Hl. pose proof (count_cap o c m n S C K) as Hc. nia.
Qed.
(* objects of a checkpoint *)
Definition object (o : opts) (fs : bool) (f : BreakpointModel.fid) (sz : nat) (n : BreakpointModel.count) : Prop :=
  (n = BreakpointModel.one /\ sz = 8 /\ snd f = 0 /\ mem (fst f) ["model.dt"; "model.dt0"; "model.time"; "model.xmin"; "model.xmax"; "model.zmin"; "model.zmax"; "model.L0"; "mesh->Uthermal"; "mesh->Work"] = true) \/
  (n = BreakpointModel.one /\ sz = 4 /\ snd f = 0 /\ mem (fst f) ["particles->Nb_part"; "topo_chain->Nb_part"; "topo_chain_ini->Nb_part"] = true) \/
  (mem (fst f) four = false /\ known fs n = true /\ exists z, flat_map (loc f) (rest1 o) = [Get f z] /\ (cap o n * N.of_nat sz <= z)%N).
Lemma fit_object o s c m m' f sz n : exec initial (ops (startup o)) = Some s -> same_options o c -> laid_out s m' -> in_capacity o m ->
  object o (free_surface o) f sz n -> sz * BreakpointModel.count_val c m n <= List.length (m' f).
Proof.
  intros E S L C [H|[H|H]].
  - destruct H as (-> & -> & Hi & H). destruct f as [x i]. cbn [fst snd] in *. subst i. apply mem_spec in H. destruct L as (_ & L & _). rewrite (L x H). cbn. lia.
  - destruct H as (-> & -> & Hi & H). destruct f as [x i]. cbn [fst snd] in *. subst i. apply mem_spec in H. destruct L as (_ & _ & L). rewrite (L x H). cbn. lia.
  - destruct H as (H1 & H2 & z & H3 & H4). exact (fit_array o s c m m' f z sz n E S L C H1 H2 H3 H4).
Qed.
Ltac obj :=
  first [ left; repeat split; reflexivity
        | right; left; repeat split; reflexivity
        | right; right; split; [reflexivity|]; split; [reflexivity|];
          eexists; split; [rewrite rest1_relevant; unfold flags; repeat match goal with H : _ = true |- _ => rewrite H end;
             cbv -[cells verts vxn vzn nx nz nt npmax N.mul N.add N.sub]; reflexivity|cbn -[N.mul N.add N.sub]; lia] ].
Ltac objs := repeat (apply Forall_cons; [obj|]); apply Forall_nil.
Ltac sect := match goal with
  | |- Forall _ (BreakpointModel.sec ?b _) => destruct b eqn:?; [objs|apply Forall_nil]
  | |- Forall _ (BreakpointModel.secs ?b _) => destruct b eqn:?; [objs|apply Forall_nil]
  | |- _ => objs
  end.
Definition item_object (o : opts) (i : BreakpointModel.item) : Prop :=
  object o (free_surface o) (BreakpointModel.i_name i) (BreakpointMain.esz (BreakpointModel.i_size i)) (BreakpointModel.i_count i) /\
  object o (free_surface o) (BreakpointProofs.rn (BreakpointModel.i_name i)) (BreakpointMain.esz (BreakpointModel.i_size i)) (BreakpointModel.i_count i).
Definition scl_object (o : opts) (i : BreakpointModel.scl) : Prop :=
  object o (free_surface o) (BreakpointModel.s_name i) 8 (BreakpointModel.s_count i).
Ltac obj ::=
  try split;
  first [ left; repeat split; reflexivity
        | right; left; repeat split; reflexivity
        | right; right; split; [reflexivity|]; split; [cbn [known BreakpointModel.i_count BreakpointModel.it BreakpointModel.s_count BreakpointModel.sc]; repeat match goal with H : _ = true |- _ => rewrite H end; reflexivity|];
          eexists; split; [rewrite rest1_relevant; unfold flags; repeat match goal with H : _ = true |- _ => rewrite H end;
             cbv -[cells verts vxn vzn nx nz nt npmax N.mul N.add N.sub]; reflexivity|cbn -[N.mul N.add N.sub]; lia] ].
Lemma obj_pre o c : same_options o c -> Forall (item_object o) (BreakpointModel.w_pre c).
Proof.
  intros (_ & _ & _ & _ & F & A & Fs & T). unfold BreakpointModel.w_pre. rewrite <- F, <- A, <- Fs, <- T.
  repeat (apply Forall_app; split); sect.
Qed.
Lemma obj_post o c : Forall (item_object o) (BreakpointModel.w_post c).
Proof. unfold BreakpointModel.w_post. sect. Qed.
Lemma obj_series o c : Forall (item_object o) (BreakpointModel.w_series c).
Proof. unfold BreakpointModel.w_series. sect. Qed.
Lemma obj_phase o k : k < nph o -> Forall (item_object o) (BreakpointModel.w_phase k).
Proof.
  intros H. apply Nat.ltb_lt in H. unfold BreakpointModel.w_phase.
  repeat (apply Forall_cons; [split; right; right; (split; [reflexivity|]); (split; [reflexivity|]); eexists; (split;
    [rewrite rest1_relevant; cbv -[cells verts Nat.ltb N.mul nph]; rewrite H; reflexivity|cbn -[N.mul N.add N.sub]; lia])|]); apply Forall_nil.
Qed.
Lemma obj_body o c : same_options o c -> Forall (item_object o) (BreakpointMain.body c).
Proof.
  intros S. unfold BreakpointMain.body. apply Forall_app. split; [exact (obj_pre o c S)|]. apply Forall_app. split.
  - apply Forall_forall. intros i Hi. apply in_flat_map in Hi. destruct Hi as [k [Hk Hi]]. apply in_seq in Hk.
    destruct S as (_ & _ & _ & S & _). pose proof (obj_phase o k ltac:(lia)) as P. rewrite Forall_forall in P. exact (P i Hi).
  - apply Forall_app. split; [apply obj_post|apply obj_series].
Qed.
Lemma obj_mul o c : same_options o c -> Forall (scl_object o) (BreakpointModel.w_mul c).
Proof.
  intros (_ & _ & _ & _ & F & A & Fs & T). unfold BreakpointModel.w_mul. rewrite <- F, <- T.
  repeat (apply Forall_app; split); sect.
Qed.
Lemma obj_wdiv o c : same_options o c -> Forall (scl_object o) (BreakpointModel.w_div c).
Proof.
  intros (_ & _ & _ & _ & F & A & Fs & T). unfold BreakpointModel.w_div. rewrite <- F, <- T.
  repeat (apply Forall_app; split); sect.
Qed.
Lemma obj_rdiv o c : same_options o c -> Forall (scl_object o) (BreakpointModel.r_div c).
Proof.
  intros (_ & _ & _ & _ & F & A & Fs & T). unfold BreakpointModel.r_div. rewrite <- F, <- T.
  repeat (apply Forall_app; split); sect.
Qed.
