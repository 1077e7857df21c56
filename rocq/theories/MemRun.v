(** The run of MemModel.v, one pointer variable at a time. *)
From Coq Require Import List Arith NArith ZArith Bool String Lia.
From Verif Require Import MemModel MemProofs.
Import ListNotations.
Open Scope string_scope.
Open Scope list_scope.
Open Scope nat_scope.

Definition four : list string := ["model.writer_subfolder"; "model.import_files_dir"; "model.import_file"; "model.initial_markers_file"].
Definition rest (o : opts) : list stmt :=
 [ get "model.PD1DnP" (N.of_nat (nph o) * 4); get "model.PD1Drho" (N.of_nat (nph o) * 8); get "model.PD1Dmin" (N.of_nat (nph o) * 8); get "model.PD1Dmax" (N.of_nat (nph o) * 8);
   GetEach (nph o) (fun k => (density o k =? 4)%Z) "model.PD1Drho" "PD1Drho[]" (10000 * 8) ] ++
 sec (isPD o) (AllocatePhaseDiagrams ++ ReadTables) ++
 sec (kinetics o) [ get "model.kin_dG" (675 * 2500 * 8) ] ++
 Begin o ++ GridAlloc o ++ NmodelAlloc o ++ PartAlloc o ++
 sec (free_surface o) (AllocateMarkerChain o "topo" "topo_chain" ++ AllocateMarkerChain o "topo_ini" "topo_chain_ini") ++ cleanup o.
Lemma split_run o : startup o ++ cleanup o = map (read_char o) four ++ rest o.
Proof. unfold startup, rest, ReadInputFile. rewrite <- !app_assoc. reflexivity. Qed.

Definition tables : list string :=
 ["mesh->phase_perc_n[]"; "mesh->phase_perc_n"; "mesh->phase_perc_s[]"; "mesh->phase_perc_s"; "mesh->phase_eta_n[]"; "mesh->phase_eta_n";
  "mesh->phase_eta_s[]"; "mesh->phase_eta_s"; "model.PD1Drho"; "PD1Drho[]"; "model.PDMrho"; "PDMrho[]"].
Definition mem (s : string) (l : list string) : bool := existsb (String.eqb s) l.
(** Sections of the run, each under its test. *)
Inductive cond := Always | FS | AN | FI | TR | AM | KI | PD | CR.
Definition test (fs an fi tr ma ki pd cr : bool) (c : cond) : bool :=
  match c with Always => true | FS => fs | AN => an | FI => fi | TR => tr | AM => an && ma | KI => ki | PD => pd | CR => cr end.
Definition chosen {A} (v : cond -> bool) (L : list (cond * list A)) : list A := flat_map (fun q => if v (fst q) then snd q else []) L.
Ltac reify o t :=
  match t with
  | ?a ++ ?b => let x := reify o a in let y := reify o b in constr:(x ++ y)
  | sec (free_surface o) ?a => constr:([(FS, a)])
  | sec (anisotropy o) ?a => constr:([(AN, a)])
  | sec (finite_strain o) ?a => constr:([(FI, a)])
  | sec (track o) ?a => constr:([(TR, a)])
  | sec (anisotropy o && marker_angle o) ?a => constr:([(AM, a)])
  | sec (kinetics o) ?a => constr:([(KI, a)])
  | sec (isPD o) ?a => constr:([(PD, a)])
  | sec (crazy o) ?a => constr:([(CR, a)])
  | _ => constr:([(Always, t)])
  end.
Definition sections (o : opts) : list (cond * list stmt) :=
  ltac:(let t := eval cbv beta delta [rest cleanup Begin GridAlloc PartAlloc NmodelAlloc GridFree PartFree NmodelFree] in (rest o) in
   let r := reify o t in exact r).
Definition flags (o : opts) : cond -> bool :=
  test (free_surface o) (anisotropy o) (finite_strain o) (track o) (marker_angle o) (kinetics o) (isPD o) (crazy o).
Lemma chosen_app {A} v (a b : list (cond * list A)) : chosen v (a ++ b) = chosen v a ++ chosen v b.
Proof. apply flat_map_app. Qed.
Lemma chosen_one v c a : chosen v [(c, a)] = sec (v c) a.
Proof. unfold chosen. cbn. rewrite app_nil_r. reflexivity. Qed.
Lemma sections_spec o : rest o = chosen (flags o) (sections o).
Proof. unfold sections. rewrite !chosen_app, !chosen_one. reflexivity. Qed.

(** The operations on one variable, section by section. *)
Definition profile (f : var) (L : list (cond * list stmt)) : list (cond * list op) :=
  flat_map (fun q => match flat_map (loc f) (snd q) with [] => [] | l => [(fst q, l)] end) L.
Lemma profile_spec f v L : flat_map (loc f) (chosen v L) = chosen v (profile f L).
Proof.
  induction L as [|[c l] L IH]; [reflexivity|]. unfold profile. cbn [flat_map fst snd]. rewrite chosen_app. fold (profile f L). rewrite <- IH.
  unfold chosen at 1. cbn [flat_map fst snd]. rewrite flat_map_app. fold (chosen v L). f_equal.
  destruct (flat_map (loc f) l) as [|p r] eqn:E.
  - destruct (v c); [exact E|reflexivity].
  - unfold chosen. cbn [flat_map fst snd]. rewrite app_nil_r. destruct (v c); [exact E|reflexivity].
Qed.

Definition good (fs : bool) (f : var) (l : list op) : bool :=
  match lrun (start f) l with
  | Some (SLive n) => var_eqb f ("input.stress", 0) && fs && (n =? 16)%N
  | Some _ => true
  | None => false
  end.
Definition both (p : bool -> bool) : bool := p true && p false.
Lemma both_spec p : both p = true -> forall b, p b = true.
Proof. unfold both. intros H [|]; apply andb_true_iff in H; apply H. Qed.
Definition always_good (f : var) (P : list (cond * list op)) : bool :=
  both (fun fs => both (fun an => both (fun fi => both (fun tr => both (fun ma => both (fun ki => both (fun pd => both (fun cr =>
    good fs f (chosen (test fs an fi tr ma ki pd cr) P))))))))).
Definition ok (o : opts) (s : string) : bool :=
  mem s tables || mem s four || (always_good (s, 0) (profile (s, 0) (sections o)) && forallb (fun q => forallb (plain s) (snd q)) (sections o)).
Lemma all_ok o : forallb (ok o) (flat_map (fun q => flat_map strings (snd q)) (sections o)) = true.
Proof. vm_compute. reflexivity. Qed.

Definition relevant (f : var) (L : list (cond * list stmt)) : list (cond * list stmt) :=
  flat_map (fun q => if mem (fst f) (flat_map strings (snd q)) then [q] else []) L.
Lemma mem_spec s l : mem s l = true <-> In s l.
Proof.
  unfold mem. rewrite existsb_exists. split; [intros [x [H E]]; apply String.eqb_eq in E; subst; exact H|].
  intros H. exists s. split; [exact H|apply String.eqb_refl].
Qed.
Lemma relevant_spec f v L : flat_map (loc f) (chosen v L) = flat_map (loc f) (chosen v (relevant f L)).
Proof.
  induction L as [|[c l] L IH]; [reflexivity|]. unfold chosen at 1, relevant. cbn [flat_map fst snd]. fold (chosen v L) (relevant f L).
  rewrite flat_map_app, IH. destruct (mem (fst f) (flat_map strings l)) eqn:E.
  - cbn [app]. unfold chosen at 2. cbn [flat_map fst snd]. fold (chosen v (relevant f L)). rewrite flat_map_app. reflexivity.
  - replace (flat_map (loc f) (if v c then l else [])) with (@nil op); [cbn [app]; reflexivity|]. destruct (v c); [|reflexivity].
    symmetry. apply unmentioned. intros H. apply mem_spec in H. congruence.
Qed.
Lemma rest_relevant o f : flat_map (loc f) (rest o) = flat_map (loc f) (chosen (flags o) (relevant f (sections o))).
Proof. rewrite sections_spec. apply relevant_spec. Qed.

Lemma base_run f n (c c' : nat -> bool) : zeroed (fst f) = true \/ zeroed (fst f) = false ->
  lrun (start f) ([Get f (N.of_nat n * 8)] ++ map (Entry f) (filter c (seq 0 n)) ++ map (Entry f) (filter c' (seq 0 n)) ++ [Rel f]) = Some SDead.
Proof.
  intros _. cbn [app lrun]. replace (lstep (start f) (Get f (N.of_nat n * 8))) with (Some (SLive (N.of_nat n * 8))) by (unfold start; destruct (zeroed (fst f)); reflexivity).
  assert (H : forall c0, lrun (SLive (N.of_nat n * 8)) (map (Entry f) (filter c0 (seq 0 n))) = Some (SLive (N.of_nat n * 8))).
  { intros c0. apply (entries f n); [|lia]. intros k Hk. apply filter_In in Hk. destruct Hk as [Hk _]. apply in_seq in Hk. lia. }
  rewrite app_lrun, H, app_lrun, H. reflexivity.
Qed.
Lemma elem_run f b z : lrun (start f) ((if b : bool then [Get f z] else []) ++ (if b then [Rel f] else [])) = Some (if b then SDead else start f).
Proof. destruct b; [|reflexivity]. cbn. unfold start. destruct (zeroed (fst f)); reflexivity. Qed.

Lemma base0 o : flat_map (loc ("mesh->phase_perc_n[]", 0)) (rest o) =
  let f := ("mesh->phase_perc_n[]", 0) in [Get f (N.of_nat (nph o) * 8)] ++ map (Entry f) (filter (fun _ => true) (seq 0 (nph o))) ++ map (Entry f) (filter (fun _ => true) (seq 0 (nph o))) ++ [Rel f].
Proof. rewrite rest_relevant. cbv -[seq filter map N.mul N.of_nat nph]. reflexivity. Qed.
Lemma base_other0 o i : flat_map (loc ("mesh->phase_perc_n[]", S i)) (rest o) = [].
Proof. rewrite rest_relevant. cbv -[seq filter map N.mul N.of_nat nph]. reflexivity. Qed.
Lemma elem0 o i : flat_map (loc ("mesh->phase_perc_n", i)) (rest o) =
  let f := ("mesh->phase_perc_n", i) in (if (i <? nph o) && true then [Get f (cells o * 8)] else []) ++ (if (i <? nph o) && true then [Rel f] else []).
Proof. rewrite rest_relevant. cbv -[seq filter map N.mul N.of_nat nph Nat.ltb cells verts]. destruct (i <? nph o); reflexivity. Qed.
Lemma base1 o : flat_map (loc ("mesh->phase_perc_s[]", 0)) (rest o) =
  let f := ("mesh->phase_perc_s[]", 0) in [Get f (N.of_nat (nph o) * 8)] ++ map (Entry f) (filter (fun _ => true) (seq 0 (nph o))) ++ map (Entry f) (filter (fun _ => true) (seq 0 (nph o))) ++ [Rel f].
Proof. rewrite rest_relevant. cbv -[seq filter map N.mul N.of_nat nph]. reflexivity. Qed.
Lemma base_other1 o i : flat_map (loc ("mesh->phase_perc_s[]", S i)) (rest o) = [].
Proof. rewrite rest_relevant. cbv -[seq filter map N.mul N.of_nat nph]. reflexivity. Qed.
Lemma elem1 o i : flat_map (loc ("mesh->phase_perc_s", i)) (rest o) =
  let f := ("mesh->phase_perc_s", i) in (if (i <? nph o) && true then [Get f (verts o * 8)] else []) ++ (if (i <? nph o) && true then [Rel f] else []).
Proof. rewrite rest_relevant. cbv -[seq filter map N.mul N.of_nat nph Nat.ltb cells verts]. destruct (i <? nph o); reflexivity. Qed.
Lemma base2 o : flat_map (loc ("mesh->phase_eta_n[]", 0)) (rest o) =
  let f := ("mesh->phase_eta_n[]", 0) in [Get f (N.of_nat (nph o) * 8)] ++ map (Entry f) (filter (fun _ => true) (seq 0 (nph o))) ++ map (Entry f) (filter (fun _ => true) (seq 0 (nph o))) ++ [Rel f].
Proof. rewrite rest_relevant. cbv -[seq filter map N.mul N.of_nat nph]. reflexivity. Qed.
Lemma base_other2 o i : flat_map (loc ("mesh->phase_eta_n[]", S i)) (rest o) = [].
Proof. rewrite rest_relevant. cbv -[seq filter map N.mul N.of_nat nph]. reflexivity. Qed.
Lemma elem2 o i : flat_map (loc ("mesh->phase_eta_n", i)) (rest o) =
  let f := ("mesh->phase_eta_n", i) in (if (i <? nph o) && true then [Get f (cells o * 8)] else []) ++ (if (i <? nph o) && true then [Rel f] else []).
Proof. rewrite rest_relevant. cbv -[seq filter map N.mul N.of_nat nph Nat.ltb cells verts]. destruct (i <? nph o); reflexivity. Qed.
Lemma base3 o : flat_map (loc ("mesh->phase_eta_s[]", 0)) (rest o) =
  let f := ("mesh->phase_eta_s[]", 0) in [Get f (N.of_nat (nph o) * 8)] ++ map (Entry f) (filter (fun _ => true) (seq 0 (nph o))) ++ map (Entry f) (filter (fun _ => true) (seq 0 (nph o))) ++ [Rel f].
Proof. rewrite rest_relevant. cbv -[seq filter map N.mul N.of_nat nph]. reflexivity. Qed.
Lemma base_other3 o i : flat_map (loc ("mesh->phase_eta_s[]", S i)) (rest o) = [].
Proof. rewrite rest_relevant. cbv -[seq filter map N.mul N.of_nat nph]. reflexivity. Qed.
Lemma elem3 o i : flat_map (loc ("mesh->phase_eta_s", i)) (rest o) =
  let f := ("mesh->phase_eta_s", i) in (if (i <? nph o) && true then [Get f (verts o * 8)] else []) ++ (if (i <? nph o) && true then [Rel f] else []).
Proof. rewrite rest_relevant. cbv -[seq filter map N.mul N.of_nat nph Nat.ltb cells verts]. destruct (i <? nph o); reflexivity. Qed.
Lemma base4 o : flat_map (loc ("model.PD1Drho", 0)) (rest o) =
  let f := ("model.PD1Drho", 0) in [Get f (N.of_nat (nph o) * 8)] ++ map (Entry f) (filter (fun k => (density o k =? 4)%Z) (seq 0 (nph o))) ++ map (Entry f) (filter (fun k => (density o k =? 4)%Z) (seq 0 (nph o))) ++ [Rel f].
Proof. rewrite rest_relevant. cbv -[seq filter map N.mul N.of_nat nph density Z.eqb]. reflexivity. Qed.
Lemma base_other4 o i : flat_map (loc ("model.PD1Drho", S i)) (rest o) = [].
Proof. rewrite rest_relevant. cbv -[seq filter map N.mul N.of_nat nph density Z.eqb]. reflexivity. Qed.
Lemma elem4 o i : flat_map (loc ("PD1Drho[]", i)) (rest o) =
  let f := ("PD1Drho[]", i) in (if (i <? nph o) && (density o i =? 4)%Z then [Get f (10000 * 8)] else []) ++ (if (i <? nph o) && (density o i =? 4)%Z then [Rel f] else []).
Proof. rewrite rest_relevant. cbv -[seq filter map N.mul N.of_nat nph density Z.eqb Nat.ltb]. destruct (i <? nph o), (density o i =? 4)%Z; reflexivity. Qed.
Lemma base5 o i fs : good fs ("model.PDMrho", i) (flat_map (loc ("model.PDMrho", i)) (rest o)) = true.
Proof. rewrite rest_relevant. unfold flags. generalize (isPD o). intros pd. destruct i as [|i]; destruct pd; vm_compute; reflexivity. Qed.
Lemma elem5 o i fs : good fs ("PDMrho[]", i) (flat_map (loc ("PDMrho[]", i)) (rest o)) = true.
Proof.
  rewrite rest_relevant. unfold flags. generalize (isPD o). intros pd. destruct pd; [|vm_compute; reflexivity].
  do 10 (destruct i as [|i]; [vm_compute; reflexivity|]). vm_compute. reflexivity.
Qed.

(** ** The whole run *)
Definition part (o : opts) (f : var) : list op := flat_map (loc f) (map (read_char o) four) ++ flat_map (loc f) (rest o).
Lemma wf_rest o : forallb wf (startup o ++ cleanup o) = true.
Proof.
  rewrite split_run, forallb_app. apply andb_true_iff. split.
  - cbn [map four forallb]. unfold read_char.
    destruct (is_default o "model.writer_subfolder"), (is_default o "model.import_files_dir"), (is_default o "model.import_file"), (is_default o "model.initial_markers_file"); reflexivity.
  - rewrite sections_spec. assert (H : forallb (fun q => forallb wf (snd q)) (sections o) = true) by (vm_compute; reflexivity).
    revert H. generalize (sections o) as L. intros L. unfold chosen. induction L as [|[c l] L IH]; [reflexivity|].
    cbn [forallb flat_map fst snd]. rewrite andb_true_iff. intros [H1 H2]. rewrite forallb_app, (IH H2), andb_true_r. destruct (flags o c); [exact H1|reflexivity].
Qed.
Lemma part_spec o f : filter (on f) (ops (startup o ++ cleanup o)) = part o f.
Proof. rewrite locs_spec by apply wf_rest. rewrite split_run, flat_map_app. reflexivity. Qed.

Lemma read_part o s i : ~ In s four -> flat_map (loc (s, i)) (map (read_char o) four) = [].
Proof.
  intros H. apply unmentioned. cbn [fst]. intros K. apply H. revert K. cbn [map four flat_map]. unfold read_char.
  destruct (is_default o "model.writer_subfolder"), (is_default o "model.import_files_dir"), (is_default o "model.import_file"), (is_default o "model.initial_markers_file");
    cbn [strings get subject fst app]; tauto.
Qed.
Lemma four_part o s : In s four -> part o (s, 0) = [if is_default o s then Text (s, 0) else Get (s, 0) (text_length o s + 1); Rel (s, 0)].
Proof.
  intros H. unfold part. rewrite rest_relevant. cbn [map four flat_map]. unfold read_char.
  cbn [four In] in H. destruct H as [<-|[<-|[<-|[<-|[]]]]];
  destruct (is_default o "model.writer_subfolder"), (is_default o "model.import_files_dir"), (is_default o "model.import_file"), (is_default o "model.initial_markers_file");
  cbv -[text_length N.add]; reflexivity.
Qed.
Lemma four_other o s i : In s four -> part o (s, S i) = [].
Proof.
  intros H. unfold part. rewrite rest_relevant. cbn [map four flat_map]. unfold read_char.
  cbn [four In] in H. destruct H as [<-|[<-|[<-|[<-|[]]]]];
  destruct (is_default o "model.writer_subfolder"), (is_default o "model.import_files_dir"), (is_default o "model.import_file"), (is_default o "model.initial_markers_file");
  cbv -[text_length N.add]; reflexivity.
Qed.
Lemma good_nil fs f : good fs f [] = true.
Proof. unfold good. cbn [lrun]. unfold start. destruct (zeroed (fst f)); reflexivity. Qed.
Lemma good_base fs f n c c' : good fs f ([Get f (N.of_nat n * 8)] ++ map (Entry f) (filter c (seq 0 n)) ++ map (Entry f) (filter c' (seq 0 n)) ++ [Rel f]) = true.
Proof. unfold good. rewrite base_run; [reflexivity|]. destruct (zeroed (fst f)); auto. Qed.
Lemma good_elem fs f b z : good fs f ((if b : bool then [Get f z] else []) ++ (if b then [Rel f] else [])) = true.
Proof. unfold good. rewrite elem_run. destruct b; [reflexivity|]. unfold start. destruct (zeroed (fst f)); reflexivity. Qed.

Lemma rest_good o s i : ~ In s four -> good (free_surface o) (s, i) (flat_map (loc (s, i)) (rest o)) = true.
Proof.
  intros NF. destruct (in_dec string_dec s tables) as [T|NT].
  - cbn [tables In] in T.
    destruct T as [<-|[<-|[<-|[<-|[<-|[<-|[<-|[<-|[<-|[<-|[<-|[<-|[]]]]]]]]]]]]].
    + destruct i; [rewrite base0; apply good_base|rewrite base_other0; apply good_nil].
    + rewrite elem0. apply good_elem.
    + destruct i; [rewrite base1; apply good_base|rewrite base_other1; apply good_nil].
    + rewrite elem1. apply good_elem.
    + destruct i; [rewrite base2; apply good_base|rewrite base_other2; apply good_nil].
    + rewrite elem2. apply good_elem.
    + destruct i; [rewrite base3; apply good_base|rewrite base_other3; apply good_nil].
    + rewrite elem3. apply good_elem.
    + destruct i; [rewrite base4; apply good_base|rewrite base_other4; apply good_nil].
    + rewrite elem4. apply good_elem.
    + apply base5.
    + apply elem5.
  - destruct (in_dec string_dec s (flat_map (fun q => flat_map strings (snd q)) (sections o))) as [I|N].
    + pose proof (all_ok o) as A. rewrite forallb_forall in A. specialize (A s I). unfold ok in A.
      apply orb_true_iff in A. destruct A as [A|A].
      { apply orb_true_iff in A. destruct A as [A|A]; apply mem_spec in A; contradiction. }
      apply andb_true_iff in A. destruct A as [A1 A2]. rewrite sections_spec. destruct i as [|i].
      * rewrite profile_spec. unfold always_good in A1.
        apply both_spec with (b := free_surface o) in A1. apply both_spec with (b := anisotropy o) in A1. apply both_spec with (b := finite_strain o) in A1.
        apply both_spec with (b := track o) in A1. apply both_spec with (b := marker_angle o) in A1. apply both_spec with (b := kinetics o) in A1.
        apply both_spec with (b := isPD o) in A1. apply both_spec with (b := crazy o) in A1. exact A1.
      * rewrite plain_index; [apply good_nil| |discriminate]. revert A2. generalize (sections o) as L. intros L. unfold chosen.
        induction L as [|[c l] L IH]; [reflexivity|]. cbn [forallb flat_map fst snd]. rewrite andb_true_iff. intros [H1 H2].
        rewrite forallb_app, (IH H2), andb_true_r. destruct (flags o c); [exact H1|reflexivity].
    + rewrite sections_spec, unmentioned; [apply good_nil|]. intros K. apply N. revert K. cbn [fst]. generalize (sections o) as L. intros L. unfold chosen.
      induction L as [|[c l] L IH]; [intros []|]. cbn [flat_map fst snd]. rewrite flat_map_app, !in_app_iff. intros [K|K]; [|right; apply IH; exact K].
      destruct (flags o c); [left; exact K|destruct K].
Qed.

Lemma good_run fs f l : good fs f l = true -> exists y, lrun (start f) l = Some y /\ (forall n, y = SLive n -> f = ("input.stress", 0) /\ fs = true /\ n = 16%N).
Proof.
  unfold good. destruct (lrun (start f) l) as [y|]; [|discriminate]. intros H. exists y. split; [reflexivity|]. intros n ->.
  apply andb_true_iff in H. destruct H as [H H3]. apply andb_true_iff in H. destruct H as [H1 H2]. apply N.eqb_eq in H3.
  destruct (var_eqb_spec f ("input.stress", 0)); [auto|discriminate].
Qed.
Lemma run_no_leak x l : lrun x l <> None -> no_leak x l = true.
Proof. revert x. induction l as [|p l IH]; intros x; cbn; [reflexivity|]. destruct (lstep x p); [apply IH|intros H; elim H; reflexivity]. Qed.
Lemma part_good o s i : ~ In s four -> good (free_surface o) (s, i) (part o (s, i)) = true.
Proof. intros H. unfold part. rewrite read_part by exact H. apply rest_good. exact H. Qed.
Lemma part_four o s : In s four -> lrun (start (s, 0)) (part o (s, 0)) = (if is_default o s then None else Some SDead) /\ no_leak (start (s, 0)) (part o (s, 0)) = true.
Proof. intros H. rewrite four_part by exact H. unfold start. destruct (zeroed (fst (s, 0))), (is_default o s); split; reflexivity. Qed.

Definition final (o : opts) (f : var) : status := match lrun (start f) (part o f) with Some y => y | None => SNull end.
Lemma part_run o f : (forall s, In s four -> is_default o s = false) ->
  lrun (start f) (part o f) = Some (final o f) /\ (forall n, final o f = SLive n -> f = ("input.stress", 0) /\ free_surface o = true /\ n = 16%N).
Proof.
  intros D. unfold final. destruct f as [s i]. destruct (in_dec string_dec s four) as [F|F].
  - destruct i as [|i].
    + destruct (part_four o s F) as [-> _]. rewrite (D s F). split; [reflexivity|discriminate].
    + rewrite four_other by exact F. cbn [lrun]. split; [reflexivity|]. unfold start. destruct (zeroed _); discriminate.
  - destruct (good_run _ _ _ (part_good o s i F)) as [y [-> Hy]]. split; [reflexivity|exact Hy].
Qed.
Lemma stress_part o : final o ("input.stress", 0) = if free_surface o then SLive 16 else SNull.
Proof.
  unfold final, part. rewrite read_part by (cbn; intuition discriminate). rewrite rest_relevant. unfold flags.
  destruct (free_surface o); vm_compute; reflexivity.
Qed.
Lemma run_ok o : (forall s, In s four -> is_default o s = false) -> exists t, run o = Some t /\ inv t (final o).
Proof.
  intros D. apply (exec_sim _ initial start); [apply inv_initial|]. intros f. rewrite part_spec. apply part_run. exact D.
Qed.
Lemma run_fails o s : In s four -> is_default o s = true -> run o = None.
Proof.
  intros F D. apply (exec_fails _ initial start); [apply inv_initial| |].
  - intros [s' i]. rewrite part_spec. destruct (in_dec string_dec s' four) as [F'|F'].
    + destruct i as [|i]; [apply part_four; exact F'|]. rewrite four_other by exact F'. reflexivity.
    + apply run_no_leak. destruct (good_run _ _ _ (part_good o s' i F')) as [y [-> _]]. discriminate.
  - exists (s, 0). rewrite part_spec. destruct (part_four o s F) as [-> _]. rewrite D. reflexivity.
Qed.
