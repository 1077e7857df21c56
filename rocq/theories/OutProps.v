(** * C86: what is in the output files *)
From Coq Require Import ZArith Reals List Bool String NArith Lra Lia.
From Flocq Require Import Core Relative.
Import ListNotations.
From Verif Require Import OptionsModel OptionsProofs ReseedModel CkptModel CkptProofs OutModel.
Local Open Scope Z_scope.
Local Open Scope string_scope.

(** ** Specification: what a reader of the files expects

    Number of values of a dataset. *)
Definition spec_count (d : dims) (g n : string) : Z :=
  let vertices := Nx d * Nz d in
  let cells := (Nx d - 1) * (Nz d - 1) in
  let vx_nodes := Nx d * (Nz d + 1) in
  let vz_nodes := (Nx d + 1) * Nz d in
  if g =? "Vertices" then vertices else if g =? "Centers" then cells
  else if g =? "VxNodes" then vx_nodes else if g =? "VzNodes" then vz_nodes
  else if g =? "Particles" then npart d
  else if g =? "TimeSeries" then Nt d + 1
  else if g =? "Iterations" then (if n =? "NumberSteps" then 1 else nit d + 1)
  else if g =? "Flags" then
    (if n =? "tag_s" then vertices else if n =? "tag_n" then cells else if n =? "tag_u" then vx_nodes
     else if n =? "tag_v" then vz_nodes else 4 * cells)
  else if g =? "VizGrid" then
    (if n =? "compo" then cells else if one_of n ["compo_hr"; "compo_dual_hr"] then 4 * cells
     else if n =? "xviz" then Nx d else if n =? "zviz" then Nz d else if n =? "xviz_hr" then 2 * Nx d - 1 else 2 * Nz d - 1)
  else if g =? "Model" then
    (if n =? "Description" then 500 else if n =? "Params" then 8
     else if n =? "xg_coord" then Nx d else if n =? "zg_coord" then Nz d else if n =? "xc_coord" then Nx d - 1
     else if n =? "zc_coord" then Nz d - 1 else if n =? "xvz_coord" then Nx d + 1 else Nz d + 1)
  else (* Topo, Topo_ini *)
    (if one_of n ["z_grid"; "Vx_grid"; "height"; "vxsurf"] then Nx d
     else if one_of n ["Vz_grid"; "vzsurf"] then Nx d + 1
     else if n =? "z_finer_cent" then 2 * (Nx d - 1)
     else if g =? "Topo" then nchain d else nini d).

(** Physical dimension (kg, m, s, K) of the values of a dataset. *)
Definition pure : dim := mkdim 0 0 0 0.
Definition spec_dim (g n : string) : dim :=
  if one_of g ["TimeSeries"; "Iterations"; "Flags"] then pure
  else if one_of n ["xg_coord"; "zg_coord"; "xc_coord"; "zc_coord"; "xvz_coord"; "zvx_coord"; "xviz"; "zviz"; "xviz_hr"; "zviz_hr";
                    "d"; "z_grid"; "z_finer_cent"; "x_mark"; "z_mark"; "x0"; "z0"; "x"; "z"; "height"] then mkdim 0 1 0 0
  else if one_of n ["Vx"; "Vz"; "Vx_grid"; "Vz_grid"; "Vx_mark"; "Vz_mark"; "vx"; "vz"; "vxsurf"; "vzsurf"] then mkdim 0 1 (-1) 0
  else if one_of n ["P"; "sxxd"; "szzd"; "sxz"; "OverS"; "cohesion"; "P0"; "Pmax"] then mkdim 1 (-1) (-2) 0
  else if one_of n ["exxd"; "ezzd"; "exz"; "divu"; "divu_el"; "divu_pl"; "divu_th"; "divu_r"; "eII_el"; "eII_pl"; "eII_pwl";
                    "eII_exp"; "eII_lin"; "eII_gbs"] then mkdim 0 0 (-1) 0
  else if one_of n ["rho_s"; "rho_n"] then mkdim 1 (-3) 0 0
  else if one_of n ["eta_s"; "eta_n"] then mkdim 1 (-1) (-1) 0
  else if one_of n ["T"; "T0"; "Tmax"] then mkdim 0 0 0 1
  else pure.

(** Sizes that occur in a run. *)
Definition sane (d : dims) : Prop :=
  2 <= Nx d /\ 2 <= Nz d /\ 0 <= Nt d /\ 0 <= nit d /\ 0 <= npart d <= npart_max d /\ 0 <= nchain d <= 50 * Nx d /\ 0 <= nini d <= 50 * Nx d.

(** The datasets of the file under given switches. *)
Definition written (sw : switches) (l : list dataset) : list dataset := filter (fun f => dwhen f sw) l.

(** ** The tables *)
Definition unit_ok (u : scale -> R) (q : dim) : Prop :=
  forall eta L V T, (0 < eta -> 0 < L -> 0 < V -> 0 < T ->
  u (ScaleMe eta L V T) = coherent_unit (mass_unit eta L V) L (L / V) T q)%R.

Lemma unit_of : forall q u, (forall s, u s = divisor s q) -> unit_ok u (dimension_of q).
Proof. intros q u E eta L V T H1 H2 H3 H4. rewrite E. now apply divisor_coherent. Qed.
Lemma unit_pure : forall M L t T, coherent_unit M L t T pure = 1%R.
Proof. intros. unfold coherent_unit, pure. cbn. ring. Qed.

Definition well (d : dims) (f : dataset) : Prop :=
  dcount f d = spec_count d (dgroup f) (dname f) /\ dcount f d <= elements d (dsource f) /\
  match droute f with
  | Direct => spec_dim (dgroup f) (dname f) = pure
  | Staged size cast sc =>
      size d = dcount f d /\ cast d = dcount f d /\
      match sc with
      | Some (u, k) => k d = dcount f d /\ unit_ok u (spec_dim (dgroup f) (dname f)) /\ dtype f = Flt
      | None => spec_dim (dgroup f) (dname f) = pure
      end
  end.

Ltac units :=
  first [ exact (unit_of q_length _ (fun s => eq_refl)) | exact (unit_of q_velocity _ (fun s => eq_refl))
        | exact (unit_of q_stress _ (fun s => eq_refl)) | exact (unit_of q_rate _ (fun s => eq_refl))
        | exact (unit_of q_density _ (fun s => eq_refl)) | exact (unit_of q_viscosity _ (fun s => eq_refl))
        | exact (unit_of q_temperature _ (fun s => eq_refl)) ].
Ltac count := cbv -[Z.mul Z.add Z.sub Z.le Nx Nz Nt nit npart npart_max nchain nini]; try lia; try nia.
Ltac row d H :=
  unfold well; cbn [dcount dgroup dname dsource droute dtype];
  destruct H as (?&?&?&?&?&?&?);
  repeat match goal with |- _ /\ _ => split | |- unit_ok _ _ => units | |- Flt = Flt => reflexivity
    | |- spec_dim _ _ = pure => reflexivity | |- _ = _ => solve [count] | |- (_ <= _)%Z => solve [count] end.
Lemma all_well : forall d, sane d -> Forall (well d) (grid_file ++ marker_file).
Proof.
  intros d H. unfold grid_file, marker_file. cbn [List.app].
  repeat (apply Forall_cons; [row d H|]). apply Forall_nil.
Qed.

Lemma written_in : forall sw l f, In f (written sw l) -> In f l.
Proof. intros sw l f H. unfold written in H. apply filter_In in H. exact (proj1 H). Qed.
Lemma file_well : forall d sw f, sane d -> In f (written sw grid_file) \/ In f (written sw marker_file) -> well d f.
Proof.
  intros d sw f Hd Hf. apply (proj1 (Forall_forall _ _) (all_well d Hd)). apply in_or_app.
  destruct Hf as [H|H]; apply written_in in H; [left|right]; exact H.
Qed.
Lemma count_pos : forall d g n, sane d -> 0 <= spec_count d g n.
Proof.
  intros d g n Hd. destruct Hd as (?&?&?&?&?&?&?). unfold spec_count.
  assert (0 <= (Nx d - 1) * (Nz d - 1))%Z by (apply Z.mul_nonneg_nonneg; lia).
  assert (0 <= Nx d * Nz d)%Z by (apply Z.mul_nonneg_nonneg; lia).
  assert (0 <= Nx d * (Nz d + 1))%Z by (apply Z.mul_nonneg_nonneg; lia).
  assert (0 <= (Nx d + 1) * Nz d)%Z by (apply Z.mul_nonneg_nonneg; lia).
  cbv zeta. repeat match goal with |- context [if ?b then _ else _] => destruct b end; lia.
Qed.

(** ** Rounding *)
Local Open Scope R_scope.
Definition rel (a b e : R) : Prop := Rabs (b - a) <= e * Rabs a.
Lemma rel_trans : forall a b c e1 e2, 0 <= e1 -> 0 <= e2 -> rel a b e1 -> rel b c e2 -> rel a c (e1 + e2 + e1 * e2).
Proof.
  unfold rel. intros a b c e1 e2 P1 P2 H1 H2.
  assert (B : Rabs b <= (1 + e1) * Rabs a).
  { replace b with (a + (b - a)) by ring. eapply Rle_trans; [apply Rabs_triang|]. lra. }
  replace (c - a) with ((b - a) + (c - b)) by ring. eapply Rle_trans; [apply Rabs_triang|].
  pose proof (Rmult_le_compat_l e2 _ _ P2 B). lra.
Qed.
Lemma rel_weak : forall a b e e', e <= e' -> rel a b e -> rel a b e'.
Proof. unfold rel. intros. pose proof (Rabs_pos a). pose proof (Rmult_le_compat_r _ _ _ H1 H). lra. Qed.
Lemma rel_low : forall a b e, e <= / 2 -> rel a b e -> / 2 * Rabs a <= Rabs b.
Proof.
  unfold rel. intros a b e E H. pose proof (Rabs_pos a). pose proof (Rmult_le_compat_r _ _ _ H0 E).
  pose proof (Rabs_triang_inv a (a - b)). replace (a - (a - b)) with b in H2 by ring. rewrite Rabs_minus_sym in H. lra.
Qed.
Lemma flt_rel : forall x, bpow radix2 (-126) <= Rabs x -> rel x (flt x) (bpow radix2 (-24)).
Proof.
  intros x H. unfold rel, flt. pose proof (relative_error_N_FLT radix2 (-149) 24 ltac:(lia) (fun z => negb (Z.even z)) x H) as E.
  cbn [Z.opp Z.add Z.pos_sub Pos.pred_double Z.pred_double] in E. replace (bpow radix2 (-24)) with (/ 2 * bpow radix2 (-24 + 1)); [exact E|].
  change (/ 2) with (bpow radix2 (-1)). rewrite <- bpow_plus. reflexivity.
Qed.
Lemma dbl_rel : forall x, bpow radix2 (-1022) <= Rabs x -> rel x (dbl x) (bpow radix2 (-53)).
Proof.
  intros x H. unfold rel, dbl. pose proof (relative_error_N_FLT radix2 (-1074) 53 ltac:(lia) (fun z => negb (Z.even z)) x H) as E.
  replace (bpow radix2 (-53)) with (/ 2 * bpow radix2 (-53 + 1)); [exact E|].
  change (/ 2) with (bpow radix2 (-1)). rewrite <- bpow_plus. reflexivity.
Qed.
Lemma half : forall e, bpow radix2 (e - 1) = / 2 * bpow radix2 e.
Proof. intros. replace (e - 1)%Z with (-1 + e)%Z by lia. now rewrite bpow_plus. Qed.

Lemma scaled_value : forall x u, bpow radix2 (-126) <= Rabs x -> bpow radix2 (-124) <= Rabs (x * u) ->
  Rabs (scale_back (to_float x) u - x * u) <= bpow radix2 (-22) * Rabs (x * u).
Proof.
  intros x u H1 H2. pose proof (flt_rel x H1) as R1.
  assert (E : bpow radix2 (-24) <= / 2) by (change (/ 2) with (bpow radix2 (-1)); apply bpow_le; lia).
  assert (E' : bpow radix2 (-53) <= / 2) by (change (/ 2) with (bpow radix2 (-1)); apply bpow_le; lia).
  assert (R2 : rel (x * u) (flt x * u) (bpow radix2 (-24))).
  { unfold rel in *. replace (flt x * u - x * u) with ((flt x - x) * u) by ring. rewrite !Rabs_mult, <- Rmult_assoc.
    apply Rmult_le_compat_r; [apply Rabs_pos|exact R1]. }
  pose proof (rel_low _ _ _ E R2) as L2.
  assert (B2 : bpow radix2 (-125) <= Rabs (flt x * u)) by (change (-125)%Z with (-124 - 1)%Z; rewrite half; lra).
  assert (R3 : rel (flt x * u) (dbl (flt x * u)) (bpow radix2 (-53))).
  { apply dbl_rel. eapply Rle_trans; [|exact B2]. apply bpow_le; lia. }
  pose proof (rel_low _ _ _ E' R3) as L3.
  assert (B3 : bpow radix2 (-126) <= Rabs (dbl (flt x * u))) by (change (-126)%Z with (-125 - 1)%Z; rewrite half; lra).
  pose proof (flt_rel _ B3) as R4.
  assert (P24 : 0 <= bpow radix2 (-24)) by apply bpow_ge_0. assert (P53 : 0 <= bpow radix2 (-53)) by apply bpow_ge_0.
  pose proof (rel_trans _ _ _ _ _ P24 P53 R2 R3) as R5.
  assert (P5 : 0 <= bpow radix2 (-24) + bpow radix2 (-53) + bpow radix2 (-24) * bpow radix2 (-53)) by (pose proof (Rmult_le_pos _ _ P24 P53); lra).
  pose proof (rel_trans _ _ _ _ _ P5 P24 R5 R4) as R6.
  unfold scale_back, to_float. eapply rel_weak; [|exact R6].
  assert (A : bpow radix2 (-22) = 4 * bpow radix2 (-24)) by (change 4 with (bpow radix2 2); rewrite <- bpow_plus; reflexivity).
  assert (B : bpow radix2 (-53) <= / 4 * bpow radix2 (-24)) by (change (/ 4) with (bpow radix2 (-2)); rewrite <- bpow_plus; apply bpow_le; lia).
  rewrite A. set (e := bpow radix2 (-24)) in *. set (e' := bpow radix2 (-53)) in *.
  pose proof (Rmult_le_compat_l e _ _ P24 E). pose proof (Rmult_le_compat_l e _ _ P24 E').
  pose proof (Rmult_le_compat_l (e * e) _ _ (Rmult_le_pos _ _ P24 P24) E'). lra.
Qed.
Lemma plain_value : forall x, bpow radix2 (-126) <= Rabs x -> Rabs (to_float x - x) <= bpow radix2 (-22) * Rabs x.
Proof. intros x H. eapply rel_weak; [|apply (flt_rel x H)]. apply bpow_le; lia. Qed.
Lemma zero_value : forall u, scale_back (to_float 0) u = 0 /\ to_float 0 = 0.
Proof.
  intros. unfold scale_back, to_float, flt, dbl. rewrite round_0, Rmult_0_l by apply valid_rnd_N.
  rewrite round_0 by apply valid_rnd_N. rewrite round_0 by apply valid_rnd_N. split; reflexivity.
Qed.

(** ** C86 *)
(** The value a reader finds for the field value [x] of unit [U]: exact for doubles,
    integers and flags; seven digits for floats unless the number is tiny. *)
Definition reads (t : ctype) (v x U : R) : Prop :=
  match t with
  | Flt => (x = 0 -> v = 0) /\
           (bpow radix2 (-126) <= Rabs x -> bpow radix2 (-124) <= Rabs (x * U) -> Rabs (v - x * U) <= bpow radix2 (-22) * Rabs (x * U))
  | _ => v = x * U
  end.

Theorem C86_content : forall eta L V T d sw f (x : nat -> R), 0 < eta -> 0 < L -> 0 < V -> 0 < T -> sane d ->
  In f (written sw grid_file) \/ In f (written sw marker_file) ->
  exists v, emit (ScaleMe eta L V T) d x f = Done (spec_count d (dgroup f) (dname f), v) /\
  forall k, (Z.of_nat k < spec_count d (dgroup f) (dname f))%Z ->
  reads (dtype f) (v k) (x k) (coherent_unit (mass_unit eta L V) L (L / V) T (spec_dim (dgroup f) (dname f))).
Proof.
  intros eta L V T d sw f x H1 H2 H3 H4 Hd Hf.
  pose proof (file_well d sw f Hd Hf) as W. destruct W as (C & E & R). unfold emit. rewrite <- C. destruct (droute f) as [|size cast sc].
  - destruct (Z.ltb_spec (elements d (dsource f)) (dcount f d)) as [A|A]; [lia|]. eexists. split; [reflexivity|].
    intros k Hk. rewrite R, unit_pure. unfold reads. rewrite Rmult_1_r.
    destruct (dtype f); try reflexivity. split; [easy|]. intros. rewrite Rminus_diag_eq, Rabs_R0 by reflexivity.
    apply Rmult_le_pos; [apply bpow_ge_0|apply Rabs_pos].
  - destruct R as (S1 & S2 & R). rewrite S1, S2.
    assert (B : (elements d (dsource f) <? dcount f d)%Z = false) by (apply Z.ltb_ge; exact E).
    destruct sc as [[u k0]|].
    + destruct R as (K & Hu & Ht). rewrite K, !Z.ltb_irrefl, B. cbn [orb]. eexists. split; [reflexivity|].
      intros k Hk. cbv beta. rewrite Ht. apply Z.ltb_lt in Hk. rewrite Hk. rewrite (Hu eta L V T H1 H2 H3 H4). cbn [reads].
      split; [intros ->; exact (proj1 (zero_value _))|]. apply scaled_value.
    + assert (P0 : (dcount f d <? 0)%Z = false).
      { apply Z.ltb_ge. rewrite C. now apply count_pos. }
      rewrite !Z.ltb_irrefl, B, P0. cbn [orb]. eexists. split; [reflexivity|].
      intros k Hk. cbv beta. rewrite R, unit_pure. unfold reads. rewrite Rmult_1_r. destruct (dtype f); try reflexivity.
      split; [intros ->; exact (proj2 (zero_value 0))|]. intros A _. now apply plain_value.
Qed.
Print Assumptions C86_content.

Definition ex_dims : dims := Dims 41 31 10 20 19200 78720 161 161.
Example C86_content_ex : sane ex_dims /\ In "ani_fac"%string (map dname (written (Sw true true true true) grid_file)) /\
  ~ In "ani_fac"%string (map dname (written (Sw true true false true) grid_file)) /\
  spec_count ex_dims "VizGrid" "compo_hr" = 4800%Z.
Proof.
  unfold sane, ex_dims. cbn [Nx Nz Nt nit npart npart_max nchain nini]. split; [lia|]. split; [cbn; tauto|]. split; [|reflexivity].
  cbn. intuition discriminate.
Qed.

(** Every dataset is written into a group made before, and no name is used twice. *)
Definition key (f : dataset) : string := (dgroup f ++ "/" ++ dname f)%string.
Fixpoint nodupb (l : list string) : bool := match l with [] => true | a :: l => negb (existsb (String.eqb a) l) && nodupb l end.
Lemma nodupb_ok : forall l, nodupb l = true -> NoDup l.
Proof.
  induction l as [|a l IH]; intros H; [constructor|]. cbn in H. apply andb_true_iff in H. destruct H as [H1 H2].
  constructor; [|now apply IH]. intros I1. apply negb_true_iff in H1. assert (E : existsb (String.eqb a) l = true).
  { apply existsb_exists. exists a. split; [exact I1|apply String.eqb_refl]. } congruence.
Qed.
Lemma nodup_filter : forall (p : dataset -> bool) l, NoDup (map key l) -> NoDup (map key (filter p l)).
Proof.
  induction l as [|a l IH]; intros H; [constructor|]. inversion H as [|? ? N1 N2]; subst. cbn. destruct (p a); [|now apply IH].
  cbn. constructor; [|now apply IH]. intros I1. apply N1. rewrite in_map_iff in *. destruct I1 as (f & E & I1). exists f.
  rewrite filter_In in I1. tauto.
Qed.
Theorem C86_names : forall sw,
  NoDup (map key (written sw grid_file)) /\ NoDup (map key (written sw marker_file)) /\
  (forall f, In f (written sw grid_file) -> In (dgroup f) grid_groups) /\
  (forall f, In f (written sw marker_file) -> In (dgroup f) marker_groups).
Proof.
  intros sw. assert (G : forall gs l, forallb (fun f => one_of (dgroup f) gs) l = true -> forall f, In f (written sw l) -> In (dgroup f) gs).
  { intros gs l B f If. unfold written in If. rewrite filter_In in If. rewrite forallb_forall in B. specialize (B f (proj1 If)).
    unfold one_of in B. rewrite existsb_exists in B. destruct B as (g & I1 & E). apply String.eqb_eq in E. now subst. }
  repeat split.
  - apply nodup_filter, nodupb_ok. vm_compute. reflexivity.
  - apply nodup_filter, nodupb_ok. vm_compute. reflexivity.
  - apply G. vm_compute. reflexivity.
  - apply G. vm_compute. reflexivity.
Qed.
Print Assumptions C86_names.
Example C86_names_ex : In "Centers/T0"%string (map key (written (Sw false false false true) grid_file)) /\
  In "Topo_ini/phase"%string (map key (written (Sw true false false true) marker_file)).
Proof. split; cbn; tauto. Qed.

(** The array of model parameters is in SI units. *)
Theorem C86_params : forall eta L V T time xmin xmax zmin zmax dx dz dt nx nz, 0 < eta -> 0 < L -> 0 < V -> 0 < T ->
  let second := coherent_unit (mass_unit eta L V) L (L / V) T (mkdim 0 0 1 0) in
  let metre := coherent_unit (mass_unit eta L V) L (L / V) T (mkdim 0 1 0 0) in
  params_array (ScaleMe eta L V T) time xmin xmax zmin zmax dx dz dt nx nz =
  [time * second; xmax * metre - xmin * metre; zmax * metre - zmin * metre; IZR nx; IZR nz; dx * metre; dz * metre; dt * second].
Proof.
  intros. unfold params_array, second, metre.
  pose proof (unit_of q_time s_t (fun s => eq_refl) eta L V T H H0 H1 H2) as U1. cbn [dimension_of] in U1.
  pose proof (unit_of q_length s_L (fun s => eq_refl) eta L V T H H0 H1 H2) as U2. cbn [dimension_of] in U2.
  rewrite U1, U2, !Rmult_minus_distr_r. reflexivity.
Qed.
Print Assumptions C86_params.
Example C86_params_ex : nth 7 (params_array (ScaleMe 4 2 1 1) 0 0 1 0 1 1 1 3 5 5) 0 = 6.
Proof. cbn. lra. Qed.

(** A dataset with at least one value gets a chunk that fits it (HDF5 refuses a
    chunk longer than the dataset). *)
Lemma int_dbl : forall n, (Z.abs n <= 2 ^ 53)%Z -> dbl (IZR n) = IZR n.
Proof.
  intros n H. unfold dbl. apply round_generic; [apply valid_rnd_N|]. 
  destruct (Z.eq_dec (Z.abs n) (2 ^ 53)) as [E|E].
  - assert (G : generic_format radix2 (FLT_exp (-1074) 53) (bpow radix2 53)) by (apply generic_format_bpow; unfold FLT_exp; lia).
    change (bpow radix2 53) with (IZR (2 ^ 53)) in G. rewrite <- E, abs_IZR in G.
    unfold Rabs in G. destruct (Rcase_abs (IZR n)); [|exact G]. rewrite <- (Ropp_involutive (IZR n)). now apply generic_format_opp.
  - apply generic_format_FLT. exists (Float radix2 n 0); [unfold F2R; cbn; ring|cbn [Fnum]; change (radix2 ^ 53)%Z with (2 ^ 53)%Z; lia|cbn; lia].
Qed.
Lemma dbl_le : forall x y, x <= y -> dbl x <= dbl y.
Proof. intros. unfold dbl. apply round_le; [apply FLT_exp_valid; reflexivity|apply valid_rnd_N|assumption]. Qed.
Theorem C86_chunk : forall np, (1 <= np <= 2 ^ 31)%Z -> (1 <= chunk np <= np)%Z.
Proof.
  intros np H. assert (N1 : 1 <= IZR np) by (apply (IZR_le 1); lia).
  assert (A : dbl (dbl (5 * IZR np) / 100) <= IZR np).
  { rewrite <- (int_dbl np) at 2 by (change (2 ^ 53)%Z with 9007199254740992%Z; change (2 ^ 31)%Z with 2147483648%Z in H; lia). apply dbl_le.
    assert (B : dbl (5 * IZR np) <= 100 * IZR np).
    { rewrite <- (mult_IZR 100), <- (int_dbl (100 * np)), mult_IZR by (change (2 ^ 53)%Z with 9007199254740992%Z; change (2 ^ 31)%Z with 2147483648%Z in H; lia).
      apply dbl_le. lra. }
    lra. }
  unfold chunk. cbv zeta. destruct (Rlt_dec _ 1) as [C|C]; [lia|]. split.
  - apply Zfloor_lub. change (IZR 1) with 1. lra.
  - apply le_IZR. eapply Rle_trans; [apply Zfloor_lb|exact A].
Qed.
Print Assumptions C86_chunk.
(** An empty dataset would ask for a chunk of one. *)
Example C86_chunk_ex : (1 <= chunk 19 <= 19)%Z /\ chunk 0 = 1%Z.
Proof.
  split; [apply C86_chunk; lia|]. unfold chunk. rewrite Rmult_0_r. unfold dbl. rewrite !round_0 by apply valid_rnd_N.
  unfold Rdiv. rewrite Rmult_0_l, !round_0 by apply valid_rnd_N. destruct (Rlt_dec 0 1); [reflexivity|lra].
Qed.

(** ** File names *)
Local Open Scope N_scope.
Theorem C86_one_file_per_step : forall base a b, file_name base a = file_name base b -> a = b.
Proof.
  intros base a b H. unfold file_name in H. induction base as [|c s IH]; cbn in H.
  - apply append_cancel_r in H. now apply fmt05_inj.
  - injection H as H. now apply IH.
Qed.
Print Assumptions C86_one_file_per_step.

(** Sorting by name is sorting by step, up to step 99999. *)
Definition digit (n : N) : Ascii.ascii := Ascii.ascii_of_N (48 + n).
Definition five (n : N) : string :=
  String (digit (n / 10000)) (String (digit (n / 1000 mod 10)) (String (digit (n / 100 mod 10))
  (String (digit (n / 10 mod 10)) (String (digit (n mod 10)) EmptyString)))).
Fixpoint upto (k : nat) (n : N) (p : N -> bool) : bool := match k with O => true | S k => p n && upto k (n + 1) p end.
Lemma upto_ok : forall k n p, upto k n p = true -> forall m, n <= m -> m < n + N.of_nat k -> p m = true.
Proof.
  induction k as [|k IH]; intros n p H m L1 L2; [lia|]. cbn in H. apply andb_true_iff in H. destruct H as [H1 H2].
  destruct (N.eq_dec n m) as [->|E]; [exact H1|]. apply (IH (n + 1) p H2); lia.
Qed.
Lemma fmt_five : forall n, n < 100000 -> fmt05 n = five n.
Proof.
  intros n H. assert (C : upto (N.to_nat 100000) 0 (fun m => String.eqb (fmt05 m) (five m)) = true) by (vm_compute; reflexivity).
  apply String.eqb_eq. apply (upto_ok _ _ _ C n); [lia|]. rewrite N2Nat.id. lia.
Qed.
Lemma digit_cmp : forall a b, a < 10 -> b < 10 -> Ascii.compare (digit a) (digit b) = N.compare a b.
Proof.
  intros a b Ha Hb. unfold Ascii.compare, digit. rewrite !Ascii.N_ascii_embedding by lia.
  destruct (N.compare_spec a b) as [->|H|H]; [apply N.compare_refl|apply N.compare_lt_iff; lia|apply N.compare_gt_iff; lia].
Qed.
Lemma five_lt : forall a b s, a < b -> b < 100000 -> String.compare (five a ++ s) (five b ++ s) = Lt.
Proof.
  intros a b s H1 H2. unfold five. cbn [String.append String.compare].
  assert (A1 : forall n, n < 100000 -> n / 10000 < 10) by (intros; apply N.div_lt_upper_bound; lia).
  assert (M : forall n, n mod 10 < 10) by (intros; apply N.mod_lt; lia).
  rewrite !digit_cmp by (first [apply A1; lia|apply M]).
  assert (D : forall n, n / 10 / 10 = n / 100 /\ n / 100 / 10 = n / 1000 /\ n / 1000 / 10 = n / 10000)
    by (intros; rewrite !N.div_div by lia; repeat split; reflexivity).
  assert (E : forall n, n = 10 * (n / 10) + n mod 10) by (intros; apply N.div_mod; lia).
  destruct (D a) as (Da1 & Da2 & Da3), (D b) as (Db1 & Db2 & Db3).
  pose proof (E a) as Ea. pose proof (E b) as Eb. pose proof (E (a / 10)) as Ea1. pose proof (E (b / 10)) as Eb1.
  pose proof (E (a / 100)) as Ea2. pose proof (E (b / 100)) as Eb2. pose proof (E (a / 1000)) as Ea3. pose proof (E (b / 1000)) as Eb3.
  rewrite Da1 in Ea1. rewrite Da2 in Ea2. rewrite Da3 in Ea3. rewrite Db1 in Eb1. rewrite Db2 in Eb2. rewrite Db3 in Eb3.
  pose proof (M a). pose proof (M b). pose proof (M (a / 10)). pose proof (M (b / 10)). pose proof (M (a / 100)). pose proof (M (b / 100)).
  pose proof (M (a / 1000)). pose proof (M (b / 1000)).
  set (a4 := a / 10000) in *. set (b4 := b / 10000) in *. set (a3 := a / 1000 mod 10) in *. set (b3 := b / 1000 mod 10) in *.
  set (a2 := a / 100 mod 10) in *. set (b2 := b / 100 mod 10) in *. set (a1 := a / 10 mod 10) in *. set (b1 := b / 10 mod 10) in *.
  set (a0 := a mod 10) in *. set (b0 := b mod 10) in *. clearbody a4 b4 a3 b3 a2 b2 a1 b1 a0 b0.
  destruct (N.compare_spec a4 b4); [|reflexivity|exfalso; lia].
  destruct (N.compare_spec a3 b3); [|reflexivity|exfalso; lia].
  destruct (N.compare_spec a2 b2); [|reflexivity|exfalso; lia].
  destruct (N.compare_spec a1 b1); [|reflexivity|exfalso; lia].
  destruct (N.compare_spec a0 b0); [exfalso; lia|reflexivity|exfalso; lia].
Qed.
Theorem C86_sorted : forall base a b, a < b -> b < 100000 -> String.compare (file_name base a) (file_name base b) = Lt.
Proof.
  intros base a b H1 H2. unfold file_name. rewrite !fmt_five by lia. induction base as [|c s IH].
  - apply five_lt; assumption.
  - cbn [String.append String.compare]. assert (R : Ascii.compare c c = Eq) by (unfold Ascii.compare; apply N.compare_refl). rewrite R. exact IH.
Qed.
Print Assumptions C86_sorted.
(** From step 100000 on it is not. *)
Theorem C86_sorted_refuted : exists a b, a < b /\ String.compare (file_name "Output" a) (file_name "Output" b) = Gt.
Proof. exists 99999, 100000. split; [lia|]. vm_compute. reflexivity. Qed.
Print Assumptions C86_sorted_refuted.
Example C86_sorted_ex : file_name "Output" 40 = "Output00040.gzip.h5"%string /\ String.compare (file_name "Output" 9) (file_name "Output" 10) = Lt.
Proof. split; vm_compute; reflexivity. Qed.

(** *** Every name stands for the field a reader expects

    Where the name in the file differs from the name of the field of the run. *)
Local Open Scope string_scope.
Definition meaning (n : string) : string :=
  let table := [("eta_s", "eta_phys_s"); ("eta_n", "eta_phys_n"); ("divu", "div_u"); ("divu_el", "div_u_el"); ("divu_pl", "div_u_pl");
    ("divu_r", "div_u_r"); ("divu_th", "divth0_n") (* the source term of the solve, StokesRoutines.c 1113 *); ("d", "d_n"); ("X", "X_n"); ("phi", "phi_n"); ("OverS", "OverS_n");
    ("friction", "fric_n"); ("cohesion", "C_n"); ("ani_fac", "aniso_factor_n"); ("z_grid", "height"); ("z_finer_cent", "height_finer_c");
    ("Vx_grid", "vx"); ("Vz_grid", "vz"); ("vxsurf", "vx"); ("vzsurf", "vz"); ("x_mark", "x"); ("z_mark", "z"); ("Vx_mark", "Vx"); ("Vz_mark", "Vz"); ("phase_mark", "phase");
    ("BCp", "BCp.type"); ("tag_s", "BCg.type"); ("tag_n", "BCp.type"); ("tag_u", "BCu.type"); ("tag_v", "BCv.type"); ("tag_t_fine", "BCt_fine.type");
    ("NumberSteps", "nit"); ("Params", "A"); ("Description", "description"); ("index", "part_index")] in
  match find (fun p => fst p =? n) table with Some p => snd p | None => n end.
(** The structure it belongs to; empty for arrays computed by the writer itself. *)
Definition owner (g n : string) : string :=
  if one_of g ["TimeSeries"; "Flags"; "Vertices"; "VxNodes"; "VzNodes"] then "mesh->"
  else if g =? "Iterations" then "Nmodel."
  else if g =? "Model" then (if n =? "Params" then "" else if n =? "Description" then "model." else "mesh->")
  else if g =? "VizGrid" then ""
  else if g =? "Particles" then (if n =? "index" then "" else "particles->")
  else if g =? "Topo" then (if one_of n ["z_grid"; "z_finer_cent"; "Vx_grid"; "Vz_grid"; "height"; "vxsurf"; "vzsurf"] then "topo->" else "topo_chain->")
  else if g =? "Topo_ini" then (if one_of n ["height"; "vxsurf"; "vzsurf"] then "topo_ini->" else "topo_chain_ini->")
  else (* Centers *) if one_of n ["strain"; "strain_el"; "strain_pl"; "strain_pwl"; "strain_exp"; "strain_lin"; "strain_gbs";
      "Fxx"; "Fxz"; "Fzx"; "Fzz"; "nx"; "nz"; "T0"; "P0"; "Tmax"; "Pmax"; "x0"; "z0"] then ""   (* interpolated from markers *)
  else if n =? "P" then "" else "mesh->".
Definition spec_source (g n : string) : string :=
  if (g =? "Centers") && (n =? "P") then "P_total"     (* total pressure, made by the writer *)
  else if (g =? "VxNodes") && (n =? "Vx") then "mesh->u_in" else if (g =? "VzNodes") && (n =? "Vz") then "mesh->v_in"
  else if one_of g ["Topo"; "Topo_ini"] && (n =? "vx") then owner g n ++ "Vx" else if one_of g ["Topo"; "Topo_ini"] && (n =? "vz") then owner g n ++ "Vz"
  else owner g n ++ (if one_of g ["Particles"] && (n =? "phi") then n else meaning n).
Lemma source_table : forallb (fun f => dsource f =? spec_source (dgroup f) (dname f)) (grid_file ++ marker_file) = true.
Proof. vm_compute. reflexivity. Qed.
Lemma check_written : forall (P : dataset -> bool) sw l1 l2, forallb P (l1 ++ l2) = true ->
  forall f, In f (written sw l1) \/ In f (written sw l2) -> P f = true.
Proof.
  intros P sw l1 l2 H f Hf. apply (proj1 (forallb_forall P (l1 ++ l2)) H f). apply in_or_app.
  destruct Hf as [Hf|Hf]; unfold written in Hf; apply filter_In in Hf; destruct Hf as [Hf _]; [left|right]; exact Hf.
Qed.
Theorem C86_source : forall sw f, In f (written sw grid_file) \/ In f (written sw marker_file) -> dsource f = spec_source (dgroup f) (dname f).
Proof. exact (fun sw f H => proj1 (String.eqb_eq _ _) (check_written _ sw grid_file marker_file source_table f H)). Qed.
Print Assumptions C86_source.
Example C86_source_ex : In "divu" (map dname (written (Sw true true true true) grid_file)) /\ spec_source "Centers" "divu" = "mesh->div_u".
Proof. split; [vm_compute; tauto|reflexivity]. Qed.
