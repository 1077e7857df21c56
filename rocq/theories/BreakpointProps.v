(** Properties C08-C10 and C46: checkpoint files. *)
From Coq Require Import List Arith ZArith Bool String Lia.
From Coq Require Import Init.Byte.
From Coq Require Import Floats.SpecFloat.
From Verif Require Import BreakpointModel BreakpointProofs BreakpointMain BreakpointNt.
Import ListNotations.
Open Scope string_scope.
Open Scope list_scope.

(** ** Specification: what a user expects a checkpoint to contain, as
    (object, element size, number of elements).  Written from the list of
    state variables, not from the I/O statements. *)
Definition if_ {A} (b : bool) (l : list A) : list A := if b then l else [].
Definition on (sz : nat) (n : count) (l : list string) : list (string * nat * count) :=
  map (fun s => (s, sz, n)) l.
Definition marker (s : string) : string := ("particles->" ++ s)%string.
Definition mesh_ (s : string) : string := ("mesh->" ++ s)%string.
Definition NB := nb "particles->Nb_part".

Definition marker_state (c : cfg) : list (string * nat * count) :=
  [("particles->Nb_part", 4, one)] ++
  on 8 NB (map marker (["x"; "z"; "Vx"; "Vz"; "P"; "T"; "rho"; "phi"; "X"; "d"; "divth"; "noise";
                   "strain"; "strain_el"; "strain_pl"; "strain_pwl"; "strain_exp"; "strain_lin"; "strain_gbs"] ++
     if_ (c_el c) ["sxxd"; "szzd"; "sxz"] ++
     if_ (c_fst c) ["Fxx"; "Fxz"; "Fzx"; "Fzz"] ++
     if_ (c_an c) ["nx"; "nz"] ++
     if_ (c_tr c) ["T0"; "P0"; "x0"; "z0"; "Tmax"; "Pmax"])) ++
  on 4 NB (map marker ["phase"; "dual"]).

Definition surface_state (c : cfg) : list (string * nat * count) :=
  if_ (c_fs c)
    (flat_map (fun ch => [((ch ++ "->Nb_part")%string, 4, one)] ++
       on 8 (nb (ch ++ "->Nb_part")) (map (fun s => (ch ++ "->" ++ s)%string) ["x"; "z"; "Vx"; "Vz"]))
       ["topo_chain"; "topo_chain_ini"] ++
     flat_map (fun t => on 8 nx (map (fun s => (t ++ "->" ++ s)%string) ["height"; "height0"; "vx"]) ++
       on 8 nxp1 [(t ++ "->vz")%string] ++
       on 8 ncx (map (fun s => (t ++ "->" ++ s)%string) ["a"; "a0"; "b"; "b0"])) ["topo"; "topo_ini"]).

Definition grid_state (c : cfg) : list (string * nat * count) :=
  on 8 cells (map mesh_ (["p0_n"; "T0_n"; "divth0_n"; "X0_n"; "d0_n"; "phi0_n"; "rho0_n"; "eta_phys_n";
                    "p_in"; "p_lith"; "p_lith0"; "BCp.val"] ++ if_ (c_el c) ["eta_n"; "VE_n"])) ++
  on 8 verts (map mesh_ (["X0_s"; "eta_phys_s"; "BCg.val"] ++ if_ (c_el c) ["eta_s"; "VE_s"])) ++
  on 8 vxn (map mesh_ ["u_in"; "BCu.val"]) ++
  on 8 vzn (map mesh_ ["v_in"; "BCv.val"]) ++
  on 1 cells (map mesh_ ["BCt.type"; "BCp.type"]) ++
  [("mesh->BCu.type", 1, vxn); ("mesh->BCv.type", 1, vzn); ("mesh->BCg.type", 1, verts);
   ("mesh->nb_part_cell", 4, cells); ("mesh->nb_part_vert", 4, verts)] ++
  on 8 one (map mesh_ ["Uthermal"; "Work"]).

Definition time_series : list (string * nat * count) :=
  on 8 ntp1 (map (fun s => mesh_ (s ++ "_time")) ["Time"; "Short"; "Work"; "Uthermal"; "Uelastic";
    "T_mean"; "P_mean"; "sxxd_mean"; "szzd_mean"; "sxz_mean"; "Tii_mean"; "exxd_mean"; "ezzd_mean";
    "exz_mean"; "Eii_mean"]).

Definition expected (c : cfg) := marker_state c ++ surface_state c ++ grid_state c.
Definition clock (c : cfg) : list string :=
  ["model.dt"; "model.dt0"; "model.time"; "model.xmin"; "model.xmax"; "model.zmin"; "model.zmax"; "model.L0"].

(* the arrays of the restoring run are large enough for the saved data *)
Definition room (c : cfg) (m m' : mem) : Prop :=
  forall i, In i (body c) -> nbytes c m i <= List.length (m' (rn (i_name i))).

(** ** Bridge *)
Transparent w_pre w_post w_series w_phase w_mul w_div r_div r_pre r_post r_series r_phase
  w_header r_header body locals.

Definition covered (c : cfg) (l : list item) (e : string * nat * count) : bool :=
  let '(s, sz, n) := e in
  existsb (fun i => fid_eqb (i_name i) (s, 0) && (esz (i_size i) =? sz)%nat &&
                    count_eqb (i_count i) n && fid_eqb (rn (s, 0)) (s, 0) && negb (is_model (s, 0))) l.

Lemma covered_item : forall c l s sz n, covered c l (s, sz, n) = true ->
  exists i, In i l /\ i_name i = (s, 0) /\ esz (i_size i) = sz /\ i_count i = n /\
            rn (s, 0) = (s, 0) /\ is_model (s, 0) = false.
Proof.
  intros c l s sz n H. unfold covered in H. apply existsb_exists in H. destruct H as (i & Hi & H).
  rewrite !andb_true_iff in H. destruct H as [[[[H H3] H2] H1] H0].
  exists i. apply fid_eqb_eq in H, H1. apply Nat.eqb_eq in H3. apply count_eqb_eq in H2.
  apply negb_true_iff in H0. auto 10.
Qed.

Lemma expected_front : forall c e, In e (expected c) -> covered c (w_pre c ++ w_post c) e = true.
Proof.
  intros c e He. assert (H : forallb (covered c (w_pre c ++ w_post c)) (expected c) = true)
    by (flags c; vm_compute; reflexivity).
  rewrite forallb_forall in H. auto.
Qed.
Lemma series_covered : forall c e, In e time_series -> covered c (w_series c) e = true.
Proof.
  intros c e He. assert (H : forallb (covered c (w_series c)) time_series = true) by (flags c; vm_compute; reflexivity).
  rewrite forallb_forall in H. auto.
Qed.
Definition clock_unit (s : string) : unit_ :=
  if prefix "model.dt" s then u_t else if (s =? "model.time")%string then u_t else u_L.
Lemma clock_items : forall c s, In s (clock c) ->
  exists i, In i (w_pre c) /\ i_name i = (s, 0) /\ esz (i_size i) = 8 /\ i_count i = one /\ rn (s, 0) = (s, 0) /\
    slook (s, 0) (w_mul c) = Some (one, clock_unit s) /\ slook (s, 0) (w_div c) = Some (one, clock_unit s).
Proof.
  intros c s Hs.
  assert (H : forallb (fun s => existsb (fun i => fid_eqb (i_name i) (s, 0) && (esz (i_size i) =? 8)%nat &&
              count_eqb (i_count i) one && fid_eqb (rn (s, 0)) (s, 0) &&
              match slook (s, 0) (w_mul c) with Some (one, u) => unit_eqb u (clock_unit s) | _ => false end &&
              match slook (s, 0) (w_div c) with Some (one, u) => unit_eqb u (clock_unit s) | _ => false end) (w_pre c)) (clock c) = true)
    by (flags c; vm_compute; reflexivity).
  rewrite forallb_forall in H. specialize (H s Hs). apply existsb_exists in H. destruct H as (i & Hi & H).
  rewrite !andb_true_iff in H. destruct H as [[[[[H H4] H3] H2] H1] H0].
  exists i. apply fid_eqb_eq in H, H2. apply Nat.eqb_eq in H4. apply count_eqb_eq in H3.
  destruct (slook (s, 0) (w_mul c)) as [[[] u]|]; try discriminate.
  destruct (slook (s, 0) (w_div c)) as [[[] u']|]; try discriminate.
  apply unit_eqb_eq in H0, H1. subst. auto 10.
Qed.

Lemma pre_post_body : forall c i, In i (w_pre c ++ w_post c) -> In i (front c).
Proof.
  intros c i H. unfold front. apply in_app_or in H. apply in_or_app. destruct H; auto.
  right. apply in_or_app. auto.
Qed.

(* exact arithmetic: the continuing run is the original one *)
Lemma exact_unscale : forall dmul ddiv c m,
  (forall u, keeps8 (dmul u)) -> (forall u w, ddiv u (dmul u w) = w) ->
  forall i, In i (body c) ->
  let m1 := scale_all dmul c (locals m x04 x08 x08 x01) (w_mul c) in
  nbytes c m i <= List.length (m (i_name i)) ->
  firstn (nbytes c m i) (scale_all ddiv c m1 (w_div c) (i_name i)) = firstn (nbytes c m i) (m (i_name i)).
Proof.
  intros dmul ddiv c m Hk Hex i Hi m1 Hlen.
  assert (Hnl : locals m x04 x08 x08 x01 (i_name i) = m (i_name i)).
  { apply locals_other. intros Hx.
    assert (Hr : In (i_name i) (targets (body c))).
    { assert (E : rn (i_name i) = i_name i) by
        (cbn in Hx; destruct Hx as [E|[E|[E|[E|[]]]]]; rewrite <- E; reflexivity).
      rewrite <- E. unfold targets. apply in_map_iff. exists i. auto. }
    cbn in Hx; destruct Hx as [E|[E|[E|[E|[]]]]]; rewrite <- E in Hr;
    eapply locals_not_target; [|exact Hr| |exact Hr| |exact Hr| |exact Hr]; cbn; tauto. }
  destruct (body_chk c i Hi) as [Hc Hd]. rewrite w_div_spec. unfold chk in Hc.
  assert (Eo : slook (i_name i) (w_mul c) = slook (i_name i) (w_div c) /\
     forall k u, slook (i_name i) (w_div c) = Some (k, u) -> k = i_count i /\ esz (i_size i) = 8).
  { destruct (slook (i_name i) (w_mul c)) as [[n1 u1]|];
    destruct (slook (i_name i) (w_div c)) as [[n2 u2]|];
    destruct (slook (rn (i_name i)) (r_div c)) as [[n3 u3]|]; try discriminate.
    - repeat (apply andb_true_iff in Hc; let H := fresh "H" in destruct Hc as [Hc H]).
      apply count_eqb_eq in Hc. apply count_eqb_eq in H3. apply count_eqb_eq in H2.
      apply unit_eqb_eq in H1. apply unit_eqb_eq in H0. apply Nat.eqb_eq in H. subst.
      split; [reflexivity|]. intros k u E. inversion E; subst. auto.
    - split; [reflexivity|]. intros k u E. discriminate. }
  destruct Eo as [Eo Ek].
  assert (Em1 : m1 (i_name i) = scaled_as dmul c (locals m x04 x08 x08 x01) (i_name i) (slook (i_name i) (w_div c)))
    by (unfold m1; rewrite w_mul_spec, Eo; reflexivity).
  destruct (slook (i_name i) (w_div c)) as [[k u]|] eqn:Es; cbn [scaled_as] in *.
  - destruct (Ek k u eq_refl) as [-> E8].
    assert (Hbytes : 8 * count_val c m1 (i_count i) = nbytes c m i).
    { pose proof (depok_bytes dmul c m i Hd) as HB. fold m1 in HB. rewrite <- HB. unfold bytes_of. f_equal.
      pose proof (depok_bytes dmul c m (mkitem (i_name i) (i_size i) one)) as HB1.
      unfold bytes_of, nbytes in HB1. cbn [i_size i_count count_val] in HB1. fold m1 in HB1.
      rewrite !Nat.mul_1_r in HB1. rewrite HB1; [auto|].
      unfold depok in Hd |- *. cbn [i_size i_count]. apply andb_true_iff in Hd. destruct Hd as [Hd _].
      apply andb_true_iff in Hd. destruct Hd as [Hd Hs]. rewrite Hs, andb_true_r, andb_true_r.
      unfold deps in Hd |- *. cbn [i_size i_count]. rewrite forallb_app in Hd |- *.
      apply andb_true_iff in Hd. destruct Hd as [Hd _]. rewrite Hd. reflexivity. }
    assert (Hcnt : count_val c (locals m x04 x08 x08 x01) (i_count i) = count_val c m1 (i_count i)).
    { symmetry. apply count_val_agree. intros g Hg. unfold m1. rewrite w_mul_spec.
      rewrite special_unscaled; [reflexivity|].
      unfold depok in Hd. apply andb_true_iff in Hd. destruct Hd as [Hd _].
      apply andb_true_iff in Hd. destruct Hd as [Hd _]. rewrite forallb_forall in Hd.
      apply smem_In. apply Hd. unfold deps. rewrite Hg. apply in_or_app. right. left. reflexivity. }
    rewrite Em1, Hnl, Hcnt.
    assert (Hl : 8 * count_val c m1 (i_count i) <= List.length (m (i_name i))) by (rewrite Hbytes; exact Hlen).
    rewrite map_words_comp by auto. rewrite map_words_id by (intros w; apply Hex). reflexivity.
  - rewrite Em1, Hnl. reflexivity.
Qed.

(* the objects of the saving run are as large as the data written from them *)
Definition allocated (c : cfg) (m : mem) : Prop :=
  forall i, In i (body c) -> nbytes c m i <= List.length (m (i_name i)).

Definition same_window (n : nat) (a b : list byte) : Prop := firstn n a = firstn n b.

Lemma restores : forall dmul ddiv c m m' file mc,
  (forall u, keeps8 (ddiv u)) ->
  save dmul ddiv c m = Some (file, mc) -> room c m m' ->
  exists m2, load ddiv c m' file = Some (m2, []) /\
  (forall s sz n, In (s, sz, n) (expected c ++ time_series) ->
     same_window (sz * count_val c m n) (m2 (s, 0)) (mc (s, 0))) /\
  (forall k, k < c_nph c ->
     same_window (8 * count_val c m cells) (m2 ("mesh->phase_perc_n", k)) (mc ("mesh->phase_perc_n", k)) /\
     same_window (8 * count_val c m verts) (m2 ("mesh->phase_perc_s", k)) (mc ("mesh->phase_perc_s", k))).
Proof.
  intros dmul ddiv c m m' file mc Hdiv Hs Hr.
  destruct (save_load dmul ddiv c m m' file mc Hdiv Hs Hr) as (m2 & El & H1 & H2 & H3).
  exists m2. split; [exact El|]. split.
  - intros s sz n Hin. apply in_app_or in Hin.
    assert (Hi : exists i, In i (body c) /\ i_name i = (s, 0) /\ esz (i_size i) = sz /\ i_count i = n /\
            rn (s, 0) = (s, 0) /\ is_model (s, 0) = false).
    { destruct Hin as [Hin|Hin].
      - apply expected_front, covered_item in Hin. destruct Hin as (i & Hi & H).
        exists i. split; [|exact H]. apply front_sub, pre_post_body. exact Hi.
      - apply (series_covered c) in Hin. apply covered_item in Hin. destruct Hin as (i & Hi & H).
        exists i. split; [|exact H]. rewrite body_front. apply in_or_app. auto. }
    destruct Hi as (i & Hi & En & Es & Ec & Er & Em).
    pose proof (H1 i Hi) as A. rewrite En, Er in A. specialize (A Em).
    unfold nbytes in A. rewrite Es, Ec in A. exact A.
  - intros k Hk.
    assert (Hin : forall i, In i (w_phase k) -> In i (body c)).
    { intros i Hi. unfold body. apply in_or_app. right. apply in_or_app. left.
      apply in_flat_map. exists k. split; [apply in_seq; lia|assumption]. }
    split.
    + exact (H1 (mkitem ("mesh->phase_perc_n", k) (SzVar "s3") cells) (Hin _ (or_introl eq_refl)) eq_refl).
    + exact (H1 (mkitem ("mesh->phase_perc_s", k) (SzVar "s3") verts) (Hin _ (or_intror (or_introl eq_refl))) eq_refl).
Qed.

Lemma restores_exact : forall dmul ddiv c m m' file mc,
  (forall u, keeps8 (dmul u)) -> (forall u, keeps8 (ddiv u)) ->
  (forall u w, ddiv u (dmul u w) = w) -> allocated c m ->
  save dmul ddiv c m = Some (file, mc) -> room c m m' ->
  exists m2, load ddiv c m' file = Some (m2, []) /\
  (forall s sz n, In (s, sz, n) (expected c ++ time_series) ->
     same_window (sz * count_val c m n) (m2 (s, 0)) (m (s, 0))) /\
  (forall s, In s (clock c) -> same_window 8 (m2 (s, 0)) (m (s, 0))).
Proof.
  intros dmul ddiv c m m' file mc Hmul Hdiv Hex Hal Hs Hr.
  destruct (save_load dmul ddiv c m m' file mc Hdiv Hs Hr) as (m2 & El & H1 & H2 & H3).
  exists m2. split; [exact El|]. split.
  - intros s sz n Hin. apply in_app_or in Hin.
    assert (Hi : exists i, In i (body c) /\ i_name i = (s, 0) /\ esz (i_size i) = sz /\ i_count i = n /\
            rn (s, 0) = (s, 0) /\ is_model (s, 0) = false).
    { destruct Hin as [Hin|Hin].
      - apply expected_front, covered_item in Hin. destruct Hin as (i & Hi & H).
        exists i. split; [|exact H]. apply front_sub, pre_post_body. exact Hi.
      - apply (series_covered c) in Hin. apply covered_item in Hin. destruct Hin as (i & Hi & H).
        exists i. split; [|exact H]. rewrite body_front. apply in_or_app. auto. }
    destruct Hi as (i & Hi & En & Es & Ec & Er & Em).
    destruct (H2 i Hi) as [A _]. rewrite exact_unscale in A by auto.
    rewrite En, Er in A. unfold nbytes in A. rewrite Es, Ec in A. exact A.
  - intros s Hsk. destruct (clock_items c s Hsk) as (i & Hi & En & Es & Ec & Er & _).
    assert (Hb : In i (body c)) by (unfold body; apply in_or_app; auto).
    destruct (H2 i Hb) as [A _]. rewrite exact_unscale in A by auto.
    rewrite En, Er in A. unfold nbytes in A. rewrite Es, Ec in A. exact A.
Qed.

Lemma restores_clock : forall dmul ddiv c m m' file mc,
  (forall u, keeps8 (dmul u)) -> (forall u, keeps8 (ddiv u)) -> allocated c m ->
  save dmul ddiv c m = Some (file, mc) -> room c m m' ->
  exists m2, load ddiv c m' file = Some (m2, []) /\
  forall s, In s (clock c) ->
     mc (s, 0) = m (s, 0) /\
     firstn 8 (m2 (s, 0)) = ddiv (clock_unit s) (dmul (clock_unit s) (firstn 8 (m (s, 0)))).
Proof.
  intros dmul ddiv c m m' file mc Hmul Hdiv Hal Hs Hr.
  pose proof Hs as Hs0. unfold save in Hs0.
  destruct (fwrite_all c _ (w_items c)) as [b|]; [|discriminate]. inversion Hs0 as [[E1 E2]]. clear Hs0 E1.
  destruct (save_load dmul ddiv c m m' file mc Hdiv Hs Hr) as (m2 & El & H1 & H2 & H3).
  exists m2. split; [exact El|].
  intros s Hsk. destruct (clock_items c s Hsk) as (i & Hi & En & Es & Ec & Er & U1 & U2).
  assert (Hm : is_model (s, 0) = true).
  { clear - Hsk. cbn in Hsk. repeat (destruct Hsk as [Hsk|Hsk]; [subst s; reflexivity|]). destruct Hsk. }
  split; [rewrite Hm; reflexivity|].
  assert (Hb : In i (body c)) by (unfold body; apply in_or_app; auto).
  destruct (H2 i Hb) as [A _]. rewrite En, Er in A. unfold nbytes in A. rewrite Es, Ec in A.
  cbn [count_val] in A. rewrite Nat.mul_1_r in A. rewrite A.
  rewrite w_div_spec, U2. cbn [scaled_as count_val]. rewrite w_mul_spec, U1. cbn [scaled_as count_val].
  assert (Hloc : locals m x04 x08 x08 x01 (s, 0) = m (s, 0)).
  { apply locals_other. clear - Hsk. intros Hx. cbn in Hx, Hsk.
    destruct Hx as [E|[E|[E|[E|[]]]]]; inversion E; subst s;
    repeat (destruct Hsk as [Hsk|Hsk]; [discriminate|]); destruct Hsk. }
  rewrite Hloc.
  assert (Hl : 8 <= List.length (m (s, 0))).
  { pose proof (Hal i Hb) as X. unfold nbytes in X. rewrite En, Es, Ec in X. cbn in X. exact X. }
  rewrite map_words_comp by (auto; lia). cbn [map_words].
  set (w := firstn 8 (m (s, 0))).
  assert (Lw : List.length w = 8) by (unfold w; rewrite firstn_length; lia).
  rewrite firstn_app_exact; [reflexivity|]. apply Hdiv, Hmul, Lw.
Qed.

Opaque w_pre w_post w_series w_phase w_mul w_div r_div r_pre r_post r_series r_phase
  w_header r_header body locals.

(** How many values an object has, written out: cells (Nx-1)(Nz-1), vertices Nx Nz,
    horizontal velocities Nx (Nz+1), vertical velocities (Nx+1) Nz, series Nt+1; a
    marker count is the little-endian int stored in the named object. *)
Definition int_at (l : list byte) : nat :=
  match l with
  | a :: b :: c :: d :: _ => Byte.to_nat a + Byte.to_nat b * 256 + Byte.to_nat c * (256 * 256) + Byte.to_nat d * (256 * (256 * 256))
  | [a; b; c] => Byte.to_nat a + Byte.to_nat b * 256 + Byte.to_nat c * (256 * 256)
  | [a; b] => Byte.to_nat a + Byte.to_nat b * 256
  | [a] => Byte.to_nat a
  | [] => 0
  end.
Definition elements (c : cfg) (m : mem) (n : count) : nat :=
  let Nx := c_Nx c in let Nz := c_Nz c in
  match n with
  | one => 1 | cells => (Nx - 1) * (Nz - 1) | verts => Nx * Nz | vxn => Nx * (Nz + 1) | vzn => (Nx + 1) * Nz
  | nx => Nx | ncx => Nx - 1 | nxp1 => Nx + 1 | ntp1 => c_Nt c + 1 | nb f => int_at (m (f, 0))
  end.
Lemma elements_counted c m n : count_val c m n = elements c m n.
Proof.
  destruct n; try reflexivity. cbn [count_val elements]. unfold int_of.
  destruct (m (f, 0)) as [|x1 [|x2 [|x3 [|x4 r]]]]; cbn [firstn le_nat int_at]; ring.
Qed.

(** ** C08 *)
(* every expected field of the restarted run is bit-identical to that of the
   run that went on after writing, whatever the rounding of the arithmetic *)
Theorem C08_restart_equals_continuing_run : forall dmul ddiv c m m' file mc,
  (forall u, keeps8 (ddiv u)) ->
  save dmul ddiv c m = Some (file, mc) -> room c m m' ->
  exists m2, load ddiv c m' file = Some (m2, []) /\
  (forall s sz n, In (s, sz, n) (expected c ++ time_series) ->
     same_window (sz * elements c m n) (m2 (s, 0)) (mc (s, 0))) /\
  (forall k, k < c_nph c ->
     same_window (8 * elements c m cells) (m2 ("mesh->phase_perc_n", k)) (mc ("mesh->phase_perc_n", k)) /\
     same_window (8 * elements c m verts) (m2 ("mesh->phase_perc_s", k)) (mc ("mesh->phase_perc_s", k))).
Proof. setoid_rewrite <- elements_counted. exact restores. Qed.
Print Assumptions C08_restart_equals_continuing_run.

(* with exact unit conversion the state before saving is restored *)
Theorem C08_exact_restore : forall dmul ddiv c m m' file mc,
  (forall u, keeps8 (dmul u)) -> (forall u, keeps8 (ddiv u)) ->
  (forall u w, ddiv u (dmul u w) = w) -> allocated c m ->
  save dmul ddiv c m = Some (file, mc) -> room c m m' ->
  exists m2, load ddiv c m' file = Some (m2, []) /\
  (forall s sz n, In (s, sz, n) (expected c ++ time_series) ->
     same_window (sz * elements c m n) (m2 (s, 0)) (m (s, 0))) /\
  (forall s, In s (clock c) -> same_window 8 (m2 (s, 0)) (m (s, 0))).
Proof. setoid_rewrite <- elements_counted. exact restores_exact. Qed.
Print Assumptions C08_exact_restore.

(* model clock and domain bounds: the continuing run keeps its own values,
   the restarted run gets them after a multiplication and a division *)
Theorem C08_clock_restored_after_rounding : forall dmul ddiv c m m' file mc,
  (forall u, keeps8 (dmul u)) -> (forall u, keeps8 (ddiv u)) -> allocated c m ->
  save dmul ddiv c m = Some (file, mc) -> room c m m' ->
  exists m2, load ddiv c m' file = Some (m2, []) /\
  forall s, In s (clock c) ->
     mc (s, 0) = m (s, 0) /\
     firstn 8 (m2 (s, 0)) = ddiv (clock_unit s) (dmul (clock_unit s) (firstn 8 (m (s, 0)))).
Proof. exact restores_clock. Qed.
Print Assumptions C08_clock_restored_after_rounding.

(* in IEEE double arithmetic that round trip is not the identity:
   dt = 0.1, scaling.t = 3 *)
Definition f64_mul := SFmul 53 1024.
Definition f64_div := SFdiv 53 1024.
Theorem C08_bit_exact_clock_refuted : exists dt t : spec_float,
  valid_binary 53 1024 dt = true /\ valid_binary 53 1024 t = true /\
  f64_div (f64_mul dt t) t <> dt.
Proof.
  exists (S754_finite false 7205759403792794 (-56)), (S754_finite false 6755399441055744 (-51)).
  split; [reflexivity|]. split; [reflexivity|]. vm_compute. discriminate.
Qed.
Print Assumptions C08_bit_exact_clock_refuted.

(** ** C09 *)
Lemma old_stress_frame : forall c f,
  In f [("mesh->sxxd0", 0); ("mesh->szzd0", 0); ("mesh->sxz0", 0)] ->
  ~ In f (targets (body c)) /\ slook f (r_div c) = None /\ ~ In (fst f) locals4.
Proof.
  Transparent w_pre w_post w_series w_phase r_div body.
  intros c f Hf. split; [|split].
  - assert (H : forallb (fun f => negb (fmem f (plain_targets c)))
       [("mesh->sxxd0", 0); ("mesh->szzd0", 0); ("mesh->sxz0", 0)] = true) by (flags c; vm_compute; reflexivity).
    rewrite forallb_forall in H. specialize (H f Hf). apply negb_true_iff in H. apply fmem_not_In in H.
    intros Hx. apply H. unfold plain_targets, body, targets in *. rewrite !map_app in *.
    apply in_app_or in Hx. destruct Hx as [Hx|Hx]; [apply in_or_app; auto|].
    apply in_app_or in Hx. destruct Hx as [Hx|Hx]; [|apply in_or_app; right; assumption].
    exfalso. apply phase_targets in Hx. destruct Hx as (k & _ & [E|E]); subst f; cbn in Hf;
      repeat (destruct Hf as [Hf|Hf]; [discriminate|]); destruct Hf.
  - assert (H : forallb (fun f => match slook f (r_div c) with None => true | _ => false end)
       [("mesh->sxxd0", 0); ("mesh->szzd0", 0); ("mesh->sxz0", 0)] = true) by (flags c; vm_compute; reflexivity).
    rewrite forallb_forall in H. specialize (H f Hf). destruct (slook f (r_div c)); [discriminate|reflexivity].
  - intros Hx. cbn in Hf, Hx.
    destruct Hf as [E|[E|[E|[]]]]; subst f; cbn in Hx;
      repeat (destruct Hx as [Hx|Hx]; [discriminate|]); destruct Hx.
  Opaque w_pre w_post w_series w_phase r_div body.
Qed.

Lemma old_stress_items : forall c s n,
  In (s, n) [("mesh->sxxd", cells); ("mesh->szzd", cells); ("mesh->sxz", verts)] ->
  exists i, In i (body c) /\ i_name i = ((s ++ "0")%string, 0) /\ rn (i_name i) = (s, 0) /\
    i_count i = n /\ esz (i_size i) = 8 /\ is_model (i_name i) = false.
Proof.
  Transparent w_pre body.
  intros c s n H.
  assert (A : forallb (fun e : string * count => let (s, n) := e in existsb (fun i =>
     fid_eqb (i_name i) ((s ++ "0")%string, 0) && fid_eqb (rn (i_name i)) (s, 0) &&
     count_eqb (i_count i) n && (esz (i_size i) =? 8)%nat && negb (is_model (i_name i))) (w_pre c))
     [("mesh->sxxd", cells); ("mesh->szzd", cells); ("mesh->sxz", verts)] = true)
    by (flags c; vm_compute; reflexivity).
  rewrite forallb_forall in A. specialize (A _ H). cbn beta iota in A. apply existsb_exists in A.
  destruct A as (i & Hi & A).
  rewrite !andb_true_iff in A. destruct A as [[[[A H3] H2] H1] H0].
  exists i. apply fid_eqb_eq in A, H3. apply count_eqb_eq in H2. apply Nat.eqb_eq in H1.
  apply negb_true_iff in H0. repeat split; auto. unfold body. apply in_or_app. auto.
  Opaque w_pre body.
Qed.

(* exact mapping: the old stresses of the saving run end up in the current
   stresses of the restoring run, whose old stresses keep whatever they held *)
Theorem C09_old_stresses_go_to_current_stresses : forall dmul ddiv c m m' file mc,
  (forall u, keeps8 (ddiv u)) ->
  save dmul ddiv c m = Some (file, mc) -> room c m m' ->
  exists m2, load ddiv c m' file = Some (m2, []) /\
  (forall s n, In (s, n) [("mesh->sxxd", cells); ("mesh->szzd", cells); ("mesh->sxz", verts)] ->
     same_window (8 * elements c m n) (m2 (s, 0)) (mc ((s ++ "0")%string, 0))) /\
  (forall s, In s ["mesh->sxxd0"; "mesh->szzd0"; "mesh->sxz0"] -> m2 (s, 0) = m' (s, 0)).
Proof.
  intros dmul ddiv c m m' file mc Hdiv Hs Hr.
  destruct (save_load dmul ddiv c m m' file mc Hdiv Hs Hr) as (m2 & El & H1 & H2 & H3).
  exists m2. split; [exact El|]. split.
  - intros s n Hin. destruct (old_stress_items c s n Hin) as (i & Hi & En & Er & Ec & Es & Em).
    pose proof (H1 i Hi Em) as A. rewrite Er, En in A. unfold nbytes in A. rewrite Es, Ec, elements_counted in A. exact A.
  - intros s Hin.
    assert (Hf : In (s, 0) [("mesh->sxxd0", 0); ("mesh->szzd0", 0); ("mesh->sxz0", 0)]).
    { cbn in Hin |- *. intuition (subst; auto). }
    destruct (old_stress_frame c (s, 0) Hf) as (F1 & F2 & F3).
    rewrite H3 by assumption. rewrite F2. reflexivity.
Qed.
Print Assumptions C09_old_stresses_go_to_current_stresses.

(* concrete 2x2 grid, no markers, every object 64 zero bytes except the old
   stress; units equal to one *)
Definition cfg0 (nt : nat) : cfg := mkcfg 2 2 nt 1 false true false false false.
Definition zeros (n : nat) : list byte := repeat x00 n.
Definition mem0 : mem := fun _ => zeros 64.
Definition one_unit (u : unit_) (w : list byte) : list byte := w.
Definition stressed : mem := upd mem0 ("mesh->sxxd0", 0) (repeat x01 64).

Theorem C09_old_stresses_restored_refuted : exists c m m' file mc m2,
  save one_unit one_unit c m = Some (file, mc) /\ load one_unit c m' file = Some (m2, []) /\
  firstn 8 (m2 ("mesh->sxxd0", 0)) <> firstn 8 (m ("mesh->sxxd0", 0)).
Proof.
  exists (cfg0 1), stressed, mem0.
  eexists. eexists. eexists. split; [vm_compute; reflexivity|]. split; [vm_compute; reflexivity|].
  vm_compute. discriminate.
Qed.
Print Assumptions C09_old_stresses_restored_refuted.

(** ** C10 *)
Theorem C10_sections_before_series : forall dmul ddiv c n m m' file mc,
  (forall u, keeps8 (ddiv u)) ->
  save dmul ddiv c m = Some (file, mc) -> room c m m' ->
  (forall s, In s series_names -> 8 * (n + 1) <= List.length (m' (s, 0))) ->
  exists m2 rest, load ddiv (set_Nt c n) m' file = Some (m2, rest) /\
    forall s sz k, In (s, sz, k) (expected c) ->
      same_window (sz * elements c m k) (m2 (s, 0)) (mc (s, 0)).
Proof.
  intros dmul ddiv c n m m' file mc Hdiv Hs Hr Hcap.
  destruct (restore_other_Nt dmul ddiv c n m m' file mc Hdiv Hs) as (m2 & rest & El & _ & H1 & _).
  - intros i Hi. apply Hr, front_sub, Hi.
  - exact Hcap.
  - exists m2, rest. split; [exact El|].
    intros s sz k Hin. apply expected_front, covered_item in Hin.
    destruct Hin as (i & Hi & En & Es & Ec & Er & Em).
    pose proof (H1 i (pre_post_body c i Hi)) as A. rewrite En, Er in A. specialize (A Em).
    unfold nbytes in A. rewrite Es, Ec, elements_counted in A. exact A.
Qed.
Print Assumptions C10_sections_before_series.

(* series number k is filled from byte offset k*8*(Nt'+1) of the concatenated
   series, which were written at offsets k*8*(Nt+1) *)
Theorem C10_series_read_from_shifted_offsets : forall dmul ddiv c n m m' file mc,
  (forall u, keeps8 (ddiv u)) ->
  save dmul ddiv c m = Some (file, mc) -> room c m m' ->
  (forall s, In s series_names -> 8 * (n + 1) <= List.length (m' (s, 0))) ->
  let written := series_bytes c (scale_all dmul c (locals m x04 x08 x08 x01) (w_mul c)) in
  exists m2 rest, load ddiv (set_Nt c n) m' file = Some (m2, rest) /\
    rest = skipn (15 * (8 * (n + 1))) written /\
    forall k s, nth_error series_names k = Some s ->
      (k + 1) * (8 * (n + 1)) <= List.length written ->
      exists u, slook (s, 0) (r_div c) = Some (ntp1, u) /\
      firstn (8 * (n + 1)) (m2 (s, 0)) =
      map_words (n + 1) (ddiv u) (firstn (8 * (n + 1)) (skipn (k * (8 * (n + 1))) written)).
Proof.
  intros dmul ddiv c n m m' file mc Hdiv Hs Hr Hcap written.
  destruct (restore_other_Nt dmul ddiv c n m m' file mc Hdiv Hs) as (m2 & rest & El & E2 & _ & H2).
  - intros i Hi. apply Hr, front_sub, Hi.
  - exact Hcap.
  - exists m2, rest. auto.
Qed.
Print Assumptions C10_series_read_from_shifted_offsets.

(* continuing a run of 1 step to 2 steps: the first entry of the "Short"
   series is taken from the "Work" series *)
Definition worked : mem := upd mem0 ("mesh->Work_time", 0) (repeat x01 64).
Theorem C10_series_restored_refuted : exists c n m m' file mc m2 rest,
  c_Nt c < n /\
  save one_unit one_unit c m = Some (file, mc) /\ load one_unit (set_Nt c n) m' file = Some (m2, rest) /\
  firstn 8 (m2 ("mesh->Work_time", 0)) <> firstn 8 (m ("mesh->Work_time", 0)).
Proof.
  exists (cfg0 1), 3, worked, mem0.
  eexists. eexists. eexists. eexists. split; [cbn; lia|]. split; [vm_compute; reflexivity|].
  split; [vm_compute; reflexivity|]. vm_compute. discriminate.
Qed.
Print Assumptions C10_series_restored_refuted.

(** ** C46: fields that are not in the file *)
(* the advection velocities are divided by the velocity unit although they are
   not read; so are the viscosities when elasticity is off *)
Theorem C46_unsaved_fields_rescaled : forall dmul ddiv c m m' file mc,
  (forall u, keeps8 (ddiv u)) ->
  save dmul ddiv c m = Some (file, mc) -> room c m m' ->
  exists m2, load ddiv c m' file = Some (m2, []) /\
    m2 ("mesh->u_adv", 0) = map_words (c_Nx c * (c_Nz c + 1)) (ddiv u_V) (m' ("mesh->u_adv", 0)) /\
    m2 ("mesh->v_adv", 0) = map_words ((c_Nx c + 1) * c_Nz c) (ddiv u_V) (m' ("mesh->v_adv", 0)) /\
    (c_el c = false ->
       m2 ("mesh->eta_n", 0) = map_words ((c_Nx c - 1) * (c_Nz c - 1)) (ddiv u_eta) (m' ("mesh->eta_n", 0)) /\
       m2 ("mesh->eta_s", 0) = map_words (c_Nx c * c_Nz c) (ddiv u_eta) (m' ("mesh->eta_s", 0))).
Proof.
  intros dmul ddiv c m m' file mc Hdiv Hs Hr.
  destruct (save_load dmul ddiv c m m' file mc Hdiv Hs Hr) as (m2 & El & H1 & H2 & H3).
  exists m2. split; [exact El|].
  assert (F : forall s, fmem (s, 0) (plain_targets c) = false -> prefix "mesh->phase_perc" s = false ->
                        ~ In (s, 0) (targets (body c))).
  { Transparent body. intros s H Hp Hx. apply fmem_not_In in H. apply H.
    unfold plain_targets, body, targets in *. rewrite !map_app in *.
    apply in_app_or in Hx. destruct Hx as [Hx|Hx]; [apply in_or_app; auto|].
    apply in_app_or in Hx. destruct Hx as [Hx|Hx]; [|apply in_or_app; right; assumption].
    exfalso. apply phase_targets in Hx. destruct Hx as (k & _ & [E|E]); inversion E; subst s; discriminate.
    Opaque body. }
  assert (N : forall s, prefix "mesh" s = true -> ~ In (fst (s, 0)) locals4).
  { intros s Hp Hx. cbn in Hx. destruct Hx as [E|[E|[E|[E|[]]]]]; subst s; discriminate. }
  Transparent w_pre w_post w_series r_div.
  split; [|split].
  - rewrite H3; [|apply F; [flags c; vm_compute; reflexivity|reflexivity]|apply N; reflexivity].
    replace (slook ("mesh->u_adv", 0) (r_div c)) with (Some (vxn, u_V)) by (flags c; vm_compute; reflexivity).
    reflexivity.
  - rewrite H3; [|apply F; [flags c; vm_compute; reflexivity|reflexivity]|apply N; reflexivity].
    replace (slook ("mesh->v_adv", 0) (r_div c)) with (Some (vzn, u_V)) by (flags c; vm_compute; reflexivity).
    reflexivity.
  - intros Hel. split.
    + rewrite H3; [|apply F; [flags c; try discriminate Hel; vm_compute; reflexivity|reflexivity]|apply N; reflexivity].
      replace (slook ("mesh->eta_n", 0) (r_div c)) with (Some (cells, u_eta)) by (flags c; vm_compute; reflexivity).
      reflexivity.
    + rewrite H3; [|apply F; [flags c; try discriminate Hel; vm_compute; reflexivity|reflexivity]|apply N; reflexivity].
      replace (slook ("mesh->eta_s", 0) (r_div c)) with (Some (verts, u_eta)) by (flags c; vm_compute; reflexivity).
      reflexivity.
  Opaque w_pre w_post w_series r_div.
Qed.
Print Assumptions C46_unsaved_fields_rescaled.

(** ** Non-vacuity *)
Lemma one_unit_keeps : forall u, keeps8 (one_unit u).
Proof. intros u w H. exact H. Qed.

(* a run with two markers on a 2x2 grid can be saved and restored *)
Definition two_markers : mem := upd (upd mem0 ("particles->Nb_part", 0) (int_bytes x02))
  ("particles->x", 0) (repeat x07 64).
Transparent w_pre w_post w_series w_phase w_mul w_div r_div r_pre r_post r_series r_phase
  w_header r_header body locals.
Example C08_ex : exists file mc, save one_unit one_unit (cfg0 1) two_markers = Some (file, mc) /\
  room (cfg0 1) two_markers mem0 /\ allocated (cfg0 1) two_markers /\
  exists m2, load one_unit (cfg0 1) mem0 file = Some (m2, []) /\
    firstn 16 (m2 ("particles->x", 0)) = repeat x07 16.
Proof.
  assert (R : forallb (fun i => (nbytes (cfg0 1) two_markers i <=? List.length (mem0 (rn (i_name i))))%nat &&
     (nbytes (cfg0 1) two_markers i <=? List.length (two_markers (i_name i)))%nat) (body (cfg0 1)) = true)
    by (vm_compute; reflexivity).
  rewrite forallb_forall in R.
  eexists. eexists. split; [vm_compute; reflexivity|]. split; [|split].
  - intros i Hi. apply R in Hi. apply andb_true_iff in Hi. destruct Hi as [Hi _].
    apply Nat.leb_le. exact Hi.
  - intros i Hi. apply R in Hi. apply andb_true_iff in Hi. destruct Hi as [_ Hi].
    apply Nat.leb_le. exact Hi.
  - eexists. split; vm_compute; reflexivity.
Qed.
