(** * C84: marker temperature, pressure and stress follow the grid; C85: options and units of subgrid diffusion *)
From Coq Require Import ZArith Reals List Bool Lra Lia Psatz.
Import ListNotations.
From Verif Require Import P2GModel P2GProofs P2GProps AdvModel AdvProofs ItpModel ItpProofs ItpProps SubgridModel OptionsModel.
Local Open Scope R_scope.

Lemma abs_between x B : Rabs x <= B -> - B <= x <= B.
Proof. unfold Rabs. destruct (Rcase_abs x); lra. Qed.
(** ** Lists *)
Lemma mapM_some {A B} (f : A -> option B) (Q : A -> B -> Prop) l :
  (forall a, In a l -> exists b, f a = Some b /\ Q a b) -> exists r, mapM f l = Some r /\ Forall2 Q l r.
Proof.
  induction l as [|a l IH]; intros H; cbn [mapM]; [exists []; split; [reflexivity|constructor]|].
  destruct (H a (or_introl eq_refl)) as [b [-> Hb]]. destruct IH as [r [-> Hr]]; [intros; apply H; right; assumption|].
  exists (b :: r). split; [reflexivity|constructor; assumption].
Qed.
Lemma mapM_ext {A B} (f g : A -> option B) l : (forall a, In a l -> f a = g a) -> mapM f l = mapM g l.
Proof. induction l as [|a l IH]; intros H; cbn [mapM]; [reflexivity|]. rewrite (H a (or_introl eq_refl)), IH; [reflexivity|]. intros; apply H; right; assumption. Qed.
Lemma Forall2_combine {A B} (Q : A -> B -> Prop) l r : Forall2 Q l r -> forall a b, In (a, b) (combine l r) -> In a l /\ Q a b.
Proof. induction 1; intros a b; cbn [combine]; intros K; [destruct K|]. destruct K as [K|K]; [inversion K; subst; split; [left; reflexivity|assumption]|]. destruct (IHForall2 a b K). split; [right; assumption|assumption]. Qed.
Lemma Forall2_pairs {A B C} (Q : A * B -> C -> Prop) (P : A -> C -> Prop) : forall l (r : list B) s, length l = length r ->
  Forall2 Q (combine l r) s -> (forall a b c, Q (a, b) c -> P a c) -> Forall2 P l s.
Proof.
  induction l as [|a l IH]; intros r s L H K; destruct r; try discriminate; cbn [combine] in H; inversion H; subst; constructor.
  - eapply K. eassumption.
  - eapply IH; try eassumption. injection L. auto.
Qed.
Lemma Forall2_len {A B} (Q : A -> B -> Prop) l r : Forall2 Q l r -> length l = length r.
Proof. induction 1; cbn; congruence. Qed.

(** ** Interpolation is linear *)
Lemma replaced_lin f g k tag c a b : replaced (fun i => f i + k * g i) tag c a b = replaced f tag c a b + k * replaced g tag c a b.
Proof. unfold replaced, pick. destruct (rockb (tag (iSW c))), (rockb (tag (iSE c))), (rockb (tag (iNW c))), (rockb (tag (iNE c))); ring. Qed.
Lemma replaced_ext f g tag c a b : (forall i, f i = g i) -> replaced f tag c a b = replaced g tag c a b.
Proof. intros H. unfold replaced, pick. rewrite !H. reflexivity. Qed.
Lemma itp_lin l per m tag f g k p : itp l per m tag (fun i => f i + k * g i) p =
  match itp l per m tag f p, itp l per m tag g p with Some a, Some b => Some (a + k * b) | _, _ => None end.
Proof.
  unfold itp. destruct l.
  - unfold from_centres. destruct (p_ph p =? -1)%Z; [f_equal; ring|]. cbv zeta. destruct (centre_corners _ _ _ _ _); [|reflexivity].
    rewrite all_weights_one, !normalise_one, replaced_lin. reflexivity.
  - unfold from_vertices. destruct (p_ph p =? -1)%Z; [f_equal; ring|]. cbv zeta.
    destruct (NX m - 2 <? _)%Z; [reflexivity|]. rewrite replaced_lin. reflexivity.
Qed.
Lemma itp_ext l per m tag f g p : (forall i, f i = g i) -> itp l per m tag f p = itp l per m tag g p.
Proof.
  intros H. unfold itp. destruct l.
  - unfold from_centres. destruct (p_ph p =? -1)%Z; [reflexivity|]. cbv zeta. destruct (centre_corners _ _ _ _ _); [|reflexivity].
    rewrite (replaced_ext f g) by exact H. reflexivity.
  - unfold from_vertices. destruct (p_ph p =? -1)%Z; [reflexivity|]. cbv zeta.
    destruct (NX m - 2 <? _)%Z; [reflexivity|]. rewrite (replaced_ext f g) by exact H. reflexivity.
Qed.
Lemma itp_zero l per m tag p a : itp l per m tag (fun _ => 0) p = Some a -> a = 0.
Proof.
  intros H. assert (E := itp_lin l per m tag (fun _ => 0) (fun _ => 0) 1 p). rewrite H in E.
  rewrite (itp_ext _ _ _ _ _ (fun _ => 0)) in E by (intros; ring). rewrite H in E. injection E as E. lra.
Qed.

(** Specification: a marker of the box is active and inside. *)
Definition placed (m : mesh) (p : pt) : Prop := p_ph p <> (-1)%Z -> inside m (p_x p) (p_z p).
(** Nodes of the grid of a field. *)
Definition node (l : loc) (m : mesh) (j i : Z) : Prop := match l with Cells => (0 <= j < NX m - 1)%Z /\ (0 <= i < NZ m - 1)%Z | Corner => (0 <= j < NX m)%Z /\ (0 <= i < NZ m)%Z end.
Definition width_of (l : loc) (m : mesh) : Z := match l with Cells => (NX m - 1)%Z | Corner => NX m end.

(** Bounded and defined everywhere in a box without air. *)
Lemma itp_bounded l per m tag f p lo hi : mesh_ok m -> placed m p -> (forall k, rock (tag k)) -> lo <= 0 <= hi ->
  (forall j i, node l m j i -> lo <= f (j + i * width_of l m)%Z <= hi) -> exists v, itp l per m tag f p = Some v /\ lo <= v <= hi.
Proof.
  intros OK Hp HT H0 HF. destruct (Z.eq_dec (p_ph p) (-1)) as [E|E].
  - exists 0. split; [|exact H0]. unfold itp, from_centres, from_vertices. rewrite E. destruct l; reflexivity.
  - specialize (Hp E). unfold itp. destruct l.
    + destruct (C72_centres_bounded m per f tag (p_ph p) (p_x p) (p_z p) lo hi OK Hp E) as [v [-> Hv]].
      * intros j i [Hj _] [Hi _] _. apply HF. split; assumption.
      * intros j Hj. destruct (centre_facts m OK per (p_x p) (p_z p) Hp) as (cW & cE & rS & rN & _ & _ & _ & _ & _ & _ & NN & _).
        exists rN. split; [exact NN | apply HT].
      * exists v. split; [reflexivity|exact Hv].
    + destruct (C72_vertices_bounded m f tag (p_ph p) (p_x p) (p_z p) lo hi OK Hp E) as [v [-> Hv]].
      * intros j i [Hj _] [Hi _] _. apply HF. split; assumption.
      * intros j Hj. pose proof OK as (NXp & NZp & DXp & DZp).
        destruct Hp as [_ [Hz1 Hz2]].
        assert (C : exists i, near_vrow m (p_z p) i).
        { destruct (Zceil_spec ((p_z p - zg m 0) / DZ m)) as (C1 & C2). set (q := (p_z p - zg m 0) / DZ m) in *.
          assert (Q : p_z p = zg m 0 + q * DZ m) by (unfold q; field; lra).
          assert (Q0 : 0 <= q) by (unfold q; apply Rmult_le_pos; [lra|left; apply Rinv_0_lt_compat; exact DZp]).
          assert (Q1 : q <= IZR (NZ m - 1)). { apply Rmult_le_reg_r with (DZ m); [exact DZp|]. rewrite (zg_affine m (NZ m - 1)) in Hz2. lra. }
          exists (Zceil q). split; [split|].
          - apply le_IZR. lra.
          - apply lt_IZR. rewrite minus_IZR in Q1. lra.
          - unfold close. rewrite (zg_affine m (Zceil q)), Q. replace (zg m 0 + q * DZ m - (zg m 0 + IZR (Zceil q) * DZ m)) with (- ((IZR (Zceil q) - q) * DZ m)) by ring.
            rewrite Rabs_Ropp, Rabs_right; [|apply Rle_ge; apply Rmult_le_pos; lra]. nra. }
        destruct C as [i Hi]. exists i. split; [exact Hi|apply HT].
      * exists v. split; [reflexivity|exact Hv].
Qed.

(** ** C84 *)
(** Without subgrid diffusion: the interpolated change is added; distances between a
    marker and the grid stay what they are. *)
Theorem C84_plain : forall l per m tag old new ms, mesh_ok m -> (forall p, In p ms -> placed m p) -> (forall k, rock (tag k)) ->
  exists vs, plain l per m tag (fun _ => false) old new ms = Some vs /\
  Forall2 (fun p v => exists a b, itp l per m tag old p = Some a /\ itp l per m tag new p = Some b /\ v - b = p_v p - a) ms vs.
Proof.
  intros l per m tag old new ms OK HP HT. unfold plain. apply mapM_some. intros p Hp.
  assert (D : forall f, exists v, itp l per m tag f p = Some v).
  { intros f. assert (D1 : exists v, itp l per m tag (fun _ => 0) p = Some v).
    { destruct (itp_bounded l per m tag (fun _ => 0) p 0 0 OK (HP p Hp) HT) as [v [Hv _]]; [lra|intros; lra|exists v; exact Hv]. }
    destruct D1 as [v Hv]. pose proof (itp_lin l per m tag f (fun i => - f i) 1 p) as E.
    rewrite (itp_ext _ _ _ _ _ (fun _ => 0)) in E by (intros; ring). rewrite Hv in E. destruct (itp l per m tag f p) as [w|]; [exists w; reflexivity|discriminate]. }
  destruct (D old) as [a Ha]. destruct (D new) as [b Hb].
  assert (E : itp l per m tag (change (fun _ => false) old new) p = Some (b + -1 * a)).
  { rewrite (itp_ext _ _ _ _ _ (fun i => new i + -1 * old i)) by (intros; unfold change; ring). rewrite itp_lin, Ha, Hb. reflexivity. }
  rewrite E. eexists. split; [reflexivity|]. exists a, b. repeat split; try assumption. ring.
Qed.
Print Assumptions C84_plain.

(** Nothing changes where the grid does not change. *)
Theorem C84_plain_still : forall l per m tag skip f ms, mesh_ok m -> (forall p, In p ms -> placed m p) -> (forall k, rock (tag k)) ->
  plain l per m tag skip f f ms = Some (map p_v ms).
Proof.
  intros l per m tag skip f ms OK HP HT. unfold plain. induction ms as [|p ms IH]; cbn [mapM map]; [reflexivity|].
  rewrite IH by (intros; apply HP; right; assumption).
  destruct (itp_bounded l per m tag (change skip f f) p 0 0 OK (HP p (or_introl eq_refl)) HT) as [v [-> Hv]]; [lra| |].
  - intros j i _. unfold change. destruct (skip _); lra.
  - replace v with 0 by lra. rewrite Rplus_0_r. reflexivity.
Qed.
Print Assumptions C84_plain_still.

(** Subgrid diffusion leaves markers that agree with the grid to the plain update,
    whatever the tags, relaxation times and time step. *)
Lemma zero_grid l per m st tagP pds c : (forall pd, In pd pds -> p_ph (fst pd) = (-1)%Z \/ snd pd = 0) -> sub_grid l per m st tagP pds c = 0.
Proof.
  intros H. unfold sub_grid. cbv zeta. set (g := grid_of l m).
  assert (B : forall k, BMWM Arithmetic st per g (map as_marker pds) k = 0).
  { intros k. unfold BMWM. induction pds as [|pd r IH]; cbn [map sumR fold_right]; [reflexivity|].
    unfold sumR in IH. rewrite IH by (intros; apply H; right; assumption). cbn [fwd]. unfold as_marker at 1. cbn [mval].
    destruct (H pd (or_introl eq_refl)) as [E|E]; [|rewrite E; ring].
    unfold marker_weight, as_marker. cbn [mph]. rewrite E. cbn. ring. }
  assert (N : forall tg k, node_value Arithmetic st per g (map as_marker pds) tg 0 k = 0).
  { intros tg k. unfold node_value. destruct (Rlt_dec _ _); [reflexivity|]. destruct (_ || _); [reflexivity|]. cbn [bwd]. rewrite B. unfold Rdiv. ring. }
  unfold make_periodic. destruct (fam l); try (rewrite N; ring). destruct per; [|rewrite N; ring]. destruct (_ || _); rewrite ?N; ring.
Qed.
Theorem C84_subgrid_agrees : forall l per m st tagI tagP skip old new dt ms,
  (forall p, In p ms -> p_ph p <> (-1)%Z -> itp l per m tagI old p = Some (p_v p)) ->
  subgrid l per m st tagI tagP skip old new dt ms = plain l per m tagI skip old new ms.
Proof.
  intros l per m st tagI tagP skip old new dt ms H. unfold subgrid.
  assert (Z0 : mapM (sub_inc l per m tagI old dt) ms = Some (map (fun _ => 0) ms)).
  { induction ms as [|p ms IH]; cbn [mapM map]; [reflexivity|]. rewrite IH by (intros; apply H; [right; assumption|assumption]).
    unfold sub_inc. destruct (Z.eqb_spec (p_ph p) (-1)) as [E|E].
    - unfold itp, from_centres, from_vertices. rewrite E. destruct l; reflexivity.
    - rewrite (H p (or_introl eq_refl) E). f_equal. f_equal. ring. }
  rewrite Z0. cbv zeta. set (pds := combine ms (map (fun _ => 0) ms)).
  assert (ZP : forall pd, In pd pds -> p_ph (fst pd) = (-1)%Z \/ snd pd = 0).
  { intros [p d] Hin. right. apply in_combine_r in Hin. apply in_map_iff in Hin. destruct Hin as [_ [<- _]]. reflexivity. }
  assert (Ext : forall p, itp l per m tagI (remaining l per m st tagP skip old new pds) p = itp l per m tagI (change skip old new) p).
  { intros p. apply itp_ext. intros i. unfold remaining, change. rewrite zero_grid by exact ZP. destruct (skip i); ring. }
  unfold plain. unfold pds in *. clearbody pds || idtac. clear Z0 H.
  transitivity (mapM (fun pd : pt * R => match itp l per m tagI (change skip old new) (fst pd) with
      | Some r => Some (if (p_ph (fst pd) =? -1)%Z then p_v (fst pd) else p_v (fst pd) + snd pd + r) | None => None end) (combine ms (map (fun _ => 0) ms))).
  { apply mapM_ext. intros pd _. rewrite Ext. reflexivity. }
  clear Ext ZP. induction ms as [|p ms IH]; cbn [mapM map combine fst snd]; [reflexivity|]. rewrite IH.
  destruct (itp l per m tagI (change skip old new) p) as [r|] eqn:E; [|reflexivity].
  destruct (mapM _ ms); [|reflexivity]. f_equal. f_equal. destruct (Z.eqb_spec (p_ph p) (-1)) as [E1|E1]; [|ring].
  assert (r = 0); [|lra]. revert E. unfold itp, from_centres, from_vertices. rewrite E1. destruct l; cbn; intros E; injection E as E; congruence.
Qed.
Print Assumptions C84_subgrid_agrees.

(** One marker: the subgrid increment moves it towards the grid value, not beyond, and
    the more the longer the step. *)
Theorem C84_relaxation : forall l per m tagI old dt p v0, p_ph p <> (-1)%Z -> itp l per m tagI old p = Some v0 -> 0 <= dt -> 0 < p_tau p ->
  exists d, sub_inc l per m tagI old dt p = Some d /\ p_v p + d - v0 = exp (- (dt / p_tau p)) * (p_v p - v0) /\
  0 < exp (- (dt / p_tau p)) <= 1.
Proof.
  intros l per m tagI old dt p v0 Hp E Hdt Ht. unfold sub_inc. rewrite E. destruct (Z.eqb_spec (p_ph p) (-1)); [contradiction|].
  eexists. split; [reflexivity|]. replace (- (1) * dt / p_tau p) with (- (dt / p_tau p)) by (unfold Rdiv; ring). split; [ring|].
  split; [apply exp_pos|]. rewrite <- exp_0. assert (0 <= dt / p_tau p) by (apply Rmult_le_pos; [exact Hdt|left; apply Rinv_0_lt_compat; exact Ht]).
  destruct (Req_dec (dt / p_tau p) 0) as [-> |N]; [rewrite Ropp_0; lra|]. left. apply exp_increasing. lra.
Qed.
Print Assumptions C84_relaxation.

Lemma node_bound l per m st tagP pds B j i : mesh_ok m -> (forall pd, In pd pds -> placed m (fst pd)) ->
  (forall pd, In pd pds -> Rabs (snd pd) <= B) -> 0 <= B -> node l m j i ->
  Rabs (sub_grid l per m st tagP pds (j + i * width_of l m)%Z) <= B.
Proof.
  intros (NXp & NZp & DXp & DZp) HP HB B0 HN. unfold sub_grid. cbv zeta.
  assert (GW : gNx (grid_of l m) = width_of l m) by (destruct l; reflexivity).
  assert (GH : gNz (grid_of l m) = (match l with Cells => NZ m - 1 | Corner => NZ m end)%Z) by (destruct l; reflexivity).
  assert (J : (0 <= j < width_of l m)%Z) by (destruct l; apply HN).
  assert (I0 : (0 <= i < gNz (grid_of l m))%Z) by (rewrite GH; destruct l; apply HN).
  rewrite GW, Z.mod_add, Z.div_add, Z.mod_small, Z.div_small, Z.add_0_l by lia.
  assert (NV : forall j', (0 <= j' < width_of l m)%Z -> Rabs (node_value Arithmetic st per (grid_of l m) (map as_marker pds) (tagP (j' + i * width_of l m)%Z) 0 (j' + i * width_of l m)%Z) <= B).
  { intros j' J'. unfold node_value. destruct (Rlt_dec _ _) as [|NT]; [rewrite Rabs_R0; exact B0|].
    destruct (Z.eqb_spec (tagP (j' + i * width_of l m)%Z) 30) as [|T1]; [cbn [orb]; rewrite Rabs_R0; exact B0|].
    destruct (Z.eqb_spec (tagP (j' + i * width_of l m)%Z) 31) as [|T2]; [cbn [orb]; rewrite Rabs_R0; exact B0|]. cbn [orb].
    assert (MI : markers_inside (NX m) (NZ m) (X0 m) (Z0 m) (DX m) (DZ m) (map as_marker pds)).
    { intros mk Hmk Ha. apply in_map_iff in Hmk. destruct Hmk as [pd [<- Hin]]. pose proof (HP pd Hin Ha) as [IX IZ].
      unfold in_domain, as_marker. cbn [mx mz]. unfold xg, zg in *. rewrite minus_IZR in *. lra. }
    rewrite <- GW in J', NT |- *.
    destruct (C50_weights_are_hat_functions (fam l) (NX m) (NZ m) (X0 m) (Z0 m) (DX m) (DZ m) NXp NZp DXp DZp st per (map as_marker pds) j' i MI J' I0) as [EW _].
    assert (Big : / 10 ^ 30 <= sumR (spec_weight (fam l) (NX m) (NZ m) (X0 m) (Z0 m) (DX m) (DZ m) st per j' i) (map as_marker pds)).
    { unfold grid_of in NT. rewrite EW in NT. rewrite Rabs_right in NT; [unfold tiny in NT; lra|].
      apply Rle_ge. clear. induction (map as_marker pds) as [|a r IH]; cbn [sumR fold_right]; [lra|].
      pose proof (spec_nonneg (fam l) (NX m) (NZ m) (X0 m) (Z0 m) (DX m) (DZ m) st per j' i a). unfold sumR in IH. lra. }
    pose proof (C50_value_between_reaching_markers (fam l) (NX m) (NZ m) (X0 m) (Z0 m) (DX m) (DZ m) NXp NZp DXp DZp Arithmetic st per (map as_marker pds) j' i 0%Z 0 (- B) B MI J' I0 ltac:(lia) ltac:(lia) Big (or_introl eq_refl)) as V.
    unfold node_value in V. unfold grid_of in NT. destruct (Rlt_dec _ _) as [K|_] in V; [contradiction|]. cbn [orb Z.eqb] in V.
    apply Rabs_le. apply V. intros mk Hmk _. apply in_map_iff in Hmk. destruct Hmk as [pd [<- Hin]]. unfold as_marker. cbn [mval].
    pose proof (HB pd Hin) as A. apply abs_between in A. exact A. }
  unfold make_periodic. destruct l; cbn [fam width_of] in *; [apply NV; exact J|].
  destruct per; [|apply NV; exact J]. destruct (_ || _); [|apply NV; exact J].
  pose proof (NV (NX m - 1)%Z ltac:(lia)) as A1. pose proof (NV 0%Z ltac:(lia)) as A2.
  apply abs_between in A1, A2. apply Rabs_le. lra.
Qed.

(** Scatter of markers about the grid does not grow: if every marker was within D of the
    old grid, afterwards it is within D (e + 1 - e_min) of the new grid, where e is its
    decay factor and e_min the smallest one; within D if all decay alike. *)
Theorem C84_scatter_bounded : forall l per m st tagI tagP old new dt ms D emin, mesh_ok m ->
  (forall p, In p ms -> placed m p) -> (forall k, rock (tagI k)) -> 0 <= D -> 0 <= dt ->
  (forall p, In p ms -> 0 < p_tau p /\ emin <= exp (- (dt / p_tau p))) -> emin <= 1 ->
  (forall p v0, In p ms -> p_ph p <> (-1)%Z -> itp l per m tagI old p = Some v0 -> Rabs (p_v p - v0) <= D) ->
  exists vs, subgrid l per m st tagI tagP (fun _ => false) old new dt ms = Some vs /\
  Forall2 (fun p v => p_ph p <> (-1)%Z -> exists w, itp l per m tagI new p = Some w /\
                      Rabs (v - w) <= D * (exp (- (dt / p_tau p)) + (1 - emin))) ms vs.
Proof.
  intros l per m st tagI tagP old new dt ms D emin OK HP HT HD Hdt HE HE1 HS.
  assert (Def : forall f p, In p ms -> exists v, itp l per m tagI f p = Some v).
  { intros f p Hp. assert (D1 : exists v, itp l per m tagI (fun _ => 0) p = Some v).
    { destruct (itp_bounded l per m tagI (fun _ => 0) p 0 0 OK (HP p Hp) HT) as [v [Hv _]]; [lra|intros; lra|exists v; exact Hv]. }
    destruct D1 as [v Hv]. pose proof (itp_lin l per m tagI f (fun i => - f i) 1 p) as E.
    rewrite (itp_ext _ _ _ _ _ (fun _ => 0)) in E by (intros; ring). rewrite Hv in E. destruct (itp l per m tagI f p) as [w|]; [exists w; reflexivity|discriminate]. }
  set (B := D * (1 - emin)). assert (B0 : 0 <= B) by (unfold B; apply Rmult_le_pos; lra).
  destruct (mapM_some (sub_inc l per m tagI old dt) (fun p d => Rabs d <= B /\
     (p_ph p <> (-1)%Z -> exists v0, itp l per m tagI old p = Some v0 /\ p_v p + d - v0 = exp (- (dt / p_tau p)) * (p_v p - v0))) ms) as [dms [E1 F1]].
  { intros p Hp. destruct (Def old p Hp) as [v0 Hv]. destruct (HE p Hp) as [Ht Hem]. destruct (Z.eq_dec (p_ph p) (-1)) as [E|E].
    - exists 0. unfold sub_inc. rewrite Hv, E. cbn. split; [reflexivity|]. rewrite Rabs_R0. split; [exact B0|]. intros K. elim K. reflexivity.
    - destruct (C84_relaxation l per m tagI old dt p v0 E Hv Hdt Ht) as [d [S1 [S2 [S3 S4]]]]. exists d. split; [exact S1|].
      split; [|intros _; exists v0; split; assumption].
      replace d with (- ((1 - exp (- (dt / p_tau p))) * (p_v p - v0))) by lra. rewrite Rabs_Ropp, Rabs_mult, Rabs_right by lra.
      pose proof (HS p v0 Hp E Hv) as S5. unfold B. pose proof (Rabs_pos (p_v p - v0)). nra. }
  unfold subgrid. rewrite E1. cbv zeta. set (pds := combine ms dms).
  assert (PB : forall j i, node l m j i -> Rabs (sub_grid l per m st tagP pds (j + i * width_of l m)%Z) <= B).
  { intros j i Hn. apply node_bound; try assumption; intros [p d] Hin; destruct (Forall2_combine _ _ _ F1 p d Hin) as [Hp [Hb _]]; cbn [fst snd]; auto. }
  destruct (mapM_some (fun pd => match itp l per m tagI (remaining l per m st tagP (fun _ => false) old new pds) (fst pd) with
      | Some r => Some (if (p_ph (fst pd) =? -1)%Z then p_v (fst pd) else p_v (fst pd) + snd pd + r) | None => None end)
     (fun pd v => p_ph (fst pd) <> (-1)%Z -> exists w, itp l per m tagI new (fst pd) = Some w /\ Rabs (v - w) <= D * (exp (- (dt / p_tau (fst pd))) + (1 - emin))) pds) as [vs [E2 F2]].
  { intros [p d] Hin. cbn [fst snd]. destruct (Forall2_combine _ _ _ F1 p d Hin) as [Hp [_ Hr]].
    destruct (Def old p Hp) as [v0 Hv0]. destruct (Def new p Hp) as [w Hw].
    destruct (itp_bounded l per m tagI (sub_grid l per m st tagP pds) p (- B) B OK (HP p Hp) HT) as [s [Hs Bs]]; [lra| |].
    { intros j i Hn. apply abs_between. apply PB. exact Hn. }
    assert (R1 : itp l per m tagI (remaining l per m st tagP (fun _ => false) old new pds) p = Some ((w + -1 * v0) + -1 * s)).
    { rewrite (itp_ext _ _ _ _ _ (fun i => (new i + -1 * old i) + -1 * sub_grid l per m st tagP pds i)) by (intros; unfold remaining; ring).
      rewrite itp_lin, Hs. rewrite itp_lin, Hw, Hv0. reflexivity. }
    rewrite R1. eexists. split; [reflexivity|]. intros Ha. exists w. split; [exact Hw|].
    destruct (Z.eqb_spec (p_ph p) (-1)); [contradiction|].
    destruct (Hr Ha) as [v0' [Hv' Eq]]. rewrite Hv0 in Hv'. injection Hv' as <-.
    replace (p_v p + d + (w + -1 * v0 + -1 * s) - w) with ((p_v p + d - v0) + - s) by ring. rewrite Eq.
    eapply Rle_trans; [apply Rabs_triang|]. rewrite Rabs_mult, Rabs_Ropp.
    pose proof (exp_pos (- (dt / p_tau p))). rewrite (Rabs_right (exp _)) by lra.
    pose proof (HS p v0 Hp Ha Hv0). assert (Rabs s <= B) by (apply Rabs_le; lra). unfold B in *. nra. }
  exists vs. split; [exact E2|].
  eapply Forall2_pairs; [|exact F2|].
  - eapply Forall2_len. exact F1.
  - intros p d v Hq. exact Hq.
Qed.
Print Assumptions C84_scatter_bounded.
Example C84_scatter_bounded_ex :
  let m := Mesh 3 3 0 0 1 1 in let p := Pt 1 1 0 5 2 in
  mesh_ok m /\ placed m p /\ 0 < p_tau p /\ exp (- (2 / p_tau p)) <= exp (- (2 / p_tau p)) /\ exp (- (2 / p_tau p)) <= 1.
Proof.
  cbn [p_tau]. split; [unfold mesh_ok; cbn; repeat split; lia || lra|]. split; [intros _; unfold inside, xg, zg; cbn; lra|].
  repeat split; try lra. rewrite <- exp_0. left. apply exp_increasing. lra.
Qed.

(** Refuted: with the thermal solver off, or the grid temperature unchanged, markers keep
    their temperature. Two markers in a cell, one warmer and one colder than the grid,
    are driven together. *)
Theorem C84_still_grid_refuted : forall dt, 0 < dt -> exists m ms old vs, mesh_ok m /\ (forall p, In p ms -> placed m p) /\
  energy 1 false m (fun _ => (-1)%Z) (fun _ => (-1)%Z) old old dt ms = Some vs /\ vs <> map p_v ms.
Proof.
  intros dt Hdt. set (m := Mesh 3 3 0 0 1 1). set (p := Pt (1 / 4) (1 / 2) 0 1 1). set (q := Pt (3 / 4) (1 / 2) 0 (- 1) 1).
  set (e := exp (- (1) * dt / 1)).
  exists m, [p; q], (fun _ => 0), [p_v p + - (1 - e) + 0; p_v q + (1 - e) + 0].
  assert (OK : mesh_ok m) by (unfold mesh_ok, m; cbn; repeat split; lia || lra).
  assert (PP : placed m p /\ placed m q) by (split; intros _; unfold inside, xg, zg, m, p, q; cbn; lra).
  assert (RK : forall k : Z, rock ((fun _ => (-1)%Z) k)) by (intros; split; discriminate).
  assert (E1 : e <> 1).
  { unfold e. intros E. assert (exp (- (1) * dt / 1) < exp 0) by (apply exp_increasing; lra). rewrite exp_0 in H. lra. }
  split; [exact OK|]. split; [intros r [<-|[<-|[]]]; apply PP|]. split.
  2:{ cbn [map]. intros E. injection E as E _. unfold p in E. cbn [p_v] in E. lra. }
  unfold energy. cbn [Z.leb Z.compare Pos.compare Pos.compare_cont]. unfold subgrid.
  assert (I0 : forall r, placed m r -> itp Cells false m (fun _ => (-1)%Z) (fun _ => 0) r = Some 0).
  { intros r Hr. destruct (itp_bounded Cells false m (fun _ => (-1)%Z) (fun _ => 0) r 0 0 OK Hr RK) as [v [Hv B]]; [lra|intros; lra|]. rewrite Hv. f_equal. lra. }
  assert (S1 : sub_inc Cells false m (fun _ => (-1)%Z) (fun _ => 0) dt p = Some (- (1 - 0) * (1 - e))) by (unfold sub_inc; rewrite (I0 p) by apply PP; reflexivity).
  assert (S2 : sub_inc Cells false m (fun _ => (-1)%Z) (fun _ => 0) dt q = Some (- (- 1 - 0) * (1 - e))) by (unfold sub_inc; rewrite (I0 q) by apply PP; reflexivity).
  cbn [mapM]. rewrite S1, S2. cbv zeta. cbn [combine].
  set (pds := [(p, - (1 - 0) * (1 - e)); (q, - (- 1 - 0) * (1 - e))]).
  (* the increments cancel in the cell *)
  assert (SG : forall j i, node Cells m j i -> sub_grid Cells false m OneCell (fun _ => (-1)%Z) pds (j + i * width_of Cells m)%Z = 0).
  { intros j i Hn. unfold sub_grid. cbv zeta. cbn [fam make_periodic]. change (gNx (grid_of Cells m)) with 2%Z. change (width_of Cells m) with 2%Z.
    unfold node in Hn. cbn [NX NZ m] in Hn. rewrite Z.mod_add, Z.div_add, Z.mod_small, Z.div_small, Z.add_0_l by lia.
    unfold node_value. destruct (Rlt_dec _ _); [reflexivity|]. cbn [Z.eqb orb bwd].
    assert (MI : markers_inside 3 3 0 0 1 1 (map as_marker pds)).
    { intros mk Hmk Ha. cbn in Hmk. destruct Hmk as [<-|[<-|[]]]; unfold in_domain, as_marker; cbn; lra. }
    destruct (C50_weights_are_hat_functions Centroids 3 3 0 0 1 1 ltac:(lia) ltac:(lia) ltac:(lra) ltac:(lra) OneCell false (map as_marker pds) j i MI ltac:(cbn; lia) ltac:(cbn; lia)) as [_ EB].
    pose proof (EB Arithmetic : BMWM Arithmetic OneCell false (grid_of Cells m) (map as_marker pds) (j + i * 2)%Z = _) as EA. rewrite EA.
    cbn [map pds sumR fold_right fwd]. unfold as_marker. cbn [fst snd mval]. unfold spec_weight. cbn [mph p q p_ph Z.eqb mx mz p_x p_z family_nodes gX gZ half_width].
    assert (HW : hat_weight (1 / 2) (1 / 2) (0 + 1 / 2 + IZR j * 1) (0 + 1 / 2 + IZR i * 1) (1 / 4) (1 / 2) = hat_weight (1 / 2) (1 / 2) (0 + 1 / 2 + IZR j * 1) (0 + 1 / 2 + IZR i * 1) (3 / 4) (1 / 2)).
    { unfold hat_weight, hat. f_equal. assert (J : j = 0%Z \/ j = 1%Z) by lia. destruct J as [-> | ->].
      - replace (Rabs (0 + 1 / 2 + 0 * 1 - 1 / 4)) with (1 / 4) by (rewrite Rabs_right; lra). replace (Rabs (0 + 1 / 2 + 0 * 1 - 3 / 4)) with (1 / 4) by (rewrite Rabs_left; lra). reflexivity.
      - replace (Rabs (0 + 1 / 2 + 1 * 1 - 1 / 4)) with (5 / 4) by (rewrite Rabs_right; lra). replace (Rabs (0 + 1 / 2 + 1 * 1 - 3 / 4)) with (3 / 4) by (rewrite Rabs_right; lra).
        rewrite !Rmax_left; lra. }
    rewrite HW. unfold Rdiv. ring. }
  assert (RR : forall r, placed m r -> itp Cells false m (fun _ => (-1)%Z) (remaining Cells false m OneCell (fun _ => (-1)%Z) (fun c => (-1 =? 30)%Z) (fun _ => 0) (fun _ => 0) pds) r = Some 0).
  { intros r Hr. destruct (itp_bounded Cells false m (fun _ => (-1)%Z) (remaining Cells false m OneCell (fun _ => (-1)%Z) (fun c => (-1 =? 30)%Z) (fun _ => 0) (fun _ => 0) pds) r 0 0 OK Hr RK) as [v [Hv B]]; [lra| |rewrite Hv; f_equal; lra].
    intros j i Hn. unfold remaining. cbn [Z.eqb]. rewrite SG by exact Hn. lra. }
  unfold pds at 2. cbn [mapM fst snd]. rewrite (RR p), (RR q) by apply PP. cbn [p_ph p q Z.eqb p_v]. f_equal. f_equal; [ring|]. f_equal. ring.
Qed.
Print Assumptions C84_still_grid_refuted.

(** Melt fractions of markers stay between 0 and 1. *)
Theorem C84_melt_range : forall per m tBp tBt phi0 phi ms vs, phi_update per m tBp tBt phi0 phi ms = Some vs ->
  forall v, In v vs -> 0 <= v <= 1.
Proof.
  intros per m tBp tBt phi0 phi ms vs H v Hv. unfold phi_update in H. destruct (plain _ _ _ _ _ _ _ _) as [r|]; [|discriminate].
  injection H as <-. apply in_map_iff in Hv. destruct Hv as [w [<- _]]. unfold cap01. cbv zeta.
  destruct (Rle_dec w 0); [destruct (Rle_dec 1 0)|destruct (Rle_dec 1 w)]; lra.
Qed.
Print Assumptions C84_melt_range.
(** and are unchanged by the cut-off where the increment keeps them there. *)
Theorem C84_melt_exact : forall v, 0 <= v <= 1 -> cap01 v = v.
Proof. intros v H. unfold cap01. destruct (Rle_dec v 0); destruct (Rle_dec 1 _); lra. Qed.
Print Assumptions C84_melt_exact.

(** Refuted: markers carry their own grain size. Every call replaces it by the grid
    value at the marker's place: what the marker had, and its rock, do not matter. *)
Theorem C84_grain_size_forgotten_refuted : forall per m tBt d p q, p_x p = p_x q -> p_z p = p_z q ->
  p_ph p <> (-1)%Z -> p_ph q <> (-1)%Z -> grain_update per m tBt d [p] = grain_update per m tBt d [q].
Proof.
  intros per m tBt d p q HX HZ HP HQ. unfold grain_update. cbn [mapM]. unfold itp, from_centres. rewrite HX, HZ.
  destruct (Z.eqb_spec (p_ph p) (-1)); [contradiction|]. destruct (Z.eqb_spec (p_ph q) (-1)); [contradiction|]. reflexivity.
Qed.
Print Assumptions C84_grain_size_forgotten_refuted.

(** ** C85 *)
(** Values of the option above 2 switch the update of the marker stresses off, while
    temperature and pressure are still updated. *)
Theorem C85_larger_option_refuted : forall opt l per m st tag s0 s dt ms, (2 < opt)%Z ->
  stress opt l per m st tag s0 s dt ms = Some (map p_v ms) /\
  (forall tBt tBp, energy opt per m tBt tBp s0 s dt ms = energy 2 per m tBt tBp s0 s dt ms /\
                   pressure opt per m tBt tBp s0 s dt ms = pressure 2 per m tBt tBp s0 s dt ms).
Proof.
  intros opt l per m st tag s0 s dt ms H. unfold stress, energy, pressure.
  destruct (Z.eqb_spec opt 2); [lia|]. destruct (Z.eqb_spec opt 0); [lia|]. destruct (Z.eqb_spec opt 1); [lia|]. cbn [orb].
  split; [reflexivity|]. intros tBt tBp. destruct (Z.leb_spec 1 opt); [|lia]. destruct (Z.leb_spec 2 opt); [|lia]. split; reflexivity.
Qed.
Print Assumptions C85_larger_option_refuted.
(** For 0, 1 and 2 each field is updated as documented. *)
Theorem C85_documented_options : forall l per m st tag s0 s dt ms,
  let skip c := match l with Cells => negb (rockb (tag c)) | Corner => (tag c =? 30)%Z end in
  stress 0 l per m st tag s0 s dt ms = plain l per m tag skip s0 s ms /\
  stress 1 l per m st tag s0 s dt ms = plain l per m tag skip s0 s ms /\
  stress 2 l per m st tag s0 s dt ms = subgrid l per m st tag tag skip s0 s dt ms /\
  (forall tBt tBp, energy 0 per m tBt tBp s0 s dt ms = plain Cells per m tBt (fun c => (tBt c =? 30)%Z) s0 s ms /\
    energy 1 per m tBt tBp s0 s dt ms = subgrid Cells per m OneCell tBt tBp (fun c => (tBt c =? 30)%Z) s0 s dt ms /\
    energy 2 per m tBt tBp s0 s dt ms = subgrid Cells per m OneCell tBt tBp (fun c => (tBt c =? 30)%Z) s0 s dt ms /\
    pressure 0 per m tBt tBp s0 s dt ms = plain Cells per m tBp (fun c => (tBp c =? 30)%Z) s0 s ms /\
    pressure 1 per m tBt tBp s0 s dt ms = plain Cells per m tBp (fun c => (tBp c =? 30)%Z) s0 s ms).
Proof. intros. repeat split; reflexivity. Qed.
Print Assumptions C85_documented_options.

(** The decay factors of temperature and stress do not depend on the units chosen. *)
Theorem C85_units : forall eta L V T, 0 < eta -> 0 < L -> 0 < V -> 0 < T -> let s := ScaleMe eta L V T in
  forall dt cp rho k dx dz visc G, 0 < cp -> 0 < rho -> 0 < k -> 0 < dx -> 0 < dz -> 0 < visc -> 0 < G ->
  (dt / s_t s) / tau_T (cp / s_Cp s) (rho / s_rho s) (k / s_k s) (dx / s_L s) (dz / s_L s) = dt / tau_T cp rho k dx dz /\
  (dt / s_t s) / tau_S (visc / s_eta s) (G / s_S s) = dt / tau_S visc G.
Proof.
  intros eta L V T He HL HV HT s dt cp rho k dx dz visc G Hc Hr Hk Hx Hz Hv HG. subst s. unfold tau_T, tau_S, ScaleMe. cbn [s_t s_Cp s_rho s_k s_L s_eta s_S].
  assert (dx * dx + dz * dz <> 0) by nra. assert (dz * dz + dx * dx <> 0) by nra.
  split; field; repeat split; try lra.
  replace (L * L * (dz * dz) + L * L * (dx * dx)) with (L * L * (dx * dx + dz * dz)) by ring.
  apply Rmult_integral_contrapositive_currified; [nra|assumption].
Qed.
Print Assumptions C85_units.

(** Refuted for pressure: the relaxation time is viscosity divided by compressibility
    (not multiplied), so the decay exponent is multiplied by the square of the stress
    unit. The same rock, time step and marker end at different pressures in two systems
    of units. *)
Theorem C85_pressure_units_refuted : forall eta L V T, 0 < eta -> 0 < L -> 0 < V -> 0 < T -> let s := ScaleMe eta L V T in
  forall dt visc bet, 0 < visc -> 0 < bet ->
  (dt / s_t s) / tau_P (visc / s_eta s) (bet / (1 / s_S s)) = s_S s * s_S s * (dt / tau_P visc bet).
Proof.
  intros eta L V T He HL HV HT s dt visc bet Hv Hb. subst s. unfold tau_P, ScaleMe. cbn [s_t s_eta s_S]. field. repeat split; lra.
Qed.
Print Assumptions C85_pressure_units_refuted.
Theorem C85_pressure_factor_refuted : exists dt visc bet, 0 < dt /\ 0 < visc /\ 0 < bet /\
  let factor s := exp (- ((dt / s_t s) / tau_P (visc / s_eta s) (bet / (1 / s_S s)))) in
  factor (ScaleMe 1 1 1 1) <> factor (ScaleMe 2 1 1 1).
Proof.
  exists 1, 1, 1. split; [lra|]. split; [lra|]. split; [lra|]. cbv zeta.
  intros E. apply exp_inv in E.
  pose proof (C85_pressure_units_refuted 1 1 1 1 ltac:(lra) ltac:(lra) ltac:(lra) ltac:(lra) 1 1 1 ltac:(lra) ltac:(lra)) as A.
  pose proof (C85_pressure_units_refuted 2 1 1 1 ltac:(lra) ltac:(lra) ltac:(lra) ltac:(lra) 1 1 1 ltac:(lra) ltac:(lra)) as B.
  cbv zeta in A, B. rewrite A, B in E. revert E. unfold ScaleMe, tau_P. cbn [s_S]. replace (1 / (1 / 1)) with 1 by field. replace (2 / (1 / 1)) with 2 by field. lra.
Qed.
Print Assumptions C85_pressure_factor_refuted.
