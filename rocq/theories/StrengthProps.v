(** * C110, C111: strength on the grid; grain size and composition of markers *)
From Coq Require Import List ZArith Reals Bool Arith Lia Lra Psatz.
Import ListNotations.
From Verif Require Import GridModel GridProofs RheoModel MatGridModel MatGridProps AnisoModel P2GModel P2GProofs ItpModel ItpProofs ItpProps SubgridModel SubgridProps PhaseGridModel PhaseGridProofs PhaseGridProps.
Local Open Scope R_scope.

(** ** C110: friction, dilation and cohesion on the grid *)

(** Specification: value of one phase at a plastic strain, for softening that begins with the
    first strain; [a] at rest, [b] at the end. *)
Definition eased (q : soft_par) (last strain : R) (p : nat) : R :=
  if sp_on q p then ramp (sp_a q p) (sp_b q p) 0 last strain else sp_a q p.

Lemma softened_eased erfc m q strain p : sm_start m p = 0 -> 0 < sm_end m p -> 0 <= strain ->
  softened erfc false m q strain p = eased q (sm_end m p) strain p.
Proof.
  intros S E L. unfold softened, eased. rewrite S. destruct (sp_on q p); [now apply C62_linear_from_zero|].
  destruct (C62_linear_outside (sp_a q p) (sp_b q p) 0 (sm_end m p) strain E) as (_ & _ & H). exact H.
Qed.

Section Strength.
  Variables (erfc : R -> R) (noisy : bool) (m : strength_mat) (nph nx nz : nat) (g : phase_fields).
  Variables (strain_n strain_s noise_n noise_s : nat -> R) (old : strength * strength).

  (** Piecewise linear softening from zero strain: rock cells and vertices hold the means over
      their phases, the cohesion times 1 + noise; air nodes hold 0. *)
  Theorem C110_values : (forall p, (p < nph)%nat -> sm_start m p = 0 /\ 0 < sm_end m p) ->
    let new := strength_grids erfc false noisy m nph nx nz g strain_n strain_s noise_n noise_s old in
    let mean q (fr : nat -> nat -> R) strain c := psum nph (fun p => fr p c * eased q (sm_end m p) (strain c) p) in
    (forall c, (c < (nx - 1) * (nz - 1))%nat -> rock_cell g c -> 0 <= strain_n c ->
       st_fric (fst new) c = mean (sm_phi m) (pf_n g) strain_n c /\ st_dil (fst new) c = mean (sm_psi m) (pf_n g) strain_n c /\
       st_coh (fst new) c = mean (sm_coh m) (pf_n g) strain_n c * (1 + if noisy then noise_n c else 0)) /\
    (forall c, (c < nx * nz)%nat -> rock_vertex g c -> 0 <= strain_s c ->
       st_fric (snd new) c = mean (sm_phi m) (pf_s g) strain_s c /\ st_dil (snd new) c = mean (sm_psi m) (pf_s g) strain_s c /\
       st_coh (snd new) c = mean (sm_coh m) (pf_s g) strain_s c * (1 + if noisy then noise_s c else 0)).
  Proof.
    intros S. cbv zeta. unfold strength_grids. cbn [fst snd].
    assert (X : forall q (fr : nat -> nat -> R) strain c, 0 <= strain c ->
      psum nph (fun p => fr p c * softened erfc false m q (strain c) p) = psum nph (fun p => fr p c * eased q (sm_end m p) (strain c) p)).
    { intros q fr strain c L. apply psum_ext. intros p Hp. destruct (S p Hp). now rewrite softened_eased. }
    split; intros c C R L.
    - destruct (strength_grid_spec erfc false noisy m nph ((nx - 1) * (nz - 1)) (fun c => air_cell (pf_bcp g c)) (pf_n g) strain_n noise_n (fst old)) as [A _].
      cbv zeta in A. destruct (A c C) as (-> & -> & ->). rewrite !X by exact L. destruct (air_cell_spec (pf_bcp g c)); [destruct R; tauto|]. auto.
    - destruct (strength_grid_spec erfc false noisy m nph (nx * nz) (fun c => air_vertex (pf_bcg g c)) (pf_s g) strain_s noise_s (snd old)) as [A _].
      cbv zeta in A. destruct (A c C) as (-> & -> & ->). rewrite !X by exact L. destruct (air_vertex_spec (pf_bcg g c)); [contradiction|]. auto.
  Qed.

  (** Air nodes hold 0 and nothing is written outside the grids, with either kind of softening. *)
  Theorem C110_air : forall smooth,
    let new := strength_grids erfc smooth noisy m nph nx nz g strain_n strain_s noise_n noise_s old in
    (forall c, (c < (nx - 1) * (nz - 1))%nat -> ~ rock_cell g c -> st_fric (fst new) c = 0 /\ st_dil (fst new) c = 0 /\ st_coh (fst new) c = 0) /\
    (forall c, (c < nx * nz)%nat -> ~ rock_vertex g c -> st_fric (snd new) c = 0 /\ st_dil (snd new) c = 0 /\ st_coh (snd new) c = 0) /\
    (forall c, ((nx - 1) * (nz - 1) <= c)%nat -> st_fric (fst new) c = st_fric (fst old) c /\ st_dil (fst new) c = st_dil (fst old) c /\ st_coh (fst new) c = st_coh (fst old) c) /\
    (forall c, (nx * nz <= c)%nat -> st_fric (snd new) c = st_fric (snd old) c /\ st_dil (snd new) c = st_dil (snd old) c /\ st_coh (snd new) c = st_coh (snd old) c).
  Proof.
    intros smooth. cbv zeta. unfold strength_grids. cbn [fst snd].
    destruct (strength_grid_spec erfc smooth noisy m nph ((nx - 1) * (nz - 1)) (fun c => air_cell (pf_bcp g c)) (pf_n g) strain_n noise_n (fst old)) as [A A'].
    destruct (strength_grid_spec erfc smooth noisy m nph (nx * nz) (fun c => air_vertex (pf_bcg g c)) (pf_s g) strain_s noise_s (snd old)) as [B B'].
    cbv zeta in *. split; [|split; [|split; [exact A'|exact B']]]; intros c C N.
    - destruct (A c C) as (-> & -> & ->). destruct (air_cell_spec (pf_bcp g c)); [auto|exfalso; apply N; unfold rock_cell; tauto].
    - destruct (B c C) as (-> & -> & ->). destruct (air_vertex_spec (pf_bcg g c)); [auto|contradiction].
  Qed.

  (** Parameters that may soften: smoothly towards a smaller value, or linearly from strain 0. *)
  Definition soft_ok (smooth : bool) (q : soft_par) : Prop := forall p, (p < nph)%nat -> sp_on q p = true ->
    if smooth then sm_start m p < sm_end m p /\ sp_b q p < sp_a q p
    else sm_start m p = 0 /\ 0 < sm_end m p.
  Definition in_range (lo hi : R) (q : soft_par) : Prop := forall p, (p < nph)%nat -> lo <= sp_a q p <= hi /\ lo <= sp_b q p <= hi.

  Lemma softened_range smooth q lo hi strain p : (forall x y, x < y -> erfc y < erfc x) -> (forall x, 0 < erfc x < 2) ->
    soft_ok smooth q -> in_range lo hi q -> (p < nph)%nat -> 0 <= strain -> lo <= softened erfc smooth m q strain p <= hi.
  Proof.
    intros D V O I P L. specialize (O p P). destruct (I p P) as [I1 I2]. unfold softened. destruct smooth.
    - destruct (sp_on q p); [|cbn; exact I1]. destruct (O eq_refl) as [O1 O2].
      destruct (C62_smooth erfc D V (sp_a q p) (sp_b q p) (sm_start m p) (sm_end m p) O1 O2) as (_ & _ & H1 & H2 & _).
      specialize (H1 strain). specialize (H2 strain L). lra.
    - destruct (sp_on q p).
      + destruct (O eq_refl) as [-> O2]. rewrite C62_linear_from_zero by assumption. unfold ramp.
        destruct (Rle_dec strain 0); [exact I1|]. destruct (Rle_dec (sm_end m p) strain); [exact I2|].
        set (t := (strain - 0) / (sm_end m p - 0)). assert (T : 0 <= t <= 1).
        { unfold t. rewrite !Rminus_0_r. split; [apply Rmult_le_pos; [lra|left; now apply Rinv_0_lt_compat]|]. apply Rmult_le_reg_r with (sm_end m p); [exact O2|].
          unfold Rdiv. rewrite Rmult_assoc, Rinv_l by lra. lra. }
        nra.
      + unfold soft_linear. destruct (Rltb strain (sm_start m p)), (Rleb (sm_end m p) strain), (Rleb (sm_start m p) strain && Rltb strain (sm_end m p)); exact I1.
  Qed.

  (** Friction and dilation of rock nodes lie between the values of the materials; the cohesion
      lies between them times 1 + noise, so it is not negative for noise of at least -1. *)
  Theorem C110_between : forall smooth c, (forall x y, x < y -> erfc y < erfc x) -> (forall x, 0 < erfc x < 2) ->
    (c < (nx - 1) * (nz - 1))%nat -> rock_cell g c -> 0 <= strain_n c -> shares nph (fun p => pf_n g p c) ->
    let new := fst (strength_grids erfc smooth noisy m nph nx nz g strain_n strain_s noise_n noise_s old) in
    (forall lo hi, soft_ok smooth (sm_phi m) -> in_range lo hi (sm_phi m) -> lo <= st_fric new c <= hi) /\
    (forall lo hi, soft_ok smooth (sm_psi m) -> in_range lo hi (sm_psi m) -> lo <= st_dil new c <= hi) /\
    (forall lo hi, soft_ok smooth (sm_coh m) -> in_range lo hi (sm_coh m) -> -1 <= noise_n c ->
       let k := 1 + if noisy then noise_n c else 0 in lo * k <= st_coh new c <= hi * k).
  Proof.
    intros smooth c D V C R L [F S]. cbv zeta. unfold strength_grids. cbn [fst snd].
    destruct (strength_grid_spec erfc smooth noisy m nph ((nx - 1) * (nz - 1)) (fun c => air_cell (pf_bcp g c)) (pf_n g) strain_n noise_n (fst old)) as [A _].
    cbv zeta in A. destruct (A c C) as (-> & -> & ->). destruct (air_cell_spec (pf_bcp g c)); [destruct R; tauto|].
    assert (Y : forall q lo hi, soft_ok smooth q -> in_range lo hi q -> lo <= psum nph (fun p => pf_n g p c * softened erfc smooth m q (strain_n c) p) <= hi).
    { intros q lo hi O I. apply (psum_between nph (fun p => pf_n g p c) (fun p => softened erfc smooth m q (strain_n c) p)); auto.
      intros p P _. now apply softened_range. }
    split; [intros lo hi O I; now apply Y|]. split; [intros lo hi O I; now apply Y|].
    intros lo hi O I N. destruct (Y _ _ _ O I). split; (apply Rmult_le_compat_r; [destruct noisy; lra|assumption]).
  Qed.

  Theorem C110_between_vertices : forall smooth c, (forall x y, x < y -> erfc y < erfc x) -> (forall x, 0 < erfc x < 2) ->
    (c < nx * nz)%nat -> rock_vertex g c -> 0 <= strain_s c -> shares nph (fun p => pf_s g p c) ->
    let new := snd (strength_grids erfc smooth noisy m nph nx nz g strain_n strain_s noise_n noise_s old) in
    (forall lo hi, soft_ok smooth (sm_phi m) -> in_range lo hi (sm_phi m) -> lo <= st_fric new c <= hi) /\
    (forall lo hi, soft_ok smooth (sm_psi m) -> in_range lo hi (sm_psi m) -> lo <= st_dil new c <= hi) /\
    (forall lo hi, soft_ok smooth (sm_coh m) -> in_range lo hi (sm_coh m) -> -1 <= noise_s c ->
       let k := 1 + if noisy then noise_s c else 0 in lo * k <= st_coh new c <= hi * k).
  Proof.
    intros smooth c D V C R L [F S]. cbv zeta. unfold strength_grids. cbn [fst snd].
    destruct (strength_grid_spec erfc smooth noisy m nph (nx * nz) (fun c => air_vertex (pf_bcg g c)) (pf_s g) strain_s noise_s (snd old)) as [A _].
    cbv zeta in A. destruct (A c C) as (-> & -> & ->). destruct (air_vertex_spec (pf_bcg g c)); [contradiction|].
    assert (Y : forall q lo hi, soft_ok smooth q -> in_range lo hi q -> lo <= psum nph (fun p => pf_s g p c * softened erfc smooth m q (strain_s c) p) <= hi).
    { intros q lo hi O I. apply (psum_between nph (fun p => pf_s g p c) (fun p => softened erfc smooth m q (strain_s c) p)); auto.
      intros p P _. now apply softened_range. }
    split; [intros lo hi O I; now apply Y|]. split; [intros lo hi O I; now apply Y|].
    intros lo hi O I N. destruct (Y _ _ _ O I). split; (apply Rmult_le_compat_r; [destruct noisy; lra|assumption]).
  Qed.
End Strength.
Print Assumptions C110_values.
Print Assumptions C110_air.
Print Assumptions C110_between.
Print Assumptions C110_between_vertices.

(** Refuted: friction stays between the two given values for any strains. With the default strains
    (plss = 1, plse = 2), linear softening and a final value below half the initial one, the friction
    of a cell of one phase becomes negative before the end of softening, for every such pair. *)
Theorem C110_default_strains_refuted : forall erfc noisy a b, 2 * b < a -> exists strain, 1 <= strain < 2 /\
  forall psi coh g sn ss nn ns old, pf_bcp g 0%nat = (-1)%Z -> pf_n g 0%nat 0%nat = 1 -> sn 0%nat = strain ->
  let m := StrengthMat (SoftPar (fun _ => a) (fun _ => b) (fun _ => true)) psi coh (fun _ => 1) (fun _ => 2) in
  st_fric (fst (strength_grids erfc false noisy m 1 2 2 g sn ss nn ns old)) 0%nat = a + (b - a) * strain /\
  (0 < a -> 0 <= b -> a + (b - a) * strain < 0).
Proof.
  intros erfc noisy a b H.
  assert (E : exists s, 1 <= s < 2 /\ (0 < a -> 0 <= b -> a + (b - a) * s < 0)).
  { destruct (Rlt_le_dec 0 a) as [Pa|Pa]; [|exists 1; split; [lra|intros; lra]].
    destruct (Rlt_le_dec b 0) as [Pb|Pb]; [exists 1; split; [lra|intros; lra]|].
    exists ((a / (a - b) + 2) / 2). assert (D : 0 < a - b) by lra.
    assert (Q1 : 1 <= a / (a - b)) by (apply Rmult_le_reg_r with (a - b); [exact D|unfold Rdiv; rewrite Rmult_assoc, Rinv_l by lra; lra]).
    assert (Q2 : a / (a - b) < 2) by (apply Rmult_lt_reg_r with (a - b); [exact D|unfold Rdiv; rewrite Rmult_assoc, Rinv_l by lra; lra]).
    split; [lra|]. intros _ _. assert (Q3 : (b - a) * (a / (a - b)) = - a) by (field; lra).
    replace (a + (b - a) * ((a / (a - b) + 2) / 2)) with (a + ((b - a) * (a / (a - b)) + 2 * (b - a)) / 2) by (field; lra).
    rewrite Q3. lra. }
  destruct E as (s & Hs & Hn). exists s. split; [exact Hs|]. intros psi coh g sn ss nn ns old T F S. cbv zeta. split; [|exact Hn].
  unfold strength_grids. cbn [fst].
  destruct (strength_grid_spec erfc false noisy (StrengthMat (SoftPar (fun _ => a) (fun _ => b) (fun _ => true)) psi coh (fun _ => 1) (fun _ => 2)) 1 1
    (fun c => air_cell (pf_bcp g c)) (pf_n g) sn nn (fst old)) as [A _].
  cbv zeta in A. cbn [Nat.sub Nat.mul Nat.add]. destruct (A 0%nat ltac:(lia)) as (-> & _ & _). rewrite T. cbn [air_cell Z.eqb orb psum].
  unfold air_cell. cbn [Z.eqb orb]. rewrite F, S. unfold softened. cbn [sm_phi sp_on sp_a sp_b sm_start sm_end]. unfold soft_linear.
  destruct (Rleb 1 s) eqn:E1; [|assert (~ 1 <= s) by (intros Q; apply Rleb_iff in Q; congruence); lra].
  destruct (Rltb s 2) eqn:E2; [|assert (~ s < 2) by (intros Q; apply Rltb_iff in Q; congruence); lra]. cbn [andb]. field.
Qed.
Print Assumptions C110_default_strains_refuted.

(** Friction 30 softening to 10 over strain 2, half a cell, the other half constant 20; cohesion 4 with noise 1/4;
    the second cell is air. *)
Example C110_ex : let q a b on := SoftPar a b on in
  let m := StrengthMat (q (fun p => if (p =? 0)%nat then 30 else 20) (fun p => if (p =? 0)%nat then 10 else 20) (fun p => (p =? 0)%nat))
             (q (fun _ => 5) (fun _ => 0) (fun _ => false)) (q (fun _ => 4) (fun _ => 2) (fun _ => false)) (fun _ => 0) (fun _ => 2) in
  let s := fst (strength_grids (fun x => x) false true m 2 3 2 g2 (fun _ => 1) (fun _ => 1) (fun _ => / 4) (fun _ => 0) (Strength (fun _ => 7) (fun _ => 7) (fun _ => 7), Strength (fun _ => 7) (fun _ => 7) (fun _ => 7))) in
  st_fric s 0%nat = 20 /\ st_dil s 0%nat = 5 /\ st_coh s 0%nat = 5 /\ st_fric s 1%nat = 0 /\ st_fric s 2%nat = 7.
Proof.
  cbv zeta.
  match goal with |- st_fric (fst (strength_grids ?e ?sm ?no ?m ?n ?nx ?nz ?g ?a ?b ?c ?d ?o)) _ = _ /\ _ =>
    destruct (C110_values e no m n nx nz g a b c d o) as [A _]; [intros; cbn; lra|destruct (C110_air e no m n nx nz g a b c d o sm) as (B & _ & B' & _)] end.
  cbv zeta in *. destruct (A 0%nat ltac:(cbn; lia)) as (-> & -> & ->); [split; discriminate|lra|].
  destruct (B 1%nat ltac:(cbn; lia)) as (-> & _ & _); [intros [_ Q]; apply Q; reflexivity|].
  destruct (B' 2%nat ltac:(cbn; lia)) as (-> & _ & _).
  cbn. unfold eased, ramp. cbn. destruct (Rle_dec 1 0); [lra|]. destruct (Rle_dec 2 1); [lra|]. repeat split; field.
Qed.

(** ** C111: grain size and composition of markers *)

(** Active markers start with the grain size of their phase, others keep theirs; the program is
    defined exactly if all phases exist. *)
Theorem C111_grain_size : forall nmat gs_ref np phase d,
  ((exists d', start_grain_size nmat gs_ref np phase d = Some d') <-> forall k, (k < np)%nat -> phase k = (-1)%Z \/ (0 <= phase k < nmat)%Z) /\
  (forall d', start_grain_size nmat gs_ref np phase d = Some d' -> forall k,
     ((k < np)%nat -> phase k <> (-1)%Z -> d' k = gs_ref (phase k)) /\ ((np <= k)%nat \/ phase k = (-1)%Z -> d' k = d k)).
Proof.
  intros nmat gs_ref np phase d. unfold start_grain_size. induction np as [|n IH].
  - cbn. split; [split; [intros _ k K; lia|intros _; eexists; reflexivity]|].
    intros d' H. injection H as <-. intros k. split; [lia|reflexivity].
  - change (Datatypes.S n) with (1 + n)%nat. rewrite loop_S. cbn [Nat.add].
    set (o := loop 0 n _ _) in *. clearbody o. destruct IH as [A B]. destruct o as [d1|].
    + assert (A1 : forall k, (k < n)%nat -> phase k = (-1)%Z \/ (0 <= phase k < nmat)%Z) by (apply A; eexists; reflexivity).
      specialize (B d1 eq_refl). destruct (Z.eqb_spec (phase n) (-1)) as [E|E].
      * split; [split; [|intros _; eexists; reflexivity]|].
        -- intros _ k K. destruct (Nat.eq_dec k n) as [->|]; [now left|apply A1; lia].
        -- intros d' H. injection H as <-. intros k. destruct (B k) as [B1 B2]. split.
           ++ intros K P. destruct (Nat.eq_dec k n) as [->|]; [contradiction|apply B1; [lia|exact P]].
           ++ intros [K|K]; apply B2; [left; lia|now right].
      * destruct (Z.leb_spec 0 (phase n)) as [L|L]; destruct (Z.ltb_spec (phase n) nmat) as [M|M]; cbn [andb].
        2-4: split; [split; [intros [x X]; discriminate|intros H; destruct (H n ltac:(lia)); [contradiction|lia]]|intros d' X; discriminate].
        split; [split; [|intros _; eexists; reflexivity]|].
        -- intros _ k K. destruct (Nat.eq_dec k n) as [->|]; [right; lia|apply A1; lia].
        -- intros d' H. injection H as <-. intros k. destruct (B k) as [B1 B2]. destruct (Nat.eq_dec k n) as [->|Q].
           ++ split; [now rewrite upd_same|]. intros [K|K]; [lia|contradiction].
           ++ rewrite upd_other by exact Q. split; [intros K; apply B1; lia|]. intros [K|K]; apply B2; [left; lia|now right].
    + split; [split; [intros [x X]; discriminate|]|intros d' X; discriminate].
      intros H. exfalso. destruct (proj2 A) as [x X]; [|discriminate]. intros k K. apply H. lia.
Qed.
Print Assumptions C111_grain_size.

(** Compositions of all markers lie between 0 and 1 after every step. *)
Theorem C111_composition_range : forall per m bcp x0 x ms vs, update_x per m bcp x0 x ms = Some vs ->
  length vs = length ms /\ forall v, In v vs -> 0 <= v <= 1.
Proof.
  intros per m bcp x0 x ms vs H. unfold update_x in H. destruct (plain _ _ _ _ _ _ _ _) as [l|] eqn:E; [|discriminate].
  injection H as <-. split.
  - rewrite map_length. unfold plain in E. revert l E. induction ms as [|p ms IH]; intros l E; cbn [mapM] in E; [now injection E as <-|].
    destruct (itp _ _ _ _ _ p); [|discriminate]. destruct (mapM _ ms); [|discriminate]. injection E as <-. cbn. f_equal. now apply IH.
  - intros v V. apply in_map_iff in V. destruct V as (w & <- & _). unfold bound01. cbv zeta.
    destruct (Rleb w 0) eqn:E1; [destruct (Rleb 1 0) eqn:E2; [apply Rleb_iff in E2; lra|lra]|].
    assert (~ w <= 0) by (intros Q; apply Rleb_iff in Q; congruence).
    destruct (Rleb 1 w) eqn:E2; [lra|]. assert (~ 1 <= w) by (intros Q; apply Rleb_iff in Q; congruence). lra.
Qed.
Print Assumptions C111_composition_range.

Lemma bound01_inside v : 0 <= v <= 1 -> bound01 v = v.
Proof.
  intros H. unfold bound01. cbv zeta. destruct (Rleb v 0) eqn:E1.
  - apply Rleb_iff in E1. destruct (Rleb 1 0) eqn:E2; [apply Rleb_iff in E2; lra|lra].
  - destruct (Rleb 1 v) eqn:E2; [apply Rleb_iff in E2; lra|reflexivity].
Qed.

(** Without a change on the grid no marker changes, whatever lies around it. *)
Theorem C111_composition_still : forall per m bcp x ms vs, (forall p, In p ms -> 0 <= p_v p <= 1) ->
  update_x per m bcp x x ms = Some vs -> vs = map p_v ms.
Proof.
  intros per m bcp x ms vs R H. unfold update_x in H. destruct (plain _ _ _ _ _ _ _ _) as [l|] eqn:E; [|discriminate].
  injection H as <-. unfold plain in E. revert l E. induction ms as [|p ms IH]; intros l E; cbn [mapM] in E; [now injection E as <-|].
  rewrite (itp_ext _ _ _ _ _ (fun _ => 0)) in E by (intros i; unfold change; destruct (negb _); ring).
  destruct (itp _ _ _ _ _ p) as [v|] eqn:V; [|discriminate]. apply itp_zero in V. subst v.
  destruct (mapM _ ms) as [r|] eqn:M; [|discriminate]. injection E as <-. cbn [map]. rewrite Rplus_0_r, bound01_inside by (apply R; now left).
  f_equal. apply IH; [intros q Q; apply R; now right|reflexivity].
Qed.
Print Assumptions C111_composition_still.

(** Markers inside a grid without air keep their distance to the grid composition, up to the bounds. *)
Theorem C111_composition_follows : forall per m bcp x0 x ms, mesh_ok m -> (forall p, In p ms -> placed m p) -> (forall k, rock (bcp k)) ->
  exists vs, update_x per m bcp x0 x ms = Some vs /\
  Forall2 (fun p v => exists a b, itp Cells per m bcp x0 p = Some a /\ itp Cells per m bcp x p = Some b /\
    let w := p_v p + (b - a) in (w <= 0 -> v = 0) /\ (0 <= w <= 1 -> v = w) /\ (1 <= w -> v = 1)) ms vs.
Proof.
  intros per m bcp x0 x ms OK P T.
  destruct (C84_plain Cells per m bcp x0 x ms OK P T) as (l & E & F).
  assert (E' : plain Cells per m bcp (fun c => negb (rockb (bcp c))) x0 x ms = Some l).
  { rewrite <- E. unfold plain. apply mapM_ext. intros p _. erewrite itp_ext; [reflexivity|].
    intros i. unfold change. destruct (rockb_spec (bcp i)) as [_|Q]; [reflexivity|]. exfalso. apply Q, T. }
  unfold update_x. rewrite E'. eexists. split; [reflexivity|]. clear E E'. induction F as [|p v ms l (a & b & A & B & D) F IH]; [constructor|].
  cbn [map]. constructor; [|apply IH; intros q Q; apply P; now right].
  exists a, b. split; [exact A|]. split; [exact B|]. cbv zeta. assert (W : p_v p + (b - a) = v) by lra. rewrite W. unfold bound01. cbv zeta.
  repeat split; intros H.
  - apply Rleb_iff in H. rewrite H. destruct (Rleb 1 0) eqn:E2; [apply Rleb_iff in E2; lra|reflexivity].
  - now apply bound01_inside.
  - destruct (Rleb v 0) eqn:E1; [apply Rleb_iff in E1; lra|]. apply Rleb_iff in H. now rewrite H.
Qed.
Print Assumptions C111_composition_follows.

(** Three markers, the second inactive: the others start with the sizes of phases 1 and 0. *)
Example C111_ex : exists d, start_grain_size 20 (fun p => IZR p + 1) 3 (fun k => match k with 0%nat => 1%Z | 1%nat => (-1)%Z | _ => 0%Z end) (fun _ => 9) = Some d /\
  d 0%nat = 2 /\ d 1%nat = 9 /\ d 2%nat = 1.
Proof. eexists. split; [reflexivity|]. cbn. repeat split; lra. Qed.
(** One active marker in the middle of a grid whose composition grows from 0 to 1/4 reaches 3/4 from 1/2. *)
Example C111_ex2 : let m := Mesh 4 4 0 0 1 1 in
  exists vs, update_x false m (fun _ => (-1)%Z) (fun _ => 0) (fun _ => / 4) [Pt (3 / 2) (3 / 2) 0 (/ 2) 1; Pt (3 / 2) (3 / 2) 0 (7 / 8) 1] = Some vs /\ vs = [3 / 4; 1].
Proof.
  cbv zeta. set (m := Mesh 4 4 0 0 1 1). set (ms := [Pt (3 / 2) (3 / 2) 0 (/ 2) 1; Pt (3 / 2) (3 / 2) 0 (7 / 8) 1]).
  assert (OK : mesh_ok m) by (unfold mesh_ok, m; cbn; repeat split; try lia; lra).
  assert (PL : forall p, In p ms -> placed m p).
  { intros p Hp _. unfold ms in Hp. cbn in Hp. destruct Hp as [<-|[<-|[]]]; unfold inside, xg, zg, m; cbn; lra. }
  destruct (C111_composition_follows false m (fun _ => (-1)%Z) (fun _ => 0) (fun _ => / 4) ms OK PL) as (vs & E & F); [intros k; unfold rock; lia|].
  exists vs. split; [exact E|].
  assert (CST : forall k p, In p ms -> p_ph p = 0%Z -> exists v, itp Cells false m (fun _ => (-1)%Z) (fun _ => k) p = Some v /\ v = k).
  { intros k p Hp HP. destruct (C72_centres_bounded m false (fun _ => k) (fun _ => (-1)%Z) (p_ph p) (p_x p) (p_z p) k k) as (v & V & B); auto.
    - apply PL; [exact Hp|rewrite HP; discriminate].
    - rewrite HP. discriminate.
    - intros; lra.
    - intros j _. exists 1%Z. split; [|unfold rock; lia]. unfold near_row, close, m, zc. cbn [NZ DZ Z0]. split; [lia|].
      assert (Z : p_z p = 3 / 2) by (unfold ms in Hp; cbn in Hp; destruct Hp as [<-|[<-|[]]]; reflexivity). rewrite Z.
      replace (3 / 2 - _) with 0 by lra. rewrite Rabs_R0. lra.
    - exists v. unfold itp. rewrite V. split; [reflexivity|lra]. }
  unfold ms in *.
  inversion F as [|p1 v1 l1 r1 (a1 & b1 & A1 & B1 & D1) F1]; subst. inversion F1 as [|p2 v2 l2 r2 (a2 & b2 & A2 & B2 & D2) F2]; subst. inversion F2; subst.
  destruct (CST 0 _ (or_introl eq_refl) eq_refl) as (x1 & X1 & ->). rewrite X1 in A1. injection A1 as <-.
  destruct (CST (/ 4) _ (or_introl eq_refl) eq_refl) as (x2 & X2 & ->). rewrite X2 in B1. injection B1 as <-.
  destruct (CST 0 _ (or_intror (or_introl eq_refl)) eq_refl) as (x3 & X3 & ->). rewrite X3 in A2. injection A2 as <-.
  destruct (CST (/ 4) _ (or_intror (or_introl eq_refl)) eq_refl) as (x4 & X4 & ->). rewrite X4 in B2. injection B2 as <-.
  cbv zeta in D1, D2. cbn [p_v] in D1, D2. destruct D1 as (_ & D1 & _). destruct D2 as (_ & _ & D2).
  rewrite D1, D2 by lra. f_equal. lra.
Qed.
