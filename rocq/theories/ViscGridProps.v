(** * C123-C124: elastic moduli and viscosity of all cells and vertices *)
From Coq Require Import List ZArith Reals Bool Arith Lia Lra Psatz.
Import ListNotations.
From Verif Require Import GridModel GridProofs RheoModel MatGridModel MatGridProps P2GModel P2GProofs ItpModel ItpProofs PhaseGridModel PhaseGridProofs PhaseGridProps ViscGridModel.
Local Open Scope R_scope.

(** ** C123: moduli *)

(** Specification. [mean_of 1] is the harmonic, [mean_of 0] the arithmetic mean
    (PhaseGridProps.v). *)
Definition positive (n : nat) (v : nat -> R) : Prop := forall p, (p < n)%nat -> 0 < v p.
Definition empty (n : nat) (fr : nat -> R) : Prop := forall p, (p < n)%nat -> fr p = 0.
Definition nonneg (n : nat) (v : nat -> R) : Prop := forall p, (p < n)%nat -> 0 <= v p.

Lemma harm_loop nph fr mat : positive nph mat ->
  loop 0 nph (fun a p => eadd a (ediv (Fin (fr p * 1)) (Fin (mat p)))) (Fin 0) = Fin (psum nph (fun p => fr p / mat p)).
Proof.
  induction nph as [|n IH]; intros H; [reflexivity|].
  change (Datatypes.S n) with (1 + n)%nat. rewrite loop_S. cbn [Nat.add psum]. rewrite IH by (intros p L; apply H; lia).
  specialize (H n ltac:(lia)). cbn [ediv]. destruct (Req_EM_T (mat n) 0); [lra|]. cbn [eadd]. now rewrite Rmult_1_r.
Qed.
Lemma psum_pos0 n fr w : nonneg n fr -> positive n w -> 0 <= psum n (fun p => fr p * w p) /\ (psum n (fun p => fr p * w p) = 0 <-> empty n fr).
Proof.
  induction n as [|n IH]; intros F W; cbn [psum].
  - split; [lra|]. split; [intros _ p L; lia|reflexivity].
  - destruct IH as [I1 I2]; [intros p L; apply F; lia|intros p L; apply W; lia|].
    specialize (F n ltac:(lia)). specialize (W n ltac:(lia)).
    assert (0 <= fr n * w n) by (apply Rmult_le_pos; lra). split; [lra|]. split.
    + intros E p L. destruct (Nat.eq_dec p n) as [->|Q].
      * assert (X : fr n * w n = 0) by lra. apply Rmult_integral in X. lra.
      * apply I2; [lra|lia].
    + intros E. rewrite (E n ltac:(lia)). rewrite (proj2 I2); [lra|]. intros p L. apply E. lia.
Qed.
Lemma psum_empty n fr : empty n fr -> psum n fr = 0.
Proof. induction n as [|n IH]; intros H; cbn [psum]; [reflexivity|]. rewrite IH, (H n) by (auto with arith || (intros p L; apply H; lia)). ring. Qed.
Lemma pos_inv n w : positive n w -> positive n (fun p => / w p).
Proof. intros H p L. apply Rinv_0_lt_compat, H, L. Qed.
Lemma shares_not_empty n fr : shares n fr -> ~ empty n fr.
Proof. intros [_ S] E. rewrite (psum_empty n fr E) in S. lra. Qed.
Lemma modulus_value nph fr mat : positive nph mat -> nonneg nph fr ->
  (~ empty nph fr -> modulus nph fr mat = Fin (mean_of 1 nph fr mat)) /\ (empty nph fr -> modulus nph fr mat = Inf).
Proof.
  intros P F. unfold modulus, inv_sum. rewrite harm_loop by exact P. cbn [ediv mean_of].
  destruct (psum_pos0 nph fr (fun p => / mat p) F (pos_inv _ _ P)) as [_ Q].
  change (psum nph (fun p => fr p / mat p)) with (psum nph (fun p => fr p * / mat p)).
  destruct (Req_EM_T _ 0) as [Z|Z].
  - split; [intros N; tauto|]. intros _. destruct (Req_EM_T 1 0); [lra|reflexivity].
  - split; [|tauto]. intros _. f_equal. unfold Rdiv. ring.
Qed.
Lemma expansivity_mean nph fr mat : expansivity nph fr mat = mean_of 0 nph fr mat.
Proof.
  unfold expansivity. cbn [mean_of]. induction nph as [|n IH]; [reflexivity|].
  change (Datatypes.S n) with (1 + n)%nat. rewrite loop_S. cbn [Nat.add psum]. now rewrite IH.
Qed.

(** The loops over cells and vertices, from their bodies. *)
Lemma cells_spec nph m g n d :
  match loop 0 n (modulus_cell nph m g) (Some d) with
  | Some d' =>
      (forall c, (c < n)%nat ->
         md_mu_n d' c = (if air_cell (pf_bcp g c) then Fin 0 else modulus nph (fun p => pf_n g p c) (em_G m)) /\
         md_bet_n d' c = (if air_cell (pf_bcp g c) then Fin 0 else modulus nph (fun p => pf_n g p c) (em_bet m)) /\
         md_alp d' c = (if air_cell (pf_bcp g c) then 0 else expansivity nph (fun p => pf_n g p c) (em_alp m)) /\
         md_mu_n d' c <> Inf) /\
      (forall c, (n <= c)%nat -> md_mu_n d' c = md_mu_n d c /\ md_bet_n d' c = md_bet_n d c /\ md_alp d' c = md_alp d c) /\
      md_mu_s d' = md_mu_s d /\ md_bet_s d' = md_bet_s d
  | None => exists c, (c < n)%nat /\ air_cell (pf_bcp g c) = false /\ modulus nph (fun p => pf_n g p c) (em_G m) = Inf
  end.
Proof.
  induction n as [|n IH].
  - cbn. repeat split; intros; lia.
  - change (Datatypes.S n) with (1 + n)%nat. rewrite loop_S. cbn [Nat.add].
    set (o := loop 0 n _ _) in *. clearbody o. destruct o as [d1|]; cbn [modulus_cell].
    2:{ destruct IH as (c & C & V). exists c. split; [lia|exact V]. }
    cbv zeta. destruct (is_inf _) eqn:I.
    + exists n. split; [lia|]. destruct (air_cell (pf_bcp g n)); [discriminate|]. split; [reflexivity|].
      destruct (modulus nph _ (em_G m)); try discriminate. reflexivity.
    + destruct IH as (A & B & C & D). cbn [md_mu_n md_bet_n md_alp md_mu_s md_bet_s]. split; [|split; [|split; assumption]].
      * intros c L. destruct (Nat.eq_dec c n) as [->|Q].
        -- rewrite !upd_same. repeat split. intros E. rewrite E in I. discriminate.
        -- rewrite !upd_other by exact Q. apply A. lia.
      * intros c L. rewrite !upd_other by lia. apply B. lia.
Qed.
Lemma verts_spec nph m g n d :
  match loop 0 n (modulus_vertex nph m g) (Some d) with
  | Some d' =>
  (forall c, (c < n)%nat ->
     md_mu_s d' c = (if air_vertex (pf_bcg g c) then Fin 0 else modulus nph (fun p => pf_s g p c) (em_G m)) /\
     md_bet_s d' c = (if air_vertex (pf_bcg g c) then Fin 0 else modulus nph (fun p => pf_s g p c) (em_bet m)) /\
     (md_mu_s d' c = Inf -> (2 <= nph)%nat)) /\
  (forall c, (n <= c)%nat -> md_mu_s d' c = md_mu_s d c /\ md_bet_s d' c = md_bet_s d c) /\
  md_mu_n d' = md_mu_n d /\ md_bet_n d' = md_bet_n d /\ md_alp d' = md_alp d
  | None => (nph <= 1)%nat /\ exists c, (c < n)%nat /\ air_vertex (pf_bcg g c) = false /\ modulus nph (fun p => pf_s g p c) (em_G m) = Inf
  end.
Proof.
  induction n as [|n IH].
  - cbn. repeat split; intros; lia.
  - change (Datatypes.S n) with (1 + n)%nat. rewrite loop_S. cbn [Nat.add].
    set (o := loop 0 n _ _) in *. clearbody o. destruct o as [d1|]; cbn [modulus_vertex].
    2:{ destruct IH as (N & c & C & V). split; [exact N|]. exists c. split; [lia|exact V]. }
    destruct IH as (A & B & C). cbv zeta. change (ediv (Fin 1) (inv_sum nph (fun p => pf_s g p n) (em_G m))) with (modulus nph (fun p => pf_s g p n) (em_G m)).
    destruct (negb _ && _ && _) eqn:I.
    + apply Bool.andb_true_iff in I. destruct I as [I I3]. apply Bool.andb_true_iff in I. destruct I as [I1 I2].
      apply Nat.leb_le in I3. split; [exact I3|]. exists n. split; [lia|]. apply Bool.negb_true_iff in I1. split; [exact I1|].
      destruct (modulus nph _ (em_G m)); try discriminate. reflexivity.
    + cbn [md_mu_n md_bet_n md_alp md_mu_s md_bet_s]. split; [|split; [|exact C]].
      * intros c L. destruct (Nat.eq_dec c n) as [->|Q].
        -- rewrite !upd_same. split; [reflexivity|]. split; [reflexivity|]. intros E. destruct (air_vertex (pf_bcg g n)); [discriminate|].
           rewrite E in I. cbn in I. apply Nat.leb_gt in I. lia.
        -- rewrite !upd_other by exact Q. apply A. lia.
      * intros c L. rewrite !upd_other by lia. apply B. lia.
Qed.
Lemma ends_spec nx nz d : (2 <= nx)%nat ->
  let d' := loop 0 nz (modulus_ends nx) d in
  (forall l, (l < nz)%nat ->
     md_mu_s d' (l * nx)%nat = ehalf (md_mu_s d (l * nx + nx - 1)%nat) (md_mu_s d (l * nx)%nat) /\ md_mu_s d' (l * nx + nx - 1)%nat = md_mu_s d' (l * nx)%nat /\
     md_bet_s d' (l * nx)%nat = ehalf (md_bet_s d (l * nx + nx - 1)%nat) (md_bet_s d (l * nx)%nat) /\ md_bet_s d' (l * nx + nx - 1)%nat = md_bet_s d' (l * nx)%nat) /\
  (forall k l, (0 < k < nx - 1)%nat -> md_mu_s d' (k + l * nx)%nat = md_mu_s d (k + l * nx)%nat /\ md_bet_s d' (k + l * nx)%nat = md_bet_s d (k + l * nx)%nat) /\
  (forall c, (nz * nx <= c)%nat -> md_mu_s d' c = md_mu_s d c /\ md_bet_s d' c = md_bet_s d c) /\
  md_mu_n d' = md_mu_n d /\ md_bet_n d' = md_bet_n d /\ md_alp d' = md_alp d.
Proof.
  intros N. cbv zeta. induction nz as [|n IH].
  - cbn. repeat split; intros; lia.
  - change (Datatypes.S n) with (1 + n)%nat. rewrite loop_S. cbn [Nat.add].
    set (b := loop 0 n _ d) in *. clearbody b. destruct IH as (A & B & C & D). unfold modulus_ends. cbv zeta.
    cbn [md_mu_n md_bet_n md_alp md_mu_s md_bet_s].
    destruct (C (n * nx + nx - 1)%nat ltac:(nia)) as [C1 C2]. destruct (C (n * nx)%nat ltac:(nia)) as [C3 C4].
    split; [|split; [|split; [|exact D]]].
    + intros l L. destruct (Nat.eq_dec l n) as [->|Q].
      * assert (NE : (n * nx + nx - 1)%nat <> (n * nx)%nat) by nia. rewrite !upd_same, C1, C2, C3, C4.
        split; [reflexivity|]. split; [rewrite upd_other by exact NE; apply upd_same|]. split; [reflexivity|rewrite upd_other by exact NE; apply upd_same].
      * rewrite !upd_other by nia. apply A. lia.
    + intros k l K.
      assert (X1 : (k + l * nx)%nat <> (n * nx + nx - 1)%nat).
      { intros E. destruct (Nat.lt_trichotomy l n) as [L|[->|L]]; [assert ((l + 1) * nx <= n * nx)%nat by nia; nia|lia|assert ((n + 1) * nx <= l * nx)%nat by nia; nia]. }
      assert (X2 : (k + l * nx)%nat <> (n * nx)%nat).
      { intros E. destruct (Nat.lt_trichotomy l n) as [L|[->|L]]; [assert ((l + 1) * nx <= n * nx)%nat by nia; nia|lia|assert ((n + 1) * nx <= l * nx)%nat by nia; nia]. }
      rewrite !upd_other by assumption. apply B. exact K.
    + intros c K. rewrite !upd_other by nia. apply C. nia.
Qed.

Section Moduli.
  Variables (nph nx nz : nat) (per : bool) (m : elastic_mat) (g : phase_fields) (d : moduli).
  (** The value a vertex should have before the two sides are made equal. *)
  Definition vertex_mean (mat : nat -> R) (c : nat) : R :=
    if Z.eq_dec (pf_bcg g c) 30 then 0 else mean_of 1 nph (fun p => pf_s g p c) mat.

  Lemma unfold_grid : moduli_grid nph nx nz per m g d =
    match loop 0 ((nz - 1) * (nx - 1)) (modulus_cell nph m g) (Some d) with
    | None => Stopped
    | Some d =>
      match loop 0 (nz * nx) (modulus_vertex nph m g) (Some d) with
      | None => Undefined
      | Some d => Done (if per then loop 0 nz (modulus_ends nx) d else d)
      end
    end.
  Proof.
    unfold moduli_grid. rewrite (loop_flat (modulus_cell nph m g) (nx - 1) (nz - 1)).
    destruct (loop 0 ((nz - 1) * (nx - 1)) _ _); [|reflexivity]. rewrite (loop_flat (modulus_vertex nph m g) nx nz). reflexivity.
  Qed.

  (** With positive material parameters and complete fractions the program goes on. Rock
      cells get the harmonic mean of the shear moduli and of the compressibilities and the
      arithmetic mean of the expansivities, air cells zero; vertices likewise. In periodic
      models the first and the last vertex of every row get the mean of their two values.
      Nothing outside the grid is written. *)
  Theorem C123_moduli : (2 <= nx)%nat -> positive nph (em_G m) -> positive nph (em_bet m) ->
    (forall c, (c < (nx - 1) * (nz - 1))%nat -> rock_cell g c -> shares nph (fun p => pf_n g p c)) ->
    (forall c, (c < nx * nz)%nat -> rock_vertex g c -> shares nph (fun p => pf_s g p c)) ->
    exists d', moduli_grid nph nx nz per m g d = Done d' /\
      (forall c, (c < (nx - 1) * (nz - 1))%nat ->
         (rock_cell g c -> md_mu_n d' c = Fin (mean_of 1 nph (fun p => pf_n g p c) (em_G m)) /\
            md_bet_n d' c = Fin (mean_of 1 nph (fun p => pf_n g p c) (em_bet m)) /\ md_alp d' c = mean_of 0 nph (fun p => pf_n g p c) (em_alp m)) /\
         (~ rock_cell g c -> md_mu_n d' c = Fin 0 /\ md_bet_n d' c = Fin 0 /\ md_alp d' c = 0)) /\
      (forall k l, (k < nx)%nat -> (l < nz)%nat ->
         (per = false \/ (0 < k < nx - 1)%nat ->
            md_mu_s d' (k + l * nx)%nat = Fin (vertex_mean (em_G m) (k + l * nx)) /\ md_bet_s d' (k + l * nx)%nat = Fin (vertex_mean (em_bet m) (k + l * nx))) /\
         (per = true -> k = 0%nat \/ k = (nx - 1)%nat ->
            md_mu_s d' (k + l * nx)%nat = Fin ((vertex_mean (em_G m) (0 + l * nx) + vertex_mean (em_G m) (nx - 1 + l * nx)) / 2) /\
            md_bet_s d' (k + l * nx)%nat = Fin ((vertex_mean (em_bet m) (0 + l * nx) + vertex_mean (em_bet m) (nx - 1 + l * nx)) / 2))) /\
      (forall c, ((nx - 1) * (nz - 1) <= c)%nat -> md_mu_n d' c = md_mu_n d c /\ md_bet_n d' c = md_bet_n d c /\ md_alp d' c = md_alp d c) /\
      (forall c, (nx * nz <= c)%nat -> md_mu_s d' c = md_mu_s d c /\ md_bet_s d' c = md_bet_s d c).
  Proof.
    intros N PG PB Hn Hs. rewrite unfold_grid.
    assert (MV : forall fr mat, shares nph fr -> positive nph mat -> modulus nph fr mat = Fin (mean_of 1 nph fr mat)).
    { intros fr mat S P. apply modulus_value; [exact P|exact (proj1 S)|now apply shares_not_empty]. }
    pose proof (cells_spec nph m g ((nz - 1) * (nx - 1)) d) as SC. destruct (loop 0 ((nz - 1) * (nx - 1)) _ _) as [d1|].
    2:{ exfalso. destruct SC as (c & C & A & E). destruct (air_cell_spec (pf_bcp g c)); [discriminate|].
        rewrite MV in E; [discriminate| |exact PG]. apply Hn; [lia|unfold rock_cell; tauto]. }
    pose proof (verts_spec nph m g (nz * nx) d1) as SV. destruct (loop 0 (nz * nx) _ (Some d1)) as [d2|].
    2:{ exfalso. destruct SV as (_ & c & C & A & E). destruct (air_vertex_spec (pf_bcg g c)) as [|R]; [discriminate|].
        rewrite MV in E; [discriminate| |exact PG]. apply Hs; [lia|exact R]. }
    eexists. split; [reflexivity|]. destruct SC as (C1 & C2 & C3 & C4). destruct SV as (V1 & V2 & V3 & V4 & V5).
    destruct (ends_spec nx nz d2 N) as (E1 & E2 & E3 & E4 & E5 & E6). set (d3 := loop 0 nz _ d2) in *. clearbody d3. cbv zeta in *.
    assert (Q : forall c, (c < nz * nx)%nat -> md_mu_s d2 c = Fin (vertex_mean (em_G m) c) /\ md_bet_s d2 c = Fin (vertex_mean (em_bet m) c)).
    { intros c L. destruct (V1 c L) as (-> & -> & _). unfold vertex_mean, air_vertex. destruct (Z.eq_dec (pf_bcg g c) 30) as [->|Q].
      - split; reflexivity.
      - apply Z.eqb_neq in Q as Q2. rewrite Q2. rewrite !MV; try assumption; [split; reflexivity|apply Hs; [lia|exact Q]|apply Hs; [lia|exact Q]]. }
    assert (X : md_mu_n (if per then d3 else d2) = md_mu_n d1 /\ md_bet_n (if per then d3 else d2) = md_bet_n d1 /\ md_alp (if per then d3 else d2) = md_alp d1).
    { destruct per; [rewrite E4, E5, E6|]; auto. }
    destruct X as (-> & -> & ->). split; [|split; [|split]].
    - intros c L. destruct (C1 c ltac:(lia)) as (-> & -> & -> & _). rewrite expansivity_mean.
      destruct (air_cell_spec (pf_bcp g c)) as [A|A]; unfold rock_cell; split; intros R; try tauto.
      rewrite !MV; try assumption; [repeat split|apply Hn; [lia|exact R]|apply Hn; [lia|exact R]].
    - intros k l K L. assert (KL : (k + l * nx < nz * nx)%nat) by nia. split.
      + intros H. destruct per.
        * destruct H as [H|H]; [discriminate|]. destruct (E2 k l H) as [-> ->]. now apply Q.
        * now apply Q.
      + intros -> H. destruct (E1 l L) as (F1 & F2 & F3 & F4).
        destruct (Q (l * nx)%nat ltac:(nia)) as [G1 G2]. destruct (Q (l * nx + nx - 1)%nat ltac:(nia)) as [G3 G4].
        rewrite G1, G3 in F1. rewrite G2, G4 in F3. cbn [ehalf eadd] in F1, F3.
        replace (nx - 1 + l * nx)%nat with (l * nx + nx - 1)%nat by lia. cbn [Nat.add].
        assert (Y : md_mu_s d3 (k + l * nx)%nat = md_mu_s d3 (l * nx)%nat /\ md_bet_s d3 (k + l * nx)%nat = md_bet_s d3 (l * nx)%nat).
        { destruct H as [->| ->]; [split; reflexivity|]. replace (nx - 1 + l * nx)%nat with (l * nx + nx - 1)%nat by lia. split; assumption. }
        destruct Y as [-> ->]. rewrite F1, F3. split; f_equal; lra.
    - intros c L. apply C2. lia.
    - intros c L. rewrite <- C3, <- C4. destruct (V2 c ltac:(lia)) as [<- <-]. destruct per; [apply E3; lia|split; reflexivity].
  Qed.

  (** Bounds: the moduli of every rock cell, and of every vertex of a model without air,
      lie between the smallest and the largest of the materials. *)
  Theorem C123_moduli_between : forall lo hi blo bhi, (2 <= nx)%nat -> 0 < lo -> 0 < blo ->
    (forall p, (p < nph)%nat -> lo <= em_G m p <= hi /\ blo <= em_bet m p <= bhi) ->
    (forall c, (c < (nx - 1) * (nz - 1))%nat -> rock_cell g c -> shares nph (fun p => pf_n g p c)) ->
    (forall c, (c < nx * nz)%nat -> rock_vertex g c -> shares nph (fun p => pf_s g p c)) ->
    exists d', moduli_grid nph nx nz per m g d = Done d' /\
      (forall c, (c < (nx - 1) * (nz - 1))%nat -> rock_cell g c ->
         exists mu bet, md_mu_n d' c = Fin mu /\ md_bet_n d' c = Fin bet /\ lo <= mu <= hi /\ blo <= bet <= bhi) /\
      ((forall c, (c < nx * nz)%nat -> rock_vertex g c) -> forall c, (c < nx * nz)%nat ->
         exists mu bet, md_mu_s d' c = Fin mu /\ md_bet_s d' c = Fin bet /\ lo <= mu <= hi /\ blo <= bet <= bhi).
  Proof.
    intros lo hi blo bhi N L BL V Hn Hs.
    destruct C123_moduli as (d' & E & A & B & _); try assumption.
    { intros p P. destruct (V p P). lra. } { intros p P. destruct (V p P). lra. }
    exists d'. split; [exact E|]. split.
    - intros c C R. destruct (A c C) as [A1 _]. destruct (A1 R) as (-> & -> & _). eexists; eexists. split; [reflexivity|]. split; [reflexivity|].
      split; apply mean_between; auto; intros p P _; now apply V.
    - intros NA c C. destruct (flat_surj nx nz c C) as (k & l & K & LL & ->). destruct (B k l K LL) as [B1 B2].
      assert (W : forall k, (k < nx)%nat -> lo <= vertex_mean (em_G m) (k + l * nx) <= hi /\ blo <= vertex_mean (em_bet m) (k + l * nx) <= bhi).
      { intros k' K'. assert (KL : (k' + l * nx < nx * nz)%nat) by nia. unfold vertex_mean. pose proof (NA _ KL) as R. destruct (Z.eq_dec _ 30); [contradiction|].
        split; apply mean_between; auto; intros p P _; now apply V. }
      assert (D : (per = false \/ (0 < k < nx - 1)%nat) \/ (per = true /\ (k = 0%nat \/ k = (nx - 1)%nat))).
      { destruct per; [|tauto]. destruct (Nat.eq_dec k 0); [tauto|]. destruct (Nat.eq_dec k (nx - 1)); [tauto|]. left. right. lia. }
      destruct D as [D|[D1 D2]].
      + destruct (B1 D) as [-> ->]. eexists; eexists. split; [reflexivity|]. split; [reflexivity|]. now apply W.
      + destruct (B2 D1 D2) as [-> ->]. eexists; eexists. split; [reflexivity|]. split; [reflexivity|].
        destruct (W 0%nat ltac:(lia)), (W (nx - 1)%nat ltac:(lia)). lra.
  Qed.

  (** The program stops exactly if some rock cell has no phase at all. *)
  Theorem C123_empty_cell_stops : positive nph (em_G m) ->
    (forall c, (c < (nx - 1) * (nz - 1))%nat -> nonneg nph (fun p => pf_n g p c)) ->
    (moduli_grid nph nx nz per m g d = Stopped <->
     exists c, (c < (nx - 1) * (nz - 1))%nat /\ rock_cell g c /\ empty nph (fun p => pf_n g p c)).
  Proof.
    intros PG F. rewrite unfold_grid. pose proof (cells_spec nph m g ((nz - 1) * (nx - 1)) d) as SC.
    destruct (loop 0 ((nz - 1) * (nx - 1)) _ _) as [d1|].
    - split; [destruct (loop 0 (nz * nx) _ (Some d1)); discriminate|]. intros (c & C & R & E). exfalso. destruct SC as [SC _]. destruct (SC c ltac:(lia)) as (A & _ & _ & B).
      apply B. rewrite A. destruct (air_cell_spec (pf_bcp g c)); [destruct R; tauto|].
      now apply modulus_value; [|apply F|].
    - split; [intros _|reflexivity]. destruct SC as (c & C & A & E). exists c. split; [lia|].
      destruct (air_cell_spec (pf_bcp g c)); [discriminate|]. split; [unfold rock_cell; tauto|].
      destruct (modulus_value nph (fun p => pf_n g p c) (em_G m) PG (F c ltac:(lia))) as [M _].
      assert (D : empty nph (fun p => pf_n g p c) \/ ~ empty nph (fun p => pf_n g p c)).
      { clear. induction nph as [|n IH]; [left; intros p L; lia|]. destruct IH as [IH|IH].
        - destruct (Req_dec (pf_n g n c) 0) as [Z|Z]; [left; intros p L; destruct (Nat.eq_dec p n) as [->|Q]; [exact Z|apply IH; lia]|right; intros H; apply Z, H; lia].
        - right. intros H. apply IH. intros p L. apply H. lia. }
      destruct D as [D|D]; [exact D|]. rewrite M in E by exact D. discriminate.
  Qed.

  (** Refuted: the same holds for vertices. A rock vertex without any phase gets an
      infinite shear modulus, and in periodic models passes it on to the other side of the
      model; the program goes on. *)
  Theorem C123_empty_vertex_refuted : forall c d', (2 <= nx)%nat -> positive nph (em_G m) -> (c < nx * nz)%nat -> rock_vertex g c ->
    empty nph (fun p => pf_s g p c) -> moduli_grid nph nx nz per m g d = Done d' ->
    md_mu_s d' c = Inf \/ (per = true /\ md_mu_s d' c = NaN).
  Proof.
    intros c d' N PG C R E. rewrite unfold_grid. destruct (loop 0 ((nz - 1) * (nx - 1)) _ _) as [d1|]; [|discriminate].
    pose proof (verts_spec nph m g (nz * nx) d1) as SV. destruct (loop 0 (nz * nx) _ (Some d1)) as [d2|]; [|discriminate]. destruct SV as (V1 & _).
    intros H. injection H as <-.
    destruct (ends_spec nx nz d2 N) as (E1 & E2 & _). set (d3 := loop 0 nz _ d2) in *. clearbody d3. cbv zeta in *.
    assert (I : md_mu_s d2 c = Inf).
    { destruct (V1 c ltac:(lia)) as (-> & _). unfold air_vertex. apply Z.eqb_neq in R. rewrite R.
      apply modulus_value; [exact PG| |exact E]. intros p L. rewrite (E p L). lra. }
    destruct per; [|left; exact I].
    destruct (flat_surj nx nz c C) as (k & l & K & LL & ->).
    destruct (E1 l LL) as (F1 & F2 & _).
    destruct (Nat.eq_dec k 0) as [->|K0].
    { cbn [Nat.add] in *. rewrite F1. rewrite I. destruct (md_mu_s d2 (l * nx + nx - 1)%nat); cbn; auto. }
    destruct (Nat.eq_dec k (nx - 1)) as [->|K1].
    - replace (nx - 1 + l * nx)%nat with (l * nx + nx - 1)%nat in * by lia. rewrite F2, F1, I. destruct (md_mu_s d2 (l * nx)%nat); cbn; auto.
    - left. rewrite (proj1 (E2 k l ltac:(lia))). exact I.
  Qed.

  (** Refuted: the message about such a vertex is harmless. It prints the fraction of the
      second phase: the behaviour is undefined exactly if no rock cell is without phase, there
      is only one phase and some rock vertex is without it. *)
  Theorem C123_single_phase_refuted : positive nph (em_G m) ->
    (forall c, (c < (nx - 1) * (nz - 1))%nat -> rock_cell g c -> shares nph (fun p => pf_n g p c)) ->
    (forall c, (c < nx * nz)%nat -> nonneg nph (fun p => pf_s g p c)) ->
    (moduli_grid nph nx nz per m g d = Undefined <->
     (nph <= 1)%nat /\ exists c, (c < nx * nz)%nat /\ rock_vertex g c /\ empty nph (fun p => pf_s g p c)).
  Proof.
    intros PG Hn F. rewrite unfold_grid. pose proof (cells_spec nph m g ((nz - 1) * (nx - 1)) d) as SC.
    destruct (loop 0 ((nz - 1) * (nx - 1)) _ _) as [d1|].
    2:{ exfalso. destruct SC as (c & C & A & E). destruct (air_cell_spec (pf_bcp g c)); [discriminate|].
        assert (S : shares nph (fun p => pf_n g p c)) by (apply Hn; [lia|unfold rock_cell; tauto]).
        rewrite (proj1 (modulus_value nph (fun p => pf_n g p c) (em_G m) PG (proj1 S)) (shares_not_empty _ _ S)) in E. discriminate. }
    pose proof (verts_spec nph m g (nz * nx) d1) as SV. destruct (loop 0 (nz * nx) _ (Some d1)) as [d2|].
    - split; [discriminate|]. intros (N & c & C & R & E). exfalso. destruct SV as [SV _]. destruct (SV c ltac:(lia)) as (A & _ & B).
      assert (I : md_mu_s d2 c = Inf); [|specialize (B I); lia]. rewrite A. destruct (air_vertex_spec (pf_bcg g c)); [contradiction|].
      now apply modulus_value; [|apply F|].
    - split; [intros _|reflexivity]. destruct SV as (N & c & C & A & E). split; [exact N|]. exists c. split; [lia|].
      destruct (air_vertex_spec (pf_bcg g c)) as [|R]; [discriminate|]. split; [exact R|].
      destruct (modulus_value nph (fun p => pf_s g p c) (em_G m) PG (F c ltac:(lia))) as [M _].
      destruct nph as [|[|]]; [intros p L; lia| |lia]. intros p L. replace p with 0%nat by lia.
      destruct (Req_dec (pf_s g 0 c) 0) as [Z|Z]; [exact Z|exfalso]. rewrite M in E; [discriminate|]. intros H. apply Z, (H 0%nat). lia.
  Qed.

  (** Refuted: only materials that are present matter. If an incompressible material
      (bet = 0 in the input file) is absent from a rock cell, the compressibility of that
      cell is not a number, and the program goes on. *)
  Theorem C123_absent_incompressible_refuted : forall p c d', (c < (nx - 1) * (nz - 1))%nat -> rock_cell g c ->
    (p < nph)%nat -> em_bet m p = 0 -> pf_n g p c = 0 ->
    moduli_grid nph nx nz per m g d = Done d' -> md_bet_n d' c = NaN.
  Proof.
    intros p c d' C R P Z F. rewrite unfold_grid. pose proof (cells_spec nph m g ((nz - 1) * (nx - 1)) d) as SC.
    destruct (loop 0 ((nz - 1) * (nx - 1)) _ _) as [d1|]; [|discriminate].
    pose proof (verts_spec nph m g (nz * nx) d1) as SV. destruct (loop 0 (nz * nx) _ (Some d1)) as [d2|]; [|discriminate]. destruct SV as (_ & _ & _ & V & _).
    intros H. injection H as <-.
    assert (X : md_bet_n (if per then loop 0 nz (modulus_ends nx) d2 else d2) = md_bet_n d1).
    { destruct per; [|exact V]. rewrite <- V. clear. induction nz as [|n IH]; [reflexivity|].
      change (Datatypes.S n) with (1 + n)%nat. rewrite loop_S. cbn [Nat.add]. exact IH. }
    rewrite X. destruct SC as [SC _]. destruct (SC c ltac:(lia)) as (_ & -> & _).
    destruct (air_cell_spec (pf_bcp g c)); [destruct R; tauto|]. unfold modulus, inv_sum.
    set (f := fun a p => eadd a (ediv (Fin (pf_n g p c * 1)) (Fin (em_bet m p)))).
    assert (Y : forall j, (p < j)%nat -> loop 0 j f (Fin 0) = NaN).
    { induction j as [|k IH]; intros L; [lia|]. change (Datatypes.S k) with (1 + k)%nat. rewrite loop_S. cbn [Nat.add].
      destruct (Nat.eq_dec k p) as [->|Q].
      - unfold f at 1. cbn beta. rewrite Z, F. cbn [ediv]. destruct (Req_EM_T 0 0); [|lra]. destruct (Req_EM_T (0 * 1) 0); [|lra].
        destruct (loop 0 p f (Fin 0)); reflexivity.
      - rewrite IH by lia. reflexivity. }
    rewrite Y by exact P. reflexivity.
  Qed.
End Moduli.
Print Assumptions C123_moduli.
Print Assumptions C123_moduli_between.
Print Assumptions C123_empty_cell_stops.
Print Assumptions C123_empty_vertex_refuted.
Print Assumptions C123_single_phase_refuted.
Print Assumptions C123_absent_incompressible_refuted.

(** Two phases of modulus 1 and 3 in equal shares: 3/2. *)
Example C123_ex : modulus 2 (fun _ => 1 / 2) (fun p => match p with O => 1 | _ => 3 end) = Fin (3 / 2).
Proof.
  destruct (modulus_value 2 (fun _ => 1 / 2) (fun p => match p with O => 1 | _ => 3 end)) as [M _].
  - intros [|p] L; lra.
  - intros p L. lra.
  - rewrite M; [cbn [mean_of psum]; f_equal; field|]. intros E. specialize (E 0%nat ltac:(lia)). cbn in E. lra.
Qed.
(** One phase missing and incompressible: not a number. *)
Example C123_ex_nan : modulus 2 (fun p => match p with O => 1 | _ => 0 end) (fun p => match p with O => 1 | _ => 0 end) = NaN.
Proof.
  cbv [modulus inv_sum loop seq fold_left ediv eadd]. destruct (Req_EM_T 1 0); [lra|]. destruct (Req_EM_T 0 0); [|lra].
  destruct (Req_EM_T (0 * 1) 0); [reflexivity|lra].
Qed.

(** ** C124: viscosity and stress *)

(** Specification. Complete fractions: none negative, none in (0, 1e-13], sum 1. *)
Definition complete (n : nat) (fr : nat -> R) : Prop :=
  shares n fr /\ forall p, (p < n)%nat -> fr p = 0 \/ / 10 ^ 13 < fr p.
(** No phase counts. *)
Definition no_phase (n : nat) (fr : nat -> R) : Prop := forall p, (p < n)%nat -> Rabs (fr p) <= / 10 ^ 13.
(** The visco-elastic effective strain rate, component by component. *)
Definition rates_of (elastic : bool) (dt : R) (v : vin) (E : R * R * R) : Prop :=
  let '(exx, ezz, exz) := vi_e v in let '(sxx, szz, sxz) := vi_s0 v in let '(X, Z, XZ) := E in
  if elastic then X = exx + sxx / (2 * (vi_mu v * dt)) /\ Z = ezz + szz / (2 * (vi_mu v * dt)) /\ XZ = exz + sxz / (2 * (vi_mu v * dt))
  else E = vi_e v.
(** What a rock node must hold. *)
Definition rock_result (cell : bool) (avg n : nat) (elastic : bool) (dt : R) (v : vin) (fr : nat -> R) (visc : R * R * R -> nat -> vout)
  (old r : vres) : Prop :=
  exists E, rates_of elastic dt v E /\ let o := visc E in
    vr_eta r = mean_of avg n fr (fun p => vo_VE (o p)) /\ vr_phys r = mean_of avg n fr (fun p => vo_eta (o p)) /\
    (cell = true -> vr_d r = mean_of 1 n fr (fun p => vo_d (o p))) /\
    (forall j, vr_other r j = mean_of 0 n fr (fun p => vo_other (o p) j)) /\
    (let '(X, Z, XZ) := E in vr_s r = (2 * vr_eta r * X, 2 * vr_eta r * Z, 2 * vr_eta r * XZ)) /\
    (forall p, (p < n)%nat -> (fr p <> 0 -> vr_phase r p = vo_VE (o p)) /\ (fr p = 0 -> vr_phase r p = vr_phase old p)) /\
    (forall p, (n <= p)%nat -> vr_phase r p = vr_phase old p).
Definition air_result (old r : vres) : Prop :=
  vr_eta r = 0 /\ vr_phys r = 0 /\ vr_d r = 0 /\ (forall j, vr_other r j = 0) /\ vr_s r = (0, 0, 0) /\ vr_phase r = vr_phase old.
(** Viscosities and grain sizes are positive. *)
Definition positive_out (n : nat) (o : nat -> vout) : Prop := forall p, (p < n)%nat -> 0 < vo_eta (o p) /\ 0 < vo_VE (o p) /\ 0 < vo_d (o p).

Lemma eff_rates_ok elastic dt v : 0 < dt * vi_mu v -> rates_of elastic dt v (eff_rates elastic dt v).
Proof.
  intros P. unfold rates_of, eff_rates. destruct (vi_e v) as [[exx ezz] exz] eqn:Ee. destruct (vi_s0 v) as [[sxx szz] sxz].
  assert (dt <> 0 /\ vi_mu v <> 0) as [D M]. { split; intros Z; rewrite Z in P; lra. }
  destruct elastic.
  - repeat split; field; auto.
  - f_equal; [f_equal|]; lra.
Qed.

Lemma active_zero f : 0 <= f -> (f = 0 \/ / 10 ^ 13 < f) -> MatGridModel.active f = false <-> f = 0.
Proof.
  intros P H. assert (T : 0 < / 10 ^ 13) by (apply Rinv_0_lt_compat, pow_lt; lra).
  destruct (MatGridModel.active f) eqn:A.
  - split; [discriminate|]. intros ->. apply active_iff in A. unfold big in A. rewrite Rabs_R0 in A. lra.
  - split; [intros _|reflexivity]. destruct H as [H|H]; [exact H|]. exfalso.
    assert (B : big f) by (unfold big; rewrite Rabs_right by lra; exact H). apply active_iff in B. congruence.
Qed.

(** The sums after any number of phases. *)
Lemma phases_spec avg fr o old n :
  let r := loop 0 n (add_phase avg fr o) (Vres 0 0 0 (fun _ => 0) (0, 0, 0) old) in
  let s f := psum n (fun p => if MatGridModel.active (fr p) then f p else 0) in
  vr_eta r = s (fun p => contrib avg (fr p) (vo_VE (o p))) /\ vr_phys r = s (fun p => contrib avg (fr p) (vo_eta (o p))) /\
  vr_d r = s (fun p => fr p * / vo_d (o p)) /\ (forall j, vr_other r j = s (fun p => fr p * vo_other (o p) j)) /\ vr_s r = (0, 0, 0) /\
  (forall p, vr_phase r p = if (p <? n)%nat && MatGridModel.active (fr p) then vo_VE (o p) else old p).
Proof.
  cbv zeta. induction n as [|n IH].
  - cbn. repeat split.
  - change (Datatypes.S n) with (1 + n)%nat. rewrite loop_S. cbn [Nat.add psum].
    set (r := loop 0 n _ _) in *. clearbody r. destruct IH as (A & B & C & D & E & F). unfold add_phase.
    destruct (MatGridModel.active (fr n)) eqn:Q; cbn [vr_eta vr_phys vr_d vr_other vr_s vr_phase].
    + rewrite A, B, C, E. split; [reflexivity|]. split; [reflexivity|]. split; [unfold Rdiv; ring|]. split; [intros j; now rewrite D|]. split; [reflexivity|].
      intros p. destruct (Nat.eq_dec p n) as [->|N].
      * rewrite upd_same, Q, Bool.andb_true_r. destruct (Nat.ltb_spec n (S n)); [reflexivity|lia].
      * rewrite upd_other by exact N. rewrite F. destruct (Nat.ltb_spec p n), (Nat.ltb_spec p (S n)); try lia; reflexivity.
    + rewrite A, B, C, E, !Rplus_0_r. split; [reflexivity|]. split; [reflexivity|]. split; [reflexivity|]. split; [intros j; now rewrite D, Rplus_0_r|]. split; [reflexivity|].
      intros p. rewrite F. destruct (Nat.eq_dec p n) as [->|N].
      * rewrite Q, !Bool.andb_false_r. reflexivity.
      * destruct (Nat.ltb_spec p n), (Nat.ltb_spec p (S n)); try lia; reflexivity.
Qed.

Lemma contrib_tr avg f e : (avg <= 2)%nat -> contrib avg f e = f * tr avg e.
Proof. intros A. destruct avg as [|[|[|]]]; cbn [contrib tr]; [reflexivity|unfold Rdiv; ring|reflexivity|lia]. Qed.
Lemma finish_mean avg n fr v : (avg <= 2)%nat -> finish avg (psum n (fun p => fr p * tr avg (v p))) = mean_of avg n fr v.
Proof.
  intros A. destruct avg as [|[|[|]]]; cbn [finish tr mean_of]; [reflexivity|unfold Rdiv; ring| |lia].
  rewrite exp_psum. reflexivity.
Qed.
Lemma drop_inactive n fr (f : nat -> R) : complete n fr -> psum n (fun p => if MatGridModel.active (fr p) then fr p * f p else 0) = psum n (fun p => fr p * f p).
Proof.
  intros [[P _] H]. apply psum_ext. intros p L. destruct (MatGridModel.active (fr p)) eqn:A; [reflexivity|].
  apply active_zero in A; [|now apply P|now apply H]. rewrite A. ring.
Qed.
Lemma no_phase_sum n fr f : no_phase n fr -> psum n (fun p => if MatGridModel.active (fr p) then f p else 0) = 0.
Proof.
  intros H. rewrite (psum_ext n _ (fun _ => 0)).
  - clear. induction n as [|n IH]; cbn [psum]; lra.
  - intros p L. destruct (MatGridModel.active (fr p)) eqn:A; [|reflexivity]. apply active_iff in A. unfold big in A. specialize (H p L). lra.
Qed.
Lemma some_phase_sum n fr w : nonneg n fr -> positive n w -> psum n (fun p => if MatGridModel.active (fr p) then fr p * w p else 0) = 0 -> no_phase n fr.
Proof.
  intros F W Z.
  assert (X : psum n (fun p => (if MatGridModel.active (fr p) then fr p else 0) * w p) = 0).
  { etransitivity; [|exact Z]. apply psum_ext. intros p L. destruct (MatGridModel.active (fr p)); ring. }
  apply psum_pos0 in X; [| |exact W].
  - intros p L. specialize (X p L). cbn in X. destruct (MatGridModel.active (fr p)) eqn:A.
    + rewrite X, Rabs_R0. left. apply Rinv_0_lt_compat, pow_lt. lra.
    + apply Rnot_lt_le. intros B. apply active_iff in B. congruence.
  - intros p L. destruct (MatGridModel.active (fr p)); [now apply F|lra].
Qed.

Lemma visc_node_ok cell avg nph elastic dt v fr visc old : (avg <= 2)%nat -> (elastic = true -> 0 < dt * vi_mu v) -> complete nph fr ->
  (forall E, positive_out nph (visc E)) ->
  exists r, visc_node cell avg nph elastic dt false v fr visc (vr_phase old) = Some r /\ rock_result cell avg nph elastic dt v fr visc old r.
Proof.
  intros A PE C PO. unfold visc_node. cbv zeta.
  set (E := eff_rates elastic dt v).
  assert (RE : rates_of elastic dt v E).
  { unfold E. destruct elastic; [apply eff_rates_ok; auto|].
    unfold rates_of, eff_rates. destruct (vi_e v) as [[exx ezz] exz]. destruct (vi_s0 v) as [[sxx szz] sxz]. f_equal; [f_equal|]; lra. }
  clearbody E. destruct (phases_spec avg fr (visc E) (vr_phase old) nph) as (S1 & S2 & S3 & S4 & S5 & S6). cbv zeta in *.
  set (r := loop 0 nph _ _) in *. clearbody r. specialize (PO E).
  assert (NE : ~ no_phase nph fr).
  { intros N. destruct C as [[P S] H]. assert (Z : psum nph fr = 0); [|lra]. apply psum_empty. intros p L. specialize (N p L). specialize (H p L).
    destruct H as [H|H]; [exact H|]. specialize (P p L). rewrite Rabs_right in N by lra. lra. }
  assert (D0 : vr_d r <> 0).
  { rewrite S3. intros Z. apply NE. apply (some_phase_sum nph fr (fun p => / vo_d (visc E p))); [exact (proj1 (proj1 C))| |exact Z].
    intros p L. apply Rinv_0_lt_compat, PO, L. }
  assert (P0 : avg = 1%nat -> vr_phys r <> 0).
  { intros -> Z. apply NE. apply (some_phase_sum nph fr (fun p => / vo_eta (visc E p))); [exact (proj1 (proj1 C))|intros p L; apply Rinv_0_lt_compat, PO, L|].
    rewrite S2 in Z. etransitivity; [|exact Z]. apply psum_ext. intros p _. destruct (MatGridModel.active (fr p)); [|reflexivity]. cbn [contrib]. unfold Rdiv. ring. }
  replace (cell && (if Req_EM_T (vr_d r) 0 then true else false)) with false by (destruct cell; [|reflexivity]; destruct (Req_EM_T (vr_d r) 0); [contradiction|reflexivity]).
  replace ((avg =? 1)%nat && (if Req_EM_T (vr_phys r) 0 then true else false)) with false.
  2:{ destruct (Nat.eqb_spec avg 1) as [Q|Q]; [|reflexivity]. destruct (Req_EM_T (vr_phys r) 0); [now apply P0 in Q|reflexivity]. }
  assert (M1 : forall f, psum nph (fun p => if MatGridModel.active (fr p) then contrib avg (fr p) (f p) else 0) = psum nph (fun p => fr p * tr avg (f p))).
  { intros f. rewrite <- (drop_inactive nph fr (fun p => tr avg (f p)) C). apply psum_ext. intros p _. destruct (MatGridModel.active (fr p)); [now apply contrib_tr|reflexivity]. }
  destruct E as [[X Z] XZ] eqn:EE. eexists. split; [reflexivity|]. exists (X, Z, XZ). split; [exact RE|].
  cbn [vr_eta vr_phys vr_d vr_other vr_s vr_phase]. cbv zeta. rewrite S1, S2, !M1, !finish_mean by exact A.
  repeat split.
  - intros ->. rewrite S3, (drop_inactive nph fr (fun p => / vo_d (visc (X, Z, XZ) p)) C). cbn [mean_of]. unfold Rdiv. ring.
  - intros j. rewrite S4. apply (drop_inactive nph fr (fun p => vo_other (visc (X, Z, XZ) p) j) C).
  - intros F. rewrite S6. destruct (Nat.ltb_spec p nph); [|lia]. cbn [andb]. destruct (MatGridModel.active (fr p)) eqn:Q; [reflexivity|].
    apply active_zero in Q; [contradiction|exact (proj1 (proj1 C) _ H)|exact (proj2 C _ H)].
  - intros F. rewrite S6, F, active0, Bool.andb_false_r. reflexivity.
  - intros p L. rewrite S6. destruct (Nat.ltb_spec p nph); [lia|reflexivity].
Qed.
Lemma visc_node_stops cell avg nph elastic dt v fr visc old : (avg <= 2)%nat -> nonneg nph fr -> (forall E, positive_out nph (visc E)) ->
  visc_node cell avg nph elastic dt false v fr visc old = None <-> no_phase nph fr /\ (cell = true \/ avg = 1%nat).
Proof.
  intros A F PO. unfold visc_node. cbv zeta. set (E := eff_rates elastic dt v). clearbody E. specialize (PO E).
  destruct (phases_spec avg fr (visc E) old nph) as (_ & S2 & S3 & _). cbv zeta in *. set (r := loop 0 nph _ _) in *. clearbody r.
  assert (D0 : vr_d r = 0 <-> no_phase nph fr).
  { rewrite S3. split; intros Z; [|now apply no_phase_sum]. apply (some_phase_sum nph fr (fun p => / vo_d (visc E p))); [exact F| |exact Z].
    intros p L. apply Rinv_0_lt_compat, PO, L. }
  assert (P0 : avg = 1%nat -> (vr_phys r = 0 <-> no_phase nph fr)).
  { intros ->. rewrite S2. split; intros Z; [|now apply no_phase_sum]. apply (some_phase_sum nph fr (fun p => / vo_eta (visc E p))); [exact F|intros p L; apply Rinv_0_lt_compat, PO, L|].
    etransitivity; [|exact Z]. apply psum_ext. intros p _. destruct (MatGridModel.active (fr p)); [|reflexivity]. cbn [contrib]. unfold Rdiv. ring. }
  destruct E as [[X Z] XZ].
  destruct cell; cbn [andb].
  - destruct (Req_EM_T (vr_d r) 0) as [Q|Q]; [tauto|].
    destruct (Nat.eqb_spec avg 1) as [Q1|Q1]; cbn [andb]; [|split; [discriminate|tauto]].
    destruct (Req_EM_T (vr_phys r) 0) as [Q2|Q2]; [tauto|]. split; [discriminate|tauto].
  - destruct (Nat.eqb_spec avg 1) as [Q1|Q1]; cbn [andb].
    + specialize (P0 Q1). destruct (Req_EM_T (vr_phys r) 0) as [Q2|Q2]; [tauto|]. split; [discriminate|tauto].
    + split; [discriminate|]. intros [_ [H|H]]; [discriminate|contradiction].
Qed.
Lemma visc_loop_spec n node a :
  match visc_loop n node a with
  | Some a' => (forall c, (c < n)%nat -> node c (a c) = Some (a' c)) /\ (forall c, (n <= c)%nat -> a' c = a c)
  | None => exists c, (c < n)%nat /\ node c (a c) = None
  end.
Proof.
  unfold visc_loop. induction n as [|n IH].
  - cbn. split; [intros c C; lia|reflexivity].
  - change (Datatypes.S n) with (1 + n)%nat. rewrite loop_S. cbn [Nat.add].
    set (o := loop 0 n _ _) in *. clearbody o. destruct o as [a1|].
    + destruct IH as [A B]. rewrite (B n (le_n _)). destruct (node n (a n)) as [v|] eqn:V.
      * split.
        -- intros c C. destruct (Nat.eq_dec c n) as [->|Q]; [now rewrite upd_same|]. rewrite upd_other by exact Q. apply A. lia.
        -- intros c C. rewrite upd_other by lia. apply B. lia.
      * exists n. split; [lia|exact V].
    + destruct IH as (c & C & V). exists c. split; [lia|exact V].
Qed.

Section Viscosity.
  Variables (avg nph nx nz : nat) (elastic : bool) (dt : R) (g : phase_fields) (vn vs : nat -> vin)
    (visc_n visc_s : nat -> R * R * R -> nat -> vout) (a : (nat -> vres) * (nat -> vres)).
  Let run := visc_grid avg nph nx nz elastic dt g vn vs visc_n visc_s a.

  (** With complete fractions and positive viscosities the program goes on. Every rock
      cell and vertex holds the chosen mean of the viscosities of its phases, the harmonic
      mean of the grain sizes (cells), the arithmetic means of the other quantities, and
      the stress 2 eta (e + s0 / (2 G dt)); the viscosity of a phase is stored where the
      phase is present and left as it was elsewhere. Air nodes hold zeros. Nothing outside
      the grid is written. *)
  Theorem C124_viscosity : (avg <= 2)%nat ->
    (forall c E, positive_out nph (visc_n c E)) -> (forall c E, positive_out nph (visc_s c E)) ->
    (forall c, (c < (nx - 1) * (nz - 1))%nat -> rock_cell g c -> complete nph (fun p => pf_n g p c) /\ (elastic = true -> 0 < dt * vi_mu (vn c))) ->
    (forall c, (c < nx * nz)%nat -> rock_vertex g c -> complete nph (fun p => pf_s g p c) /\ (elastic = true -> 0 < dt * vi_mu (vs c))) ->
    exists cells verts, run = Some (cells, verts) /\
      (forall c, (c < (nx - 1) * (nz - 1))%nat ->
         (rock_cell g c -> rock_result true avg nph elastic dt (vn c) (fun p => pf_n g p c) (visc_n c) (fst a c) (cells c)) /\
         (~ rock_cell g c -> air_result (fst a c) (cells c))) /\
      (forall c, (c < nx * nz)%nat ->
         (rock_vertex g c -> rock_result false avg nph elastic dt (vs c) (fun p => pf_s g p c) (visc_s c) (snd a c) (verts c)) /\
         (~ rock_vertex g c -> air_result (snd a c) (verts c))) /\
      (forall c, ((nx - 1) * (nz - 1) <= c)%nat -> cells c = fst a c) /\ (forall c, (nx * nz <= c)%nat -> verts c = snd a c).
  Proof.
    intros A Pn Ps Hn Hs. unfold run, visc_grid.
    match goal with |- context [visc_loop ((nx - 1) * (nz - 1)) ?f _] => set (fn := f); pose proof (visc_loop_spec ((nx - 1) * (nz - 1)) fn (fst a)) as S1 end.
    destruct (visc_loop ((nx - 1) * (nz - 1)) fn (fst a)) as [cells|].
    2:{ exfalso. destruct S1 as (c & C & E). unfold fn in E. destruct (air_cell_spec (pf_bcp g c)) as [Q|Q]; [discriminate|].
        destruct (Hn c C) as [F M]; [unfold rock_cell; tauto|].
        destruct (visc_node_ok true avg nph elastic dt (vn c) (fun p => pf_n g p c) (visc_n c) (fst a c) A M F (Pn c)) as (r & R & _). congruence. }
    match goal with |- context [visc_loop (nx * nz) ?f _] => set (fs := f); pose proof (visc_loop_spec (nx * nz) fs (snd a)) as S2 end.
    destruct (visc_loop (nx * nz) fs (snd a)) as [verts|].
    2:{ exfalso. destruct S2 as (c & C & E). unfold fs in E. destruct (air_vertex_spec (pf_bcg g c)) as [Q|Q]; [discriminate|].
        destruct (Hs c C Q) as [F M].
        destruct (visc_node_ok false avg nph elastic dt (vs c) (fun p => pf_s g p c) (visc_s c) (snd a c) A M F (Ps c)) as (r & R & _). congruence. }
    exists cells, verts. split; [reflexivity|]. destruct S1 as [S1 S1'], S2 as [S2 S2']. split; [|split; [|split; assumption]].
    - intros c C. specialize (S1 c C). unfold fn in S1. destruct (air_cell_spec (pf_bcp g c)) as [Q|Q]; unfold rock_cell; split; intros R; try tauto.
      + cbn in S1. injection S1 as <-. repeat split.
      + destruct (Hn c C R) as [F M].
        destruct (visc_node_ok true avg nph elastic dt (vn c) (fun p => pf_n g p c) (visc_n c) (fst a c) A M F (Pn c)) as (r & R1 & R2). congruence.
    - intros c C. specialize (S2 c C). unfold fs in S2. destruct (air_vertex_spec (pf_bcg g c)) as [Q|Q]; unfold rock_vertex; split; intros R; try tauto.
      + cbn in S2. injection S2 as <-. repeat split.
      + destruct (Hs c C R) as [F M].
        destruct (visc_node_ok false avg nph elastic dt (vs c) (fun p => pf_s g p c) (visc_s c) (snd a c) A M F (Ps c)) as (r & R1 & R2). congruence.
  Qed.

  (** Bounds, ellipticity: on a rock node the viscosity lies between the bounds of the phases
      present, and the stress does non-negative work on the effective strain rate. *)
  Theorem C124_bounds : forall cell v fr visc old r lo hi, (avg <= 2)%nat -> 0 < lo -> shares nph fr ->
    rock_result cell avg nph elastic dt v fr visc old r ->
    (forall E p, (p < nph)%nat -> fr p <> 0 -> lo <= vo_VE (visc E p) <= hi) ->
    lo <= vr_eta r <= hi /\
    exists X Z XZ, rates_of elastic dt v (X, Z, XZ) /\ let '(sx, sz, sxz) := vr_s r in
      sx * X + sz * Z + 2 * sxz * XZ = 2 * vr_eta r * (X ^ 2 + Z ^ 2 + 2 * XZ ^ 2) /\ 0 <= sx * X + sz * Z + 2 * sxz * XZ /\
      (X + Z = 0 -> sx + sz = 0).
  Proof.
    intros cell v fr visc old r lo hi A L S ([[X Z] XZ] & RE & E1 & _ & _ & _ & E5 & _) V. cbn beta iota in E5.
    assert (B : lo <= vr_eta r <= hi) by (rewrite E1; apply mean_between; auto).
    split; [exact B|]. exists X, Z, XZ. split; [exact RE|]. rewrite E5.
    split; [ring|]. split.
    - replace (2 * vr_eta r * X * X + 2 * vr_eta r * Z * Z + 2 * (2 * vr_eta r * XZ) * XZ) with (2 * vr_eta r * (X ^ 2 + Z ^ 2 + 2 * XZ ^ 2)) by ring.
      apply Rmult_le_pos; [lra|]. pose proof (pow2_ge_0 X). pose proof (pow2_ge_0 Z). pose proof (pow2_ge_0 XZ). lra.
    - intros Q. replace Z with (- X) by lra. ring.
  Qed.

  (** The program stops exactly if some rock cell, or with the harmonic mean some rock
      vertex, has no phase of more than 1e-13. *)
  Theorem C124_stops : (avg <= 2)%nat ->
    (forall c E, positive_out nph (visc_n c E)) -> (forall c E, positive_out nph (visc_s c E)) ->
    (forall c, nonneg nph (fun p => pf_n g p c)) -> (forall c, nonneg nph (fun p => pf_s g p c)) ->
    (run = None <->
     (exists c, (c < (nx - 1) * (nz - 1))%nat /\ rock_cell g c /\ no_phase nph (fun p => pf_n g p c)) \/
     (avg = 1%nat /\ exists c, (c < nx * nz)%nat /\ rock_vertex g c /\ no_phase nph (fun p => pf_s g p c))).
  Proof.
    intros A Pn Ps Fn Fs. unfold run, visc_grid.
    match goal with |- context [visc_loop ((nx - 1) * (nz - 1)) ?f _] => set (fn := f); pose proof (visc_loop_spec ((nx - 1) * (nz - 1)) fn (fst a)) as S1 end.
    destruct (visc_loop ((nx - 1) * (nz - 1)) fn (fst a)) as [cells|].
    2:{ split; [intros _|reflexivity]. left. destruct S1 as (c & C & E). unfold fn in E. destruct (air_cell_spec (pf_bcp g c)) as [Q|Q]; [discriminate|].
        apply visc_node_stops in E; auto. exists c. split; [exact C|]. split; [unfold rock_cell; tauto|apply E]. }
    assert (N1 : ~ exists c, (c < (nx - 1) * (nz - 1))%nat /\ rock_cell g c /\ no_phase nph (fun p => pf_n g p c)).
    { intros (c & C & R & NP). destruct S1 as [S1 _]. specialize (S1 c C). unfold fn in S1.
      destruct (air_cell_spec (pf_bcp g c)) as [Q|Q]; [destruct R; tauto|].
      assert (X : visc_node true avg nph elastic dt false (vn c) (fun p => pf_n g p c) (visc_n c) (vr_phase (fst a c)) = None) by (apply visc_node_stops; auto).
      congruence. }
    match goal with |- context [visc_loop (nx * nz) ?f _] => set (fs := f); pose proof (visc_loop_spec (nx * nz) fs (snd a)) as S2 end.
    destruct (visc_loop (nx * nz) fs (snd a)) as [verts|].
    - split; [discriminate|]. intros [H|(A1 & c & C & R & NP)]; exfalso; [now apply N1|].
      destruct S2 as [S2 _]. specialize (S2 c C). unfold fs in S2. destruct (air_vertex_spec (pf_bcg g c)) as [Q|Q]; [contradiction|].
      assert (X : visc_node false avg nph elastic dt false (vs c) (fun p => pf_s g p c) (visc_s c) (vr_phase (snd a c)) = None) by (apply visc_node_stops; auto).
      congruence.
    - split; [intros _|reflexivity]. right. destruct S2 as (c & C & E). unfold fs in E. destruct (air_vertex_spec (pf_bcg g c)) as [Q|Q]; [discriminate|].
      apply visc_node_stops in E; auto. destruct E as [E [X|X]]; [discriminate|]. split; [exact X|]. exists c. auto.
  Qed.

  (** Refuted: vertices without a phase always stop the program. With the arithmetic mean
      such a rock vertex gets viscosity 0, with the geometric mean viscosity 1 (in the
      units of the model), and the program goes on. *)
  Theorem C124_empty_vertex_refuted : forall c cells verts, (c < nx * nz)%nat -> rock_vertex g c -> no_phase nph (fun p => pf_s g p c) ->
    run = Some (cells, verts) -> (avg = 0%nat -> vr_eta (verts c) = 0) /\ (avg = 2%nat -> vr_eta (verts c) = 1).
  Proof.
    intros c cells verts C R NP. unfold run, visc_grid.
    destruct (visc_loop ((nx - 1) * (nz - 1)) _ (fst a)) as [cells'|]; [|discriminate].
    match goal with |- context [visc_loop (nx * nz) ?f _] => set (fs := f); pose proof (visc_loop_spec (nx * nz) fs (snd a)) as S2 end.
    destruct (visc_loop (nx * nz) fs (snd a)) as [verts'|]; [|discriminate]. intros H. injection H as _ <-.
    destruct S2 as [S2 _]. specialize (S2 c C). unfold fs in S2. destruct (air_vertex_spec (pf_bcg g c)) as [Q|Q]; [contradiction|].
    unfold visc_node in S2. cbv zeta in S2. set (E := eff_rates elastic dt (vs c)) in *. clearbody E.
    destruct (phases_spec avg (fun p => pf_s g p c) (visc_s c E) (vr_phase (snd a c)) nph) as (P1 & _). cbv zeta in P1. set (r := loop 0 nph _ _) in *. clearbody r.
    rewrite no_phase_sum in P1 by exact NP. cbn [andb] in S2. destruct E as [[X Z] XZ].
    split; intros ->; cbn [Nat.eqb andb] in S2; injection S2 as <-; cbn [vr_eta finish]; rewrite P1; [reflexivity|apply exp_0].
  Qed.
End Viscosity.
Print Assumptions C124_viscosity.
Print Assumptions C124_bounds.
Print Assumptions C124_stops.
Print Assumptions C124_empty_vertex_refuted.

(** Two phases in equal shares with viscosities 1 and 3, arithmetic mean, unit modulus and
    time step, strain rate 1, old stress 4: viscosity 2, stress 2*2*(1 + 4/2) = 12. *)
Example C124_ex : forall d X old, exists r,
  visc_node false 0 2 true 1 false (Vin 1 (1, Ropp 1, 0) (4, Ropp 4, 0)) (fun _ => 1 / 2)
    (fun _ p => Vout 7 (match p with O => 1 | _ => 3 end) 1 (fun _ => X)) (vr_phase old) = Some r /\
  vr_eta r = 2 /\ vr_phys r = 7 /\ vr_other r d = X /\ vr_s r = (12, Ropp 12, 0).
Proof.
  intros d X old.
  destruct (visc_node_ok false 0 2 true 1 (Vin 1 (1, Ropp 1, 0) (4, Ropp 4, 0)) (fun _ => 1 / 2)
    (fun _ p => Vout 7 (match p with O => 1 | _ => 3 end) 1 (fun _ => X)) old) as (r & E & ([[a b] c] & RE & R1 & R2 & _ & R4 & R5 & _)).
  - lia.
  - cbn. lra.
  - split; [split; [intros p L; lra|cbn [psum]; lra]|]. intros p L. right.
    assert (/ 10 ^ 13 < / 2) by (apply Rinv_lt_contravar; [apply Rmult_lt_0_compat; [lra|apply pow_lt; lra]|]; cbn; lra). lra.
  - intros E p L. destruct p; cbn; lra.
  - exists r. split; [exact E|]. cbn in RE. destruct RE as (-> & -> & ->). cbn [mean_of psum vo_VE vo_eta vo_other] in *. specialize (R4 d). cbn beta iota in *.
    assert (E1 : vr_eta r = 2) by (rewrite R1; lra). rewrite E1 in R5. split; [exact E1|]. split; [rewrite R2; lra|]. split; [rewrite R4; lra|].
    rewrite R5. f_equal; [f_equal|]; field.
Qed.
