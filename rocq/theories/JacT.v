(** The two boundary templates of the library and the Newton rows under them. *)
From Coq Require Import ZArith Reals List Bool Lia Lra.
Import ListNotations.
From Verif Require Import StokesModel StokesProofs StokesX JacModel JacProofs JacX JacZ.
Local Open Scope Z_scope.

(** ** Specification: the boundary types set by [SetPureShearBCVx]/[Vz] and by
    [SetSimpleShearBCVx]/[Vz] (Setup.c 906-1000) *)
Inductive template := PureShear | SimpleShear.
Definition template_u (k : template) (m : mesh) (i j : Z) : Z :=
  match k with
  | PureShear => if (j =? 0) || (j =? nz m) then 13 else if (i =? 0) || (i =? nx m - 1) then 0 else -1
  | SimpleShear => if (j =? 0) || (j =? nz m) then 11 else if i =? 0 then -2 else if i =? nx m - 1 then -12 else -1
  end.
Definition template_v (k : template) (m : mesh) (i j : Z) : Z :=
  match k with
  | PureShear => if (i =? 0) || (i =? nx m) then 13 else if (j =? 0) || (j =? nz m - 1) then 0 else -1
  | SimpleShear => if (i =? 0) || (i =? nx m) then -12 else if (j =? 0) || (j =? nz m - 1) then 0 else -1
  end.
Definition periodic (k : template) : bool := match k with PureShear => false | SimpleShear => true end.

(** Columns within two of [ix], counted around the period when there is one. *)
Definition near (k : template) (m : mesh) (ix i : Z) : Prop :=
  match k with
  | PureShear => ix - 2 <= i <= ix + 2
  | SimpleShear => ix - 2 <= i <= ix + 2 \/ ix - 2 <= i + (nx m - 1) <= ix + 2 \/ ix - 2 <= i - (nx m - 1) <= ix + 2
  end.

(** No air within two nodes of [(ix, iz)], and the boundary types of the template. *)
Record rock (k : template) (m : mesh) (ix iz : Z) : Prop := {
  rk_u : forall i j, near k m ix i -> iz - 2 <= j <= iz + 2 -> 0 <= i < nx m -> 0 <= j <= nz m -> tu m (Ui m i j) = template_u k m i j;
  rk_v : forall i j, near k m ix i -> iz - 2 <= j <= iz + 2 -> 0 <= i <= nx m -> 0 <= j < nz m -> tv m (Vi m i j) = template_v k m i j;
  rk_p : forall i j, near k m ix i -> iz - 2 <= j <= iz + 2 -> 0 <= i < nx m - 1 -> 0 <= j < nz m - 1 -> tp m (Pi m i j) = -1;
  rk_g : forall i j, near k m ix i -> iz - 2 <= j <= iz + 2 -> 0 <= i < nx m -> 0 <= j < nz m -> tg m (Ui m i j) <> 30 }.

(** On free-slip walls the shear stress does not depend on the pressure. *)
Definition wall_shear_free_of_p (k : template) (m : mesh) (w : newton) : Prop :=
  k = PureShear -> forall i j, 0 <= i < nx m -> 0 <= j < nz m ->
    i = 0 \/ i = nx m - 1 \/ j = 0 \/ j = nz m - 1 -> j34 w (Ui m i j) = 0%R.

Section T.
Variables (k : template) (m : mesh) (w : newton) (eu ev ep : Z -> Z) (d : Z -> R) (ft : R -> fields) (L : law).
Hypothesis T : tags_ok m.
Hypothesis PA : path m eu ev ep d ft.
Hypothesis TG : tangent_ok m w L (ft 0).
Variables (ix iz : Z).
Hypothesis RK : rock k m ix iz.
Hypothesis WS : wall_shear_free_of_p k m w.
Hypothesis PX : perx w = periodic k.
Hypothesis N3 : 3 <= nx m.
Hypothesis Hxr : 0 <= ix < nx m.
Notation Dl := (delta (ft 0) (ft 1)).
Notation con := (contrib m eu ev ep d).
Notation Du i j := (Dl (U (Ui m i j))).
Notation Dv i j := (Dl (V (Vi m i j))).
Notation Dp i j := (Dl (P (Pi m i j))).

Lemma t_u i j : near k m ix i -> iz - 2 <= j <= iz + 2 -> 0 <= i < nx m -> 0 <= j <= nz m -> tu m (Ui m i j) = template_u k m i j.
Proof. apply RK. Qed.
Lemma t_v i j : near k m ix i -> iz - 2 <= j <= iz + 2 -> 0 <= i <= nx m -> 0 <= j < nz m -> tv m (Vi m i j) = template_v k m i j.
Proof. apply RK. Qed.

(** Vz does not change on the bottom and top walls, ghosts included. *)
Lemma wall_v i j : 0 <= i <= nx m -> j = 0 \/ j = nz m - 1 -> iz - 2 <= j <= iz + 2 -> near k m ix i ->
  (i = 0 -> near k m ix 1) -> (i = nx m -> near k m ix (nx m - 1)) -> Dv i j = 0%R.
Proof.
  intros Hi Hj Hjz Hn H1 H2. pose proof (ok_nz m T) as Hnz.
  assert (K : forall i, 0 < i < nx m -> near k m ix i -> Dv i j = 0%R).
  { intros i' Hi' Hn'. apply (D_fixed_v m eu ev ep d ft PA). rewrite t_v by (try assumption; lia). unfold template_v.
    replace ((i' =? 0) || (i' =? nx m)) with false by lia. replace ((j =? 0) || (j =? nz m - 1)) with true by lia. destruct k; cbn; tauto. }
  destruct (Z.eq_dec i 0) as [->|N0]; [|destruct (Z.eq_dec i (nx m)) as [->|N1]; [|apply K; [lia|assumption]]].
  - destruct (D_W m eu ev ep d ft PA j ltac:(lia)) as (a & _ & b).
    assert (E := t_v 0 j Hn Hjz ltac:(lia) ltac:(lia)). unfold template_v in E. replace ((0 =? 0) || (0 =? nx m)) with true in E by lia.
    destruct k eqn:Ek.
    + rewrite (a E). apply K; [lia|auto].
    + rewrite (b E). apply K; [lia|]. unfold near in *; cbv iota in *; lia.
  - destruct (D_E m eu ev ep d ft PA j ltac:(lia)) as (a & _ & b).
    assert (E := t_v (nx m) j Hn Hjz ltac:(lia) ltac:(lia)). unfold template_v in E. replace ((nx m =? 0) || (nx m =? nx m)) with true in E by lia.
    destruct k eqn:Ek.
    + rewrite (a E). apply K; [lia|auto].
    + rewrite (b E). apply K; [lia|]. unfold near in *; cbv iota in *; lia.
Qed.

(** Periodicity of the changes. *)
Lemma shift_u j : k = SimpleShear -> near k m ix 0 -> iz - 2 <= j <= iz + 2 -> (j = 0 -> 1 <= iz + 2 /\ iz - 2 <= 1) -> (j = nz m -> iz - 2 <= nz m - 1 <= iz + 2) ->
  0 <= j <= nz m -> Du (nx m - 1) j = Du 0 j.
Proof.
  intros Hk H0 Hj h0 h1 Hr. pose proof (ok_nz m T) as Hnz.
  assert (Hn : near k m ix (nx m - 1)) by (rewrite Hk in *; unfold near in *; cbv iota in *; lia).
  assert (K : forall j, iz - 2 <= j <= iz + 2 -> 0 < j < nz m -> Du (nx m - 1) j = Du 0 j).
  { intros j' Hj' Hr'. apply (D_per m eu ev ep d ft PA j'); [lia|]. rewrite t_u by (try assumption; lia). rewrite Hk. unfold template_u.
    replace ((j' =? 0) || (j' =? nz m)) with false by lia. replace (nx m - 1 =? 0) with false by lia. now rewrite Z.eqb_refl. }
  assert (G : forall i, near k m ix i -> 0 <= i < nx m -> j = 0 \/ j = nz m -> tu m (Ui m i j) = 11).
  { intros i Hi Hr' Hc. rewrite t_u by (try assumption; lia). rewrite Hk. unfold template_u. now replace ((j =? 0) || (j =? nz m)) with true by lia. }
  destruct (Z.eq_dec j 0) as [->|N0]; [|destruct (Z.eq_dec j (nz m)) as [->|N1]; [|apply K; lia]].
  - destruct (D_S m eu ev ep d ft PA (nx m - 1) ltac:(lia)) as [_ a]. destruct (D_S m eu ev ep d ft PA 0 ltac:(lia)) as [_ b].
    rewrite a, b, K by (try lia; apply G; auto; lia). reflexivity.
  - destruct (D_N m eu ev ep d ft PA (nx m - 1) ltac:(lia)) as [_ a]. destruct (D_N m eu ev ep d ft PA 0 ltac:(lia)) as [_ b].
    rewrite a, b, K by (try lia; apply G; auto; lia). reflexivity.
Qed.
Lemma shift_v j : k = SimpleShear -> iz - 2 <= j <= iz + 2 -> 0 <= j < nz m ->
  (near k m ix 0 -> Dv 0 j = Dv (nx m - 1) j) /\ (near k m ix (nx m) -> Dv (nx m) j = Dv 1 j).
Proof.
  intros Hk Hj Hr. split; intros Hn.
  - apply (D_W m eu ev ep d ft PA j Hr). rewrite t_v by (try assumption; lia). rewrite Hk. unfold template_v. now replace ((0 =? 0) || (0 =? nx m)) with true by lia.
  - apply (D_E m eu ev ep d ft PA j Hr). rewrite t_v by (try assumption; lia). rewrite Hk. unfold template_v. now replace ((nx m =? 0) || (nx m =? nx m)) with true by lia.
Qed.
Lemma slip_v j : k = PureShear -> iz - 2 <= j <= iz + 2 -> 0 <= j < nz m ->
  (near k m ix 0 -> Dv 0 j = Dv 1 j) /\ (near k m ix (nx m) -> Dv (nx m) j = Dv (nx m - 1) j).
Proof.
  intros Hk Hj Hr. split; intros Hn.
  - apply (D_W m eu ev ep d ft PA j Hr). rewrite t_v by (try assumption; lia). rewrite Hk. unfold template_v. now replace ((0 =? 0) || (0 =? nx m)) with true by lia.
  - apply (D_E m eu ev ep d ft PA j Hr). rewrite t_v by (try assumption; lia). rewrite Hk. unfold template_v. now replace ((nx m =? 0) || (nx m =? nx m)) with true by lia.
Qed.

(** An entry whose coefficient carries the flag [type = -1] of its node. *)
Lemma con_far (g : bool) t D a : (tv m t = -1 -> g = true /\ exists i j, t = Vi m i j /\ 0 <= i <= nx m /\ 0 <= j < nz m /\ Dv i j = D) ->
  con (g && negb (tv m t =? 30), V t, a * flag (tv m t =? -1))%R = (a * flag (tv m t =? -1) * D)%R.
Proof.
  intros H. destruct (Z.eqb_spec (tv m t) (-1)) as [E|N]; unfold flag, b2R.
  - destruct (H E) as (-> & i & j & -> & Hi & Hj & <-). rewrite andb_true_l.
    apply (con_V m eu ev ep d _ _ T (path_unit m eu ev ep d ft PA)); auto. rewrite E. cbn. lia.
  - replace (a * 0)%R with 0%R by ring. rewrite con_zero. ring.
Qed.

Lemma kcases : k = PureShear \/ k = SimpleShear.
Proof. destruct k; auto. Qed.

(** The far columns of Vz in an x row. *)
Definition far_ok t r c c' := tv m t <> 11 /\
  (tv m t = -1 -> exists i0, t = Vi m i0 r /\ 0 <= i0 <= nx m /\ 0 <= r < nz m /\ Dv i0 r = Dv c r) /\
  (tv m t <> -1 -> Dv c' r = Dv c r).
Lemma far_gen t c c' c2 r : 0 <= c <= nx m -> near k m ix c -> near k m ix c' -> (c' = c + 1 \/ c' = c - 1) -> 0 < c' < nx m ->
  iz - 2 <= r <= iz + 2 -> 0 <= r < nz m -> (c = 0 -> c2 = nx m - 1) -> (c = nx m -> c2 = 1) ->
  t = (if (0 <? r) && (r <? nz m - 1) && (tv m (Vi m c r) =? -12) then Vi m c2 r else Vi m c r) -> far_ok t r c c'.
Proof.
  intros Hc Hn Hn' Hcc Hc' Hr Hrr E0 E1 ->. pose proof (ok_nz m T) as Hnz.
  pose proof (t_v c r Hn Hr Hc Hrr) as E. unfold template_v in E.
  destruct ((0 <? r) && (r <? nz m - 1)) eqn:B; cbn [andb].
  - replace ((r =? 0) || (r =? nz m - 1)) with false in E by lia.
    destruct (Z.eq_dec c 0) as [->|N0]; [|destruct (Z.eq_dec c (nx m)) as [->|N1]].
    + replace ((0 =? 0) || (0 =? nx m)) with true in E by lia. rewrite E0 by reflexivity.
      destruct kcases as [Ek|Ek]; rewrite Ek in E; cbv iota in E; rewrite E; cbn [Z.eqb Pos.eqb].
      * unfold far_ok. rewrite E. split; [lia|]. split; [lia|]. intros _. replace c' with 1 by lia. symmetry. apply slip_v; auto.
      * assert (E2 : tv m (Vi m (nx m - 1) r) = -1).
        { rewrite t_v by (try lia; rewrite Ek in Hn |- *; unfold near in *; lia). rewrite Ek. unfold template_v.
          replace ((nx m - 1 =? 0) || (nx m - 1 =? nx m)) with false by lia. now replace ((r =? 0) || (r =? nz m - 1)) with false by lia. }
        unfold far_ok. rewrite E2. split; [lia|]. split; [|lia]. intros _. exists (nx m - 1). repeat split; try lia.
        symmetry. apply shift_v; auto.
    + replace ((nx m =? 0) || (nx m =? nx m)) with true in E by lia. rewrite E1 by reflexivity.
      destruct kcases as [Ek|Ek]; rewrite Ek in E; cbv iota in E; rewrite E; cbn [Z.eqb Pos.eqb].
      * unfold far_ok. rewrite E. split; [lia|]. split; [lia|]. intros _. replace c' with (nx m - 1) by lia. symmetry. apply slip_v; auto.
      * assert (E2 : tv m (Vi m 1 r) = -1).
        { rewrite t_v by (try lia; rewrite Ek in Hn |- *; unfold near in *; lia). rewrite Ek. unfold template_v.
          replace ((1 =? 0) || (1 =? nx m)) with false by lia. now replace ((r =? 0) || (r =? nz m - 1)) with false by lia. }
        unfold far_ok. rewrite E2. split; [lia|]. split; [|lia]. intros _. exists 1. repeat split; try lia.
        symmetry. apply shift_v; auto.
    + replace ((c =? 0) || (c =? nx m)) with false in E by lia.
      assert (E' : tv m (Vi m c r) = -1) by (destruct kcases as [Ek|Ek]; rewrite Ek in E; exact E). clear E. rewrite E'. cbn [Z.eqb Pos.eqb].
      unfold far_ok. rewrite E'. split; [lia|]. split; [|lia]. intros _. exists c. repeat split; lia.
  - replace ((r =? 0) || (r =? nz m - 1)) with true in E by lia.
    assert (NE : tv m (Vi m c r) <> 11 /\ tv m (Vi m c r) <> -1) by (rewrite E; destruct k; destruct ((c =? 0) || (c =? nx m)); split; discriminate).
    destruct NE as [e1 e2]. unfold far_ok. split; [exact e1|]. split; [contradiction|]. intros _.
    rewrite !wall_v; try lia; try assumption; try reflexivity; intros G; subst; try (replace 1 with c' by lia; assumption); try (replace (nx m - 1) with c' by lia; assumption).
Qed.

Lemma far_con (g : bool) t r c c' a : far_ok t r c c' -> (tv m t = -1 -> g = true) ->
  con (g && negb (tv m t =? 30), V t, a * flag (tv m t =? -1))%R = (a * flag (tv m t =? -1) * Dv c r)%R.
Proof.
  intros (_ & F & _) G. apply con_far. intros E. split; [auto|]. destruct (F E) as (i0 & -> & h1 & h2 & h3). exists i0, r. auto.
Qed.
Lemma far_zero t r c c' : far_ok t r c c' -> ((1 - flag (tv m t =? -1)) * (Dv c' r - Dv c r))%R = 0%R.
Proof.
  intros (_ & _ & F). destruct (Z.eqb_spec (tv m t) (-1)) as [E|N]; unfold flag, b2R; [ring|]. rewrite (F N). ring.
Qed.

Section X.
Hypothesis Hix : 0 < ix < nx m - 1 \/ ix = 0 /\ k = SimpleShear.
Hypothesis Hiz : 0 < iz < nz m.
Hypothesis same_corr : jx_corr m w ix iz = x_corr m ix iz.
Definition iW := if ix =? 0 then nx m - 2 else ix - 1.

Lemma t_c1 : tu m (xc1 m ix iz) = if ix =? 0 then -2 else -1.
Proof.
  change (xc1 m ix iz) with (Ui m ix iz). rewrite t_u; [|unfold near; destruct k; lia|lia|lia|lia].
  unfold template_u. replace ((iz =? 0) || (iz =? nz m)) with false by lia.
  destruct k; destruct (Z.eqb_spec ix 0); destruct (Z.eqb_spec ix (nx m - 1)); try reflexivity; try lia; destruct Hix as [|[? ?]]; try discriminate; lia.
Qed.
Lemma t_per : per m ix iz = (ix =? 0).
Proof. unfold per. rewrite t_c1. destruct (ix =? 0); reflexivity. Qed.

Ltac nears := destruct Hix as [?|[? ?]]; let Ek := fresh in destruct kcases as [Ek|Ek]; rewrite Ek in *; unfold near in *; cbv iota in *; try discriminate; try lia.

Lemma f_SWW : far_ok (JzSWW m ix iz) (iz - 1) iW (iW + 1).
Proof.
  pose proof (ok_nz m T) as Hnz.
  apply far_gen with (c2 := nx m - 1); try (unfold iW; destruct (Z.eqb_spec ix 0); nears; fail).
  unfold JzSWW, JzSW, xVzSW. rewrite t_per. unfold iW. destruct (Z.eqb_spec ix 0) as [E|E].
  - assert (Q : tv m (Vi m (nx m - 2) (iz - 1)) <> -12).
    { rewrite t_v by nears. unfold template_v. replace ((nx m - 2 =? 0) || (nx m - 2 =? nx m)) with false by lia.
      destruct k; destruct ((iz - 1 =? 0) || (iz - 1 =? nz m - 1)); discriminate. }
    rewrite (proj2 (Z.eqb_neq _ _) Q), andb_false_r. unfold xc3, nxvz, Vi. lia.
  - replace (xc3 m ix iz - nxvz m - 1) with (Vi m (ix - 1) (iz - 1)) by (unfold xc3, nxvz, Vi; lia).
    replace (1 <? iz) with ((0 <? iz - 1) && (iz - 1 <? nz m - 1)) by lia.
    destruct (Z.eq_dec ix 1) as [->|N].
    + replace (xc3 m 1 iz - nxvz m + (nx m - 2)) with (Vi m (nx m - 1) (iz - 1)) by (unfold xc3, nxvz, Vi; lia). reflexivity.
    + assert (Q : tv m (Vi m (ix - 1) (iz - 1)) <> -12).
      { rewrite t_v by nears. unfold template_v. replace ((ix - 1 =? 0) || (ix - 1 =? nx m)) with false by lia.
        destruct k; destruct ((iz - 1 =? 0) || (iz - 1 =? nz m - 1)); discriminate. }
      rewrite (proj2 (Z.eqb_neq _ _) Q), andb_false_r. reflexivity.
Qed.
Lemma f_NWW : far_ok (JzNWW m ix iz) iz iW (iW + 1).
Proof.
  pose proof (ok_nz m T) as Hnz.
  apply far_gen with (c2 := nx m - 1); try (unfold iW; destruct (Z.eqb_spec ix 0); nears; fail).
  unfold JzNWW, JzNW, xVzNW. rewrite t_per. unfold iW. destruct (Z.eqb_spec ix 0) as [E|E].
  - assert (Q : tv m (Vi m (nx m - 2) iz) <> -12).
    { rewrite t_v by nears. unfold template_v. replace ((nx m - 2 =? 0) || (nx m - 2 =? nx m)) with false by lia.
      destruct k; destruct ((iz =? 0) || (iz =? nz m - 1)); discriminate. }
    rewrite (proj2 (Z.eqb_neq _ _) Q), andb_false_r. unfold xc3, nxvz, Vi. lia.
  - replace (xc3 m ix iz - 1) with (Vi m (ix - 1) iz) by (unfold xc3, nxvz, Vi; lia).
    replace (0 <? iz) with true by lia; cbn [andb].
    destruct (Z.eq_dec ix 1) as [->|N].
    + replace (xc3 m 1 iz + (nx m - 2)) with (Vi m (nx m - 1) iz) by (unfold xc3, nxvz, Vi; lia). reflexivity.
    + assert (Q : tv m (Vi m (ix - 1) iz) <> -12).
      { rewrite t_v by nears. unfold template_v. replace ((ix - 1 =? 0) || (ix - 1 =? nx m)) with false by lia.
        destruct k; destruct ((iz =? 0) || (iz =? nz m - 1)); discriminate. }
      rewrite (proj2 (Z.eqb_neq _ _) Q), andb_false_r. reflexivity.
Qed.
Lemma f_SEE : far_ok (JzSEE m ix iz) (iz - 1) (ix + 2) (ix + 1).
Proof.
  pose proof (ok_nz m T) as Hnz.
  apply far_gen with (c2 := 1); try (nears; fail).
  unfold JzSEE, JzSE.
  replace (xc3 m ix iz - nxvz m + 1 + 1) with (Vi m (ix + 2) (iz - 1)) by (unfold xc3, nxvz, Vi; lia).
  replace (1 <? iz) with ((0 <? iz - 1) && (iz - 1 <? nz m - 1)) by lia.
  destruct (Z.eq_dec ix (nx m - 2)) as [->|N].
  - replace (xc3 m (nx m - 2) iz - nxvz m + 1 - (nx m - 2)) with (Vi m 1 (iz - 1)) by (unfold xc3, nxvz, Vi; lia). reflexivity.
  - assert (Q : tv m (Vi m (ix + 2) (iz - 1)) <> -12).
    { rewrite t_v by nears. unfold template_v. replace ((ix + 2 =? 0) || (ix + 2 =? nx m)) with false by lia.
      destruct k; destruct ((iz - 1 =? 0) || (iz - 1 =? nz m - 1)); discriminate. }
    rewrite (proj2 (Z.eqb_neq _ _) Q), andb_false_r. reflexivity.
Qed.
Lemma f_NEE : far_ok (JzNEE m ix iz) iz (ix + 2) (ix + 1).
Proof.
  pose proof (ok_nz m T) as Hnz.
  apply far_gen with (c2 := 1); try (nears; fail).
  unfold JzNEE, JzNE.
  replace (xc3 m ix iz + 1 + 1) with (Vi m (ix + 2) iz) by (unfold xc3, nxvz, Vi; lia).
  replace (0 <? iz) with true by lia; cbn [andb].
  destruct (Z.eq_dec ix (nx m - 2)) as [->|N].
  - replace (xc3 m (nx m - 2) iz + 1 - (nx m - 2)) with (Vi m 1 iz) by (unfold xc3, nxvz, Vi; lia). reflexivity.
  - assert (Q : tv m (Vi m (ix + 2) iz) <> -12).
    { rewrite t_v by nears. unfold template_v. replace ((ix + 2 =? 0) || (ix + 2 =? nx m)) with false by lia.
      destruct k; destruct ((iz =? 0) || (iz =? nz m - 1)); discriminate. }
    rewrite (proj2 (Z.eqb_neq _ _) Q), andb_false_r. reflexivity.
Qed.

(** Types of the rows below and above. *)
Lemma t_row i j : near k m ix i -> 0 <= i < nx m -> iz - 1 <= j <= iz + 1 ->
  tu m (Ui m i j) <> 30 /\ (tu m (Ui m i j) = 13 <-> k = PureShear /\ (j = 0 \/ j = nz m)).
Proof.
  intros Hn Hi Hj. pose proof (ok_nz m T) as Hnz. rewrite t_u by (try assumption; lia). unfold template_u.
  destruct ((j =? 0) || (j =? nz m)) eqn:B.
  - destruct k; split; try discriminate; split; try (intros; discriminate); try (intros [? _]; discriminate). split; [reflexivity|lia].
    all: reflexivity.
  - destruct k; [destruct ((i =? 0) || (i =? nx m - 1))|destruct (i =? 0); [|destruct (i =? nx m - 1)]];
      (split; [discriminate|split; [intros; discriminate|intros [? ?]; try discriminate; lia]]).
Qed.

Lemma t_Jwest : Jwest m ix iz = true.
Proof.
  unfold Jwest, JzSW, xVzSW. rewrite t_per. destruct (Z.eqb_spec ix 0) as [E|E]; [|replace (0 <? ix) with true by lia; reflexivity].
  rewrite orb_true_iff. right. cbn [andb].
  replace (xc3 m ix iz - 2) with (Vi m (nx m - 1) (iz - 1)) by (unfold xc3, nxvz, Vi; lia).
  rewrite t_v by nears. unfold template_v. replace ((nx m - 1 =? 0) || (nx m - 1 =? nx m)) with false by lia.
  destruct k; destruct ((iz - 1 =? 0) || (iz - 1 =? nz m - 1)); reflexivity.
Qed.

Lemma x_template : derivable_pt_lim (fun t => jx_residual m w ix iz L (ft t)) 0
  (row_dot eu ev ep (jx_row m w ix iz) d).
Proof.
  pose proof (ok_nz m T) as Hnz.
  assert (HS : ix = 0 -> k = SimpleShear) by (intros E; destruct Hix as [|[? ?]]; [lia|assumption]).
  assert (ER : jx_row m w ix iz = entries m (jx_requests m w ix iz)).
  { unfold jx_row. rewrite t_c1. destruct (Z.eqb_spec ix 0) as [E|E].
    - rewrite Z.eqb_refl, orb_true_r. reflexivity.
    - replace (0 <? iz) with true by lia. replace (iz <? nz m + 1 - 1) with true by lia. replace (0 <? ix) with true by lia. replace (ix <? nx m - 1) with true by lia. reflexivity. }
  rewrite ER. clear ER.
  assert (HiW : 0 <= iW < nx m - 1) by (unfold iW; destruct (Z.eqb_spec ix 0); lia).
  assert (HnW : near k m ix iW) by (unfold iW; destruct (Z.eqb_spec ix 0); nears).
  assert (HnW1 : near k m ix (iW + 1)) by (unfold iW; destruct (Z.eqb_spec ix 0); nears).
  assert (HnC : near k m ix ix) by nears.
  assert (HnE : near k m ix (ix + 1)) by nears.
  assert (HnE2 : near k m ix (ix + 2)) by nears.
  apply (x_core m w eu ev ep d ft L T PA TG ix iz iW).
  all: try assumption; try lia.
  - unfold JxW, xVxW. rewrite t_per. unfold iW. destruct (Z.eqb_spec ix 0); unfold xc1, Ui; lia.
  - unfold JxSW, JxW, JxS, xVxW. rewrite t_per. unfold iW. destruct (Z.eqb_spec ix 0); unfold xc1, Ui; lia.
  - unfold JxNW, JxW, JxN, xVxW. rewrite t_per. unfold iW. destruct (Z.eqb_spec ix 0); unfold xc1, Ui; lia.
  - unfold JzSW, xVzSW. rewrite t_per. unfold iW. destruct (Z.eqb_spec ix 0); unfold xc3, nxvz, Vi; lia.
  - unfold JzNW, xVzNW. rewrite t_per. unfold iW. destruct (Z.eqb_spec ix 0); unfold xc3, nxvz, Vi; lia.
  - unfold JpW, xPrW. rewrite t_per. unfold iW. destruct (Z.eqb_spec ix 0); unfold xc2, ncx, Pi; lia.
  - unfold west_ok. rewrite t_per. lia.
  - intros j Hj. unfold iW. destruct (Z.eqb_spec ix 0) as [E|E]; [|do 3 f_equal; lia].
    replace (nx m - 2 + 1) with (nx m - 1) by lia. rewrite E at 1. apply shift_u; try lia; [auto|rewrite <- E; assumption].
  - intros j Hj. unfold iW. destruct (Z.eqb_spec ix 0) as [E|E]; [|split; do 3 f_equal; lia].
    replace (nx m - 2 + 1) with (nx m - 1) by lia. replace (nx m - 2 + 2) with (nx m) by lia. rewrite E. cbn [Z.add].
    destruct (shift_v j (HS E) ltac:(lia) ltac:(lia)) as [a b]. split; [apply a|apply b]; rewrite (HS E); unfold near; lia.
  - unfold iW. rewrite PX. destruct (Z.eqb_spec ix 0) as [E|E]; [rewrite (HS E); unfold ncx; cbn [periodic]; lia|reflexivity].
  - unfold SxxW, SxxE. rewrite t_c1. destruct (Z.eqb_spec ix 0); rewrite !andb_false_r; split; reflexivity.
  - intros i j [-> | ->] Hj Hjz; apply RK; try assumption; lia.
  - intros i j Hi Hj. apply RK; try lia; destruct Hi as [-> |[-> |[-> | ->]]]; assumption.
  - apply t_row; auto; lia.
  - apply t_row; auto; lia.
  - intros i Hi E. assert (Hn : near k m ix i) by (destruct Hi as [-> | ->]; assumption).
    apply t_row; auto; [lia|]. apply (t_row i (iz - 1)) in E; auto; lia.
  - intros i Hi E. assert (Hn : near k m ix i) by (destruct Hi as [-> | ->]; assumption).
    apply t_row; auto; [lia|]. apply (t_row i (iz + 1)) in E; auto; lia.
  - intros E. destruct (t_row ix (iz - 1) HnC ltac:(lia) ltac:(lia)) as [a b].
    unfold JinS, flag in E. change (JxS m ix iz) with (xc1 m ix iz - nx m) in E. replace (xc1 m ix iz - nx m) with (Ui m ix (iz - 1)) in E by (unfold xc1, Ui; lia).
    rewrite (proj2 (Z.eqb_neq _ _) a) in E. destruct (Z.eqb_spec (tu m (Ui m ix (iz - 1))) 13) as [E13|N]; [|cbn in E; lra].
    destruct (proj1 b E13) as [Hk Hj]. assert (Hz : iz = 1) by lia. split; [exact Hz|]. split; [|split].
    + intros i Hi. assert (Hn : near k m ix i) by (destruct Hi as [-> |[-> | ->]]; assumption). rewrite Hz. cbn [Z.sub Z.add Z.opp Z.pos_sub].
      apply (D_S m eu ev ep d ft PA i ltac:(lia)). apply (t_row i 0); auto; lia.
    + intros i Hi. replace (iz - 1) with 0 by lia. apply wall_v; try lia; destruct Hix as [Hix'|[_ C]]; try congruence;
        unfold iW in *; destruct (Z.eqb_spec ix 0); try lia; rewrite Hk; unfold near; lia.
    + replace (JgS m ix iz) with (Ui m ix (iz - 1)) by (unfold JgS, xc1, Ui; lia). apply WS; auto; lia.
  - intros E. destruct (t_row ix (iz + 1) HnC ltac:(lia) ltac:(lia)) as [a b].
    unfold JinN, flag in E. change (JxN m ix iz) with (xc1 m ix iz + nx m) in E. replace (xc1 m ix iz + nx m) with (Ui m ix (iz + 1)) in E by (unfold xc1, Ui; lia).
    rewrite (proj2 (Z.eqb_neq _ _) a) in E. destruct (Z.eqb_spec (tu m (Ui m ix (iz + 1))) 13) as [E13|N]; [|cbn in E; lra].
    destruct (proj1 b E13) as [Hk Hj]. assert (Hz : iz = nz m - 1) by lia. split; [exact Hz|]. split; [|split].
    + intros i Hi. assert (Hn : near k m ix i) by (destruct Hi as [-> |[-> | ->]]; assumption). replace (iz + 1) with (nz m) by lia. rewrite Hz.
      apply (D_N m eu ev ep d ft PA i ltac:(lia)). apply (t_row i (nz m)); auto; lia.
    + intros i Hi. apply wall_v; try lia; destruct Hix as [Hix'|[_ C]]; try congruence;
        unfold iW in *; destruct (Z.eqb_spec ix 0); try lia; rewrite Hk; unfold near; lia.
    + change (JgN m ix iz) with (Ui m ix iz). apply WS; auto; lia.
  - intros j [-> | ->]; cbv zeta.
    + replace (iz - 1 =? iz) with false by lia. apply far_zero, f_SWW.
    + rewrite Z.eqb_refl. apply far_zero, f_NWW.
  - intros j [-> | ->]; cbv zeta.
    + replace (iz - 1 =? iz) with false by lia.
      match goal with |- (?x * (?a - ?b))%R = _ => replace (x * (a - b))%R with (- (x * (b - a)))%R by ring end.
      unfold JinSEE. rewrite (far_zero _ _ _ _ f_SEE). ring.
    + rewrite Z.eqb_refl.
      match goal with |- (?x * (?a - ?b))%R = _ => replace (x * (a - b))%R with (- (x * (b - a)))%R by ring end.
      unfold JinNEE. rewrite (far_zero _ _ _ _ f_NEE). ring.
  - intros a. apply far_con with (c' := iW + 1); [apply f_SWW|]. intros E. rewrite E. cbn [Z.eqb Pos.eqb]. lia.
  - intros a. apply far_con with (c' := iW + 1); [apply f_NWW|]. intros E. rewrite E. cbn [Z.eqb Pos.eqb]. lia.
  - intros a. apply far_con with (c' := ix + 1); [apply f_SEE|]. intros E. rewrite E. cbn [Z.eqb Pos.eqb]. lia.
  - intros a. apply far_con with (c' := ix + 1); [apply f_NEE|]. intros E. rewrite E. cbn [Z.eqb Pos.eqb]. lia.
  - repeat split; [apply f_SWW|apply f_NWW|apply f_SEE|apply f_NEE].
  - unfold JinSWv, flag. replace (Jwest m ix iz) with true.
    + unfold JgSW. rewrite t_per. unfold JgS. destruct (Z.eqb_spec ix 0) as [E|E]; cbv iota.
      * replace (xc1 m ix iz - nx m) with (Ui m ix (iz - 1)) by (unfold xc1, Ui; lia). cbn [andb].
        rewrite (proj2 (Z.eqb_neq _ _)); [reflexivity|]. apply RK; try assumption; lia.
      * replace (xc1 m ix iz - nx m - 1) with (Ui m (ix - 1) (iz - 1)) by (unfold xc1, Ui; lia). cbn [andb].
        rewrite (proj2 (Z.eqb_neq _ _)); [reflexivity|]. apply RK; try lia. nears.
    + symmetry. apply t_Jwest.
  - unfold JinNWv, flag. replace (Jwest m ix iz) with true.
    + unfold JgNW. rewrite t_per. unfold JgN. destruct (Z.eqb_spec ix 0) as [E|E]; cbv iota.
      * change (xc1 m ix iz) with (Ui m ix iz). cbn [andb].
        rewrite (proj2 (Z.eqb_neq _ _)); [reflexivity|]. apply RK; try assumption; lia.
      * replace (xc1 m ix iz - 1) with (Ui m (ix - 1) iz) by (unfold xc1, Ui; lia). cbn [andb].
        rewrite (proj2 (Z.eqb_neq _ _)); [reflexivity|]. apply RK; try lia. nears.
    + symmetry. apply t_Jwest.
Qed.
End X.

Section Z.
Hypothesis Hix : 0 < ix < nx m.
Hypothesis Hiz : 0 < iz < nz m - 1.
Hypothesis same_corr : jz_corr m w ix iz = z_corr m ix iz.
Definition cw := if ix =? 1 then (if periodic k then nx m - 2 else 0) else ix - 2.
Definition ce := if ix =? nx m - 1 then (if periodic k then 0 else nx m - 2) else ix.
Ltac nearz := let Ek := fresh in destruct kcases as [Ek|Ek]; rewrite Ek in *; unfold near, cw, ce in *; cbn [periodic] in *; cbv iota in *; try discriminate; try lia.
Ltac zcase E := destruct (Z.eqb_spec ix 1) as [E|E].

Lemma tu_near i j : near k m ix i -> 0 <= i < nx m -> iz - 2 <= j <= iz + 2 -> 0 <= j <= nz m ->
  tu m (Ui m i j) <> 30 /\ (tu m (Ui m i j) = 13 -> k = PureShear).
Proof.
  intros Hn Hi Hj Hr. rewrite t_u by (try assumption; lia). unfold template_u.
  destruct kcases as [Ek|Ek]; rewrite Ek; destruct ((j =? 0) || (j =? nz m)).
  - split; [discriminate|auto].
  - destruct ((i =? 0) || (i =? nx m - 1)); split; (discriminate || auto).
  - split; [discriminate|intros; discriminate].
  - destruct (i =? 0); [|destruct (i =? nx m - 1)]; split; try discriminate; intros; discriminate.
Qed.

(** Vx does not change on the free-slip side walls, corners included. *)
Lemma wall_u i j : k = PureShear -> i = 0 \/ i = nx m - 1 -> near k m ix i -> iz - 1 <= j <= iz + 2 -> Du i j = 0%R.
Proof.
  intros Ek Hi Hn Hj. pose proof (ok_nz m T) as Hnz.
  assert (K : forall j, iz - 1 <= j <= iz + 2 -> 0 < j < nz m -> Du i j = 0%R).
  { intros j' Hj' Hr. apply (D_fixed_u m eu ev ep d ft PA). rewrite t_u by (try assumption; lia). rewrite Ek. unfold template_u.
    replace ((j' =? 0) || (j' =? nz m)) with false by lia. replace ((i =? 0) || (i =? nx m - 1)) with true by lia. cbn; tauto. }
  destruct (Z.eq_dec j 0) as [E0|N0]; [|destruct (Z.eq_dec j (nz m)) as [E1|N1]; [|apply K; lia]].
  - subst j. rewrite (proj1 (D_S m eu ev ep d ft PA i ltac:(lia))); [apply K; lia|].
    rewrite t_u by (try assumption; lia). rewrite Ek. reflexivity.
  - subst j. rewrite (proj1 (D_N m eu ev ep d ft PA i ltac:(lia))); [apply K; lia|].
    rewrite t_u by (try assumption; lia). rewrite Ek. unfold template_u. now rewrite Z.eqb_refl, orb_true_r.
Qed.

Lemma t_perW : perW m ix iz = ((ix =? 1) && periodic k).
Proof.
  unfold perW. destruct (Z.eqb_spec ix 1) as [E|E]; [|reflexivity]. cbn [andb].
  replace (zc3 m ix iz - 1) with (Vi m 0 iz) by (unfold zc3, nxvz, Vi; lia). rewrite t_v by nearz. unfold template_v.
  replace ((0 =? 0) || (0 =? nx m)) with true by lia. destruct k; reflexivity.
Qed.
Lemma t_perE : perE m ix iz = ((ix =? nx m - 1) && periodic k).
Proof.
  unfold perE. destruct (Z.eqb_spec ix (nx m - 1)) as [E|E]; [|reflexivity]. cbn [andb].
  replace (zc3 m ix iz + 1) with (Vi m (nx m) iz) by (unfold zc3, nxvz, Vi; lia). rewrite t_v by nearz. unfold template_v.
  replace ((nx m =? 0) || (nx m =? nx m)) with true by lia. destruct k; reflexivity.
Qed.
(** Away from a wall: the column of Vz next to the node. *)
Definition iv := if (ix =? 1) && periodic k then nx m - 1 else ix - 1.
Definition ie := if (ix =? nx m - 1) && periodic k then 1 else ix + 1.
Lemma kzW : KzW m ix iz = Vi m iv iz /\ KzSW m ix iz = Vi m iv (iz - 1) /\ KzNW m ix iz = Vi m iv (iz + 1).
Proof.
  unfold KzSW, KzNW, KzW, KzS, KzN, iv. rewrite t_perW. destruct (Z.eqb_spec ix 1) as [E|E]; cbn [andb]; [destruct (periodic k)|]; repeat split; unfold zc3, nxvz, Vi; lia.
Qed.
Lemma kzE : KzE m ix iz = Vi m ie iz /\ KzSE m ix iz = Vi m ie (iz - 1) /\ KzNE m ix iz = Vi m ie (iz + 1).
Proof.
  unfold KzSE, KzNE, KzE, KzS, KzN, ie. rewrite t_perE. destruct (Z.eqb_spec ix (nx m - 1)) as [E|E]; cbn [andb]; [destruct (periodic k)|]; repeat split; unfold zc3, nxvz, Vi; lia.
Qed.
Definition wallW := (ix =? 1) && negb (periodic k).
Definition wallE := (ix =? nx m - 1) && negb (periodic k).
Ltac cases_W := unfold wallW in *; destruct (Z.eqb_spec ix 1); destruct kcases as [Ek|Ek]; rewrite Ek in *; cbn [periodic andb negb] in *; try discriminate.
Ltac cases_E := unfold wallE in *; destruct (Z.eqb_spec ix (nx m - 1)); destruct kcases as [Ek|Ek]; rewrite Ek in *; cbn [periodic andb negb] in *; try discriminate.
Lemma cols_W : wallW = false -> 0 < iv < nx m /\ near k m ix iv /\ near k m ix cw /\ near k m ix (cw + 1) /\ 0 <= cw /\ cw + 1 < nx m.
Proof. intros H. unfold iv, cw. cases_W; unfold near; lia. Qed.
Lemma cols_E : wallE = false -> 0 < ie < nx m /\ near k m ix ie /\ near k m ix ce /\ near k m ix (ce + 1) /\ 0 <= ce /\ ce + 1 < nx m.
Proof. intros H. unfold ie, ce. cases_E; unfold near; lia. Qed.
Lemma dv_W j : iz - 1 <= j <= iz + 1 -> wallW = false -> Dv iv j = Dv (ix - 1) j /\ Dv (cw + 1) j = Dv (ix - 1) j.
Proof.
  intros Hj H. destruct (Z.eq_dec ix 1) as [E|E].
  - destruct kcases as [Ek|Ek]; [exfalso; unfold wallW in H; rewrite E, Ek in H; discriminate|].
    unfold iv, cw. rewrite E, Ek. cbn [Z.eqb Pos.eqb periodic andb]. replace (nx m - 2 + 1) with (nx m - 1) by lia. replace (1 - 1) with 0 by lia.
    assert (Q : Dv (nx m - 1) j = Dv 0 j) by (symmetry; apply shift_v; try lia; [assumption|rewrite Ek; unfold near; lia]). auto.
  - unfold iv, cw. replace (ix =? 1) with false by lia. cbn [andb]. split; do 3 f_equal; lia.
Qed.
Lemma dv_E j : iz - 1 <= j <= iz + 1 -> wallE = false -> Dv ie j = Dv (ix + 1) j /\ Dv (ce + 1) j = Dv (ix + 1) j.
Proof.
  intros Hj H. destruct (Z.eq_dec ix (nx m - 1)) as [E|E].
  - destruct kcases as [Ek|Ek]; [exfalso; unfold wallE in H; rewrite E, Ek, Z.eqb_refl in H; discriminate|].
    unfold ie, ce. rewrite E, Ek, Z.eqb_refl. cbn [periodic andb]. replace (0 + 1) with 1 by lia. replace (nx m - 1 + 1) with (nx m) by lia.
    assert (Q : Dv 1 j = Dv (nx m) j) by (symmetry; apply shift_v; try lia; [assumption|rewrite Ek; unfold near; lia]). auto.
  - unfold ie, ce. replace (ix =? nx m - 1) with false by lia. cbn [andb]. split; reflexivity.
Qed.
Lemma du_W j : iz - 1 <= j <= iz + 2 -> wallW = false -> Du (cw + 1) j = Du (ix - 1) j.
Proof.
  intros Hj H. destruct (Z.eq_dec ix 1) as [E|E].
  - destruct kcases as [Ek|Ek]; [exfalso; unfold wallW in H; rewrite E, Ek in H; discriminate|].
    unfold cw. rewrite E, Ek. cbn [Z.eqb Pos.eqb periodic andb]. replace (nx m - 2 + 1) with (nx m - 1) by lia. replace (1 - 1) with 0 by lia.
    apply shift_u; try lia; [assumption|rewrite Ek; unfold near; lia].
  - unfold cw. replace (ix =? 1) with false by lia. do 3 f_equal; lia.
Qed.
Lemma du_E j : iz - 1 <= j <= iz + 2 -> wallE = false -> Du ce j = Du ix j.
Proof.
  intros Hj H. destruct (Z.eq_dec ix (nx m - 1)) as [E|E].
  - destruct kcases as [Ek|Ek]; [exfalso; unfold wallE in H; rewrite E, Ek, Z.eqb_refl in H; discriminate|].
    unfold ce. rewrite E, Ek, Z.eqb_refl. cbn [periodic]. symmetry.
    apply shift_u; try lia; [assumption|rewrite Ek; unfold near; lia].
  - unfold ce. replace (ix =? nx m - 1) with false by lia. reflexivity.
Qed.
Lemma kpW : wallW = false -> KpSW m ix iz = Pi m cw (iz - 1) /\ KpNW m ix iz = Pi m cw iz.
Proof.
  intros H. unfold KpSW, KpNW, KpS, KpN, cw. rewrite t_perW. cases_W; unfold zc2, ncx, Pi; split; lia.
Qed.
Lemma kpE : wallE = false -> KpSE m ix iz = Pi m ce (iz - 1) /\ KpNE m ix iz = Pi m ce iz.
Proof.
  intros H. unfold KpSE, KpNE, KpS, KpN, ce. rewrite t_perE. cases_E; unfold zc2, ncx, Pi; split; lia.
Qed.
Lemma kxW : wallW = false -> KxSWW m ix iz = Ui m cw iz /\ KxNWW m ix iz = Ui m cw (iz + 1).
Proof.
  intros H. unfold KxSWW, KxNWW, KxSW, KxNW, cw. rewrite t_perW. cases_W; unfold zc1, Ui; split; lia.
Qed.
Lemma kxE : wallE = false -> KxSEE m ix iz = Ui m (ce + 1) iz /\ KxNEE m ix iz = Ui m (ce + 1) (iz + 1).
Proof.
  intros H. unfold KxSEE, KxNEE, KxSE, KxNE, ce. rewrite t_perE. cases_E; unfold zc1, Ui; split; lia.
Qed.

(** Flags of the side cells. *)
Lemma tv_near i j : near k m ix i -> 0 < i < nx m -> iz - 1 <= j <= iz + 1 -> tv m (Vi m i j) = if (j =? 0) || (j =? nz m - 1) then 0 else -1.
Proof.
  intros Hn Hi Hj. rewrite t_v by (try assumption; lia). unfold template_v. replace ((i =? 0) || (i =? nx m)) with false by lia. destruct k; reflexivity.
Qed.
Lemma kin_W : (KinSWc m ix iz = if wallW then 0 else 1)%R /\ (KinNWc m ix iz = if wallW then 0 else 1)%R /\ (KinW m ix iz = if wallW then 0 else 1)%R.
Proof.
  unfold KinSWc, KinNWc, KinW, Kwest, flag. destruct kzW as (-> & _ & _). destruct wallW eqn:E.
  - assert (E' := E). unfold wallW in E'. destruct (Z.eqb_spec ix 1) as [E1|E1]; [|discriminate].
    destruct kcases as [Ek|Ek]; [|rewrite Ek in E'; discriminate]. unfold iv. rewrite E1, Ek. cbn [periodic Z.eqb Pos.eqb andb]. replace (1 - 1) with 0 by lia.
    rewrite (t_v 0 iz) by (try lia; rewrite Ek, E1; unfold near; lia). rewrite Ek. unfold template_v. replace ((0 =? 0) || (0 =? nx m)) with true by lia.
    cbn [Z.ltb Z.compare Pos.compare Pos.compare_cont Z.eqb Pos.eqb andb orb negb]. repeat split; reflexivity.
  - destruct (cols_W E) as (h1 & h2 & h3 & h4 & h5). destruct (kpW E) as [-> ->].
    rewrite (tv_near iv iz h2 h1) by lia. replace ((iz =? 0) || (iz =? nz m - 1)) with false by lia.
    rewrite !(rk_p _ _ _ _ RK) by (try assumption; lia). cbn [Z.eqb Pos.eqb]. replace ((1 <? ix) || ((ix =? 1) && true)) with true by lia. repeat split; reflexivity.
Qed.
Lemma kin_E : (KinSEc m ix iz = if wallE then 0 else 1)%R /\ (KinNEc m ix iz = if wallE then 0 else 1)%R /\ (KinE m ix iz = if wallE then 0 else 1)%R.
Proof.
  unfold KinSEc, KinNEc, KinE, Keast, flag, nxvz. destruct kzE as (-> & _ & _). destruct wallE eqn:E.
  - assert (E' := E). unfold wallE in E'. destruct (Z.eqb_spec ix (nx m - 1)) as [E1|E1]; [|discriminate].
    destruct kcases as [Ek|Ek]; [|rewrite Ek in E'; discriminate]. unfold ie. rewrite Ek. cbn [periodic]. rewrite andb_false_r.
    replace (ix + 1) with (nx m) by lia.
    rewrite (t_v (nx m) iz) by (try lia; rewrite Ek, E1; unfold near; lia). rewrite Ek. unfold template_v. replace ((nx m =? 0) || (nx m =? nx m)) with true by lia.
    replace (ix <? nx m + 1 - 2) with false by lia. cbn [Z.eqb Pos.eqb]. rewrite andb_false_r. repeat split; reflexivity.
  - destruct (cols_E E) as (h1 & h2 & h3 & h4 & h5). destruct (kpE E) as [-> ->].
    rewrite (tv_near ie iz h2 h1) by lia. replace ((iz =? 0) || (iz =? nz m - 1)) with false by lia.
    rewrite !(rk_p _ _ _ _ RK) by (try assumption; lia). cbn [Z.eqb Pos.eqb]. replace ((ix <? nx m + 1 - 2) || ((ix =? nx m + 1 - 2) && true)) with true by lia. repeat split; reflexivity.
Qed.

(** Entries towards the sides. *)
Lemma con_side_v t i j i' a wall : (wall = false -> t = Vi m i j /\ 0 < i < nx m /\ 0 <= j < nz m /\ Dv i j = Dv i' j) -> (wall = true -> a = 0%R) ->
  con (negb (tv m t =? 30), V t, a) = (a * Dv i' j)%R.
Proof.
  intros H H0. destruct wall; [rewrite H0, con_zero by reflexivity; ring|]. destruct (H eq_refl) as (-> & h1 & h2 & <-).
  apply (con_V m eu ev ep d _ _ T (path_unit m eu ev ep d ft PA)); try lia. apply (v_not_ghost m T); lia.
Qed.
Lemma con_side_u g t i j a wall : (wall = false -> t = Ui m i j /\ 0 <= i < nx m /\ 0 < j < nz m /\ g = true /\ tu m t <> 30) -> (wall = true -> a = 0%R) ->
  con (g, U t, a) = (a * Du i j)%R.
Proof.
  intros H H0. destruct wall; [rewrite H0, con_zero by reflexivity; ring|]. destruct (H eq_refl) as (-> & h1 & h2 & -> & h3).
  rewrite <- (con_U m eu ev ep d _ _ T (B0 m eu ev ep d ft PA) (B1 m eu ev ep d ft PA) (path_unit m eu ev ep d ft PA)) by (try lia; apply (u_not_ghost m T); lia).
  now rewrite (proj2 (Z.eqb_neq _ _) h3).
Qed.
Lemma con_side_p g t i j a wall : (wall = false -> t = Pi m i j /\ 0 <= i < nx m - 1 /\ 0 <= j < nz m - 1 /\ g = true) -> (wall = true -> a = 0%R) ->
  con (g && negb (tp m t =? 30), P t, a) = (a * Dp i j)%R.
Proof.
  intros H H0. destruct wall; [rewrite H0, con_zero by reflexivity; ring|]. destruct (H eq_refl) as (-> & h1 & h2 & ->).
  apply (con_P m eu ev ep d _ _ T (path_unit m eu ev ep d ft PA)); lia.
Qed.
Lemma wall_coef_W a : (KinSWc m ix iz = 0%R -> a = 0%R) -> wallW = true -> a = 0%R.
Proof. intros H E. apply H. rewrite (proj1 kin_W), E. reflexivity. Qed.
Lemma wall_coef_E a : (KinSEc m ix iz = 0%R -> a = 0%R) -> wallE = true -> a = 0%R.
Proof. intros H E. apply H. rewrite (proj1 kin_E), E. reflexivity. Qed.

Lemma far_u i j jf : near k m ix i -> 0 <= i < nx m -> iz - 1 <= j <= iz + 2 -> iz - 1 <= jf <= iz + 2 -> 0 < j < nz m -> 0 <= jf <= nz m -> (j = jf + 1 \/ j = jf - 1) ->
  (1 - flag ((tu m (Ui m i jf) =? -1) || perx w) = 0)%R \/ Du i j = Du i jf.
Proof.
  intros Hn Hi Hj Hjf Hr Hrf Hd. pose proof (ok_nz m T) as Hnz. rewrite PX. destruct kcases as [Ek|Ek]; rewrite Ek; cbn [periodic].
  2:{ left. rewrite orb_true_r. unfold flag, b2R. ring. }
  destruct ((i =? 0) || (i =? nx m - 1)) eqn:B.
  { right. rewrite !wall_u; try assumption; try lia; reflexivity. }
  pose proof (t_u i jf Hn ltac:(lia) Hi Hrf) as E. rewrite Ek in E. unfold template_u in E. rewrite B in E.
  destruct ((jf =? 0) || (jf =? nz m)) eqn:C.
  - right. destruct (Z.eqb_spec jf 0) as [->|N0].
    + rewrite (proj1 (D_S m eu ev ep d ft PA i Hi) E). do 3 f_equal. lia.
    + replace jf with (nz m) in * by lia. rewrite (proj1 (D_N m eu ev ep d ft PA i Hi) E). do 3 f_equal. lia.
  - left. rewrite E. unfold flag, b2R. cbn [Z.eqb Pos.eqb orb]. ring.
Qed.
Lemma far_u0 i j jf s : near k m ix i -> 0 <= i < nx m -> iz - 1 <= j <= iz + 2 -> iz - 1 <= jf <= iz + 2 -> 0 < j < nz m -> 0 <= jf <= nz m -> (j = jf + 1 \/ j = jf - 1) ->
  (s = Du i j - Du i jf \/ s = Du i jf - Du i j)%R -> ((1 - flag ((tu m (Ui m i jf) =? -1) || perx w)) * s = 0)%R.
Proof.
  intros h1 h2 h3 h4 h5 h6 h7 Hs. destruct (far_u i j jf h1 h2 h3 h4 h5 h6 h7) as [-> | E]; [ring|]. destruct Hs as [-> | ->]; rewrite E; ring.
Qed.

Lemma z_template : derivable_pt_lim (fun t => jz_residual m w ix iz L (ft t)) 0
  (row_dot eu ev ep (jz_row m w ix iz) d).
Proof.
  pose proof (ok_nz m T) as Hnz.
  replace (jz_row m w ix iz) with (entries m (jz_requests m w ix iz)).
  2:{ unfold jz_row, nxvz. replace (0 <? ix) with true by lia. replace (ix <? nx m + 1 - 1) with true by lia. replace (0 <? iz) with true by lia. replace (iz <? nz m - 1) with true by lia. cbn [andb]. reflexivity. }
  assert (HcW : 0 <= cw < nx m - 1) by (unfold cw; cases_W; lia).
  assert (HcE : 0 <= ce < nx m - 1) by (unfold ce; cases_E; lia).
  assert (HnW : near k m ix cw) by (unfold cw; cases_W; unfold near; lia).
  assert (HnE : near k m ix ce) by (unfold ce; cases_E; unfold near; lia).
  apply (z_core m w eu ev ep d ft L T PA TG ix iz cw ce).
  all: try assumption; try lia.
  - unfold cw. rewrite PX. unfold ncx. destruct (Z.eqb_spec ix 1) as [E|E]; [replace (ix - 1 =? 0) with true by lia|replace (ix - 1 =? 0) with false by lia]; [destruct (periodic k)|]; lia.
  - unfold ce. rewrite PX. unfold ncx. destruct (ix =? nx m - 1); [destruct (periodic k)|]; lia.
  - unfold SzzS, SzzN. replace (iz =? 0) with false by lia. replace (iz =? nz m - 1) with false by lia. split; reflexivity.
  - intros i j Hi Hj. apply RK; try lia; destruct Hi as [-> |[-> | ->]]; try assumption; unfold near; destruct k; lia.
  - intros i j Hi Hj. apply RK; try lia; destruct Hi as [-> | ->]; unfold near; destruct k; lia.
  - destruct kin_W as (-> & -> & _). reflexivity.
  - destruct kin_E as (-> & -> & _). reflexivity.
  - destruct kin_W as (-> & _ & ->). destruct wallW eqn:E.
    + right. assert (E' := E). unfold wallW in E'. destruct (Z.eqb_spec ix 1) as [E1|E1]; [|discriminate].
      destruct kcases as [Ek|Ek]; [|rewrite Ek in E'; discriminate].
      assert (Hn0 : near k m ix 0) by (rewrite Ek, E1; unfold near; lia).
      split; [reflexivity|]. split; [reflexivity|]. split; [unfold cw; rewrite E1, Ek; reflexivity|]. replace (ix - 1) with 0 by lia. split; [|split].
      * intros j Hj. apply wall_u; auto.
      * intros j Hj. rewrite E1. apply slip_v; auto; lia.
      * replace (KgW m ix iz) with (Ui m 0 iz) by (unfold KgW, zc1, Ui; lia). apply WS; auto; lia.
    + left. split; [reflexivity|]. split; [reflexivity|]. split; intros j Hj; [now apply du_W|now apply dv_W].
  - destruct kin_E as (-> & _ & ->). destruct wallE eqn:E.
    + right. assert (E' := E). unfold wallE in E'. destruct (Z.eqb_spec ix (nx m - 1)) as [E1|E1]; [|discriminate].
      destruct kcases as [Ek|Ek]; [|rewrite Ek in E'; discriminate].
      assert (Hn0 : near k m ix (nx m)) by (rewrite Ek, E1; unfold near; lia).
      assert (Hn1 : near k m ix (nx m - 1)) by (rewrite Ek, E1; unfold near; lia).
      split; [reflexivity|]. split; [reflexivity|]. split; [unfold ce; rewrite <- E1, Z.eqb_refl, Ek; cbn [periodic]; lia|]. replace (ix + 1) with (nx m) by lia. rewrite E1. split; [|split].
      * intros j Hj. apply wall_u; auto.
      * intros j Hj. apply slip_v; auto; lia.
      * replace (KgE m (nx m - 1) iz) with (Ui m (nx m - 1) iz) by (unfold KgE, zc1, Ui; lia). apply WS; auto; lia.
    + left. split; [reflexivity|]. split; [reflexivity|]. split; intros j Hj; [now apply du_E|now apply dv_E].
  - intros a Ha. destruct kzW as (-> & _ & _). apply con_side_v with (i := iv) (wall := wallW); [|now apply wall_coef_W].
    intros E. destruct (cols_W E) as (h1 & _). split; [reflexivity|]. split; [exact h1|]. split; [lia|]. apply dv_W; auto; lia.
  - intros a Ha. destruct kzW as (_ & -> & _). apply con_side_v with (i := iv) (wall := wallW); [|now apply wall_coef_W].
    intros E. destruct (cols_W E) as (h1 & _). split; [reflexivity|]. split; [exact h1|]. split; [lia|]. apply dv_W; auto; lia.
  - intros a Ha. destruct kzW as (_ & _ & ->). apply con_side_v with (i := iv) (wall := wallW); [|now apply wall_coef_W].
    intros E. destruct (cols_W E) as (h1 & _). split; [reflexivity|]. split; [exact h1|]. split; [lia|]. apply dv_W; auto; lia.
  - intros a Ha. destruct kzE as (-> & _ & _). apply con_side_v with (i := ie) (wall := wallE); [|now apply wall_coef_E].
    intros E. destruct (cols_E E) as (h1 & _). split; [reflexivity|]. split; [exact h1|]. split; [lia|]. apply dv_E; auto; lia.
  - intros a Ha. destruct kzE as (_ & -> & _). apply con_side_v with (i := ie) (wall := wallE); [|now apply wall_coef_E].
    intros E. destruct (cols_E E) as (h1 & _). split; [reflexivity|]. split; [exact h1|]. split; [lia|]. apply dv_E; auto; lia.
  - intros a Ha. destruct kzE as (_ & _ & ->). apply con_side_v with (i := ie) (wall := wallE); [|now apply wall_coef_E].
    intros E. destruct (cols_E E) as (h1 & _). split; [reflexivity|]. split; [exact h1|]. split; [lia|]. apply dv_E; auto; lia.
  - intros a Ha. apply con_side_u with (wall := wallW); [|now apply wall_coef_W]. intros E. destruct (cols_W E) as (_ & _ & h3 & _ & h5). destruct (kxW E) as [-> _].
    destruct (tu_near cw iz h3 ltac:(lia) ltac:(lia) ltac:(lia)) as [h6 _].
    split; [reflexivity|]. split; [lia|]. split; [lia|]. split; [|exact h6]. rewrite (proj2 (Z.eqb_neq _ _) h6), andb_true_r.
    destruct (Z.eq_dec ix 1) as [E1|E1]; [|lia]. rewrite (t_u cw iz) by (try assumption; lia).
    destruct kcases as [Ek|Ek]; [exfalso; unfold wallW in E; rewrite E1, Ek in E; discriminate|]. unfold cw. rewrite E1, Ek. cbn [Z.eqb Pos.eqb periodic]. unfold template_u.
    replace ((iz =? 0) || (iz =? nz m)) with false by lia. replace (nx m - 2 =? 0) with false by lia. replace (nx m - 2 =? nx m - 1) with false by lia. reflexivity.
  - intros a Ha. apply con_side_u with (wall := wallW); [|now apply wall_coef_W]. intros E. destruct (cols_W E) as (_ & _ & h3 & _ & h5). destruct (kxW E) as [_ ->].
    destruct (tu_near cw (iz + 1) h3 ltac:(lia) ltac:(lia) ltac:(lia)) as [h6 _].
    split; [reflexivity|]. split; [lia|]. split; [lia|]. split; [|exact h6].
    destruct (Z.eq_dec ix 1) as [E1|E1].
    + destruct kcases as [Ek|Ek]; [exfalso; unfold wallW in E; rewrite E1, Ek in E; discriminate|].
      replace (zc1 m ix iz + nx m - 2) with (Ui m (nx m - 1) iz) by (unfold zc1, Ui; lia).
      assert (Hn1 : near k m ix (nx m - 1)) by (rewrite Ek, E1; unfold near; lia).
      rewrite (proj2 (Z.eqb_neq _ _) (proj1 (tu_near (nx m - 1) iz Hn1 ltac:(lia) ltac:(lia) ltac:(lia)))), andb_true_r.
      rewrite (t_u cw (iz + 1)) by (try assumption; lia). unfold cw. rewrite E1, Ek. cbn [Z.eqb Pos.eqb periodic]. unfold template_u.
      replace ((iz + 1 =? 0) || (iz + 1 =? nz m)) with false by lia. replace (nx m - 2 =? 0) with false by lia. replace (nx m - 2 =? nx m - 1) with false by lia. reflexivity.
    + replace (zc1 m ix iz + nx m - 2) with (Ui m cw (iz + 1)) by (unfold zc1, Ui, cw; replace (ix =? 1) with false by lia; lia).
      rewrite (proj2 (Z.eqb_neq _ _) h6), andb_true_r. lia.
  - intros a Ha. apply con_side_u with (wall := wallE); [|now apply wall_coef_E]. intros E. destruct (cols_E E) as (_ & _ & _ & h4 & h5). destruct (kxE E) as [-> _].
    destruct (tu_near (ce + 1) iz h4 ltac:(lia) ltac:(lia) ltac:(lia)) as [h6 _].
    split; [reflexivity|]. split; [lia|]. split; [lia|]. split; [|exact h6].
    destruct (Z.eq_dec ix (nx m - 1)) as [E1|E1].
    + destruct kcases as [Ek|Ek]; [exfalso; unfold wallE in E; rewrite E1, Ek, Z.eqb_refl in E; discriminate|].
      replace (zc1 m ix iz + 1) with (Ui m 0 (iz + 1)) by (unfold zc1, Ui; lia).
      assert (Hn1 : near k m ix 0) by (rewrite Ek, E1; unfold near; lia).
      rewrite (proj2 (Z.eqb_neq _ _) (proj1 (tu_near 0 (iz + 1) Hn1 ltac:(lia) ltac:(lia) ltac:(lia)))), andb_true_r.
      rewrite (t_u (ce + 1) iz) by (try assumption; lia). unfold ce. rewrite E1, Ek, Z.eqb_refl. cbn [periodic]. unfold template_u.
      replace ((iz =? 0) || (iz =? nz m)) with false by lia. replace (0 + 1 =? nx m - 1) with false by lia. cbn [Z.add Z.eqb Pos.eqb andb]. apply orb_true_r.
    + replace (zc1 m ix iz + 1) with (Ui m (ce + 1) iz) by (unfold zc1, Ui, ce; replace (ix =? nx m - 1) with false by lia; lia).
      rewrite (proj2 (Z.eqb_neq _ _) h6), andb_true_r. lia.
  - intros a Ha. apply con_side_u with (wall := wallE); [|now apply wall_coef_E]. intros E. destruct (cols_E E) as (_ & _ & _ & h4 & h5). destruct (kxE E) as [_ ->].
    destruct (tu_near (ce + 1) (iz + 1) h4 ltac:(lia) ltac:(lia) ltac:(lia)) as [h6 _].
    split; [reflexivity|]. split; [lia|]. split; [lia|]. split; [|exact h6]. rewrite (proj2 (Z.eqb_neq _ _) h6), andb_true_r.
    destruct (Z.eq_dec ix (nx m - 1)) as [E1|E1]; [|lia].
    destruct kcases as [Ek|Ek]; [exfalso; unfold wallE in E; rewrite E1, Ek, Z.eqb_refl in E; discriminate|].
    rewrite (t_u (ce + 1) (iz + 1)) by (try assumption; lia). unfold ce. rewrite E1, Ek, Z.eqb_refl. cbn [periodic]. unfold template_u.
    replace ((iz + 1 =? 0) || (iz + 1 =? nz m)) with false by lia. replace (0 + 1 =? nx m - 1) with false by lia. cbn [Z.add Z.eqb Pos.eqb andb]. apply orb_true_r.
  - intros a Ha. apply con_side_p with (wall := wallW); [|now apply wall_coef_W]. intros E. destruct (kpW E) as [-> _]. repeat split; try lia.
    rewrite PX. unfold wallW in E. destruct (periodic k); lia.
  - intros a Ha. apply con_side_p with (wall := wallW); [|now apply wall_coef_W]. intros E. destruct (kpW E) as [_ ->]. repeat split; try lia.
    rewrite PX. unfold wallW in E. destruct (periodic k); lia.
  - intros a Ha. apply con_side_p with (wall := wallE); [|now apply wall_coef_E]. intros E. destruct (kpE E) as [-> _]. repeat split; try lia.
    rewrite PX. unfold wallE in E. destruct (periodic k); lia.
  - intros a Ha. apply con_side_p with (wall := wallE); [|now apply wall_coef_E]. intros E. destruct (kpE E) as [_ ->]. repeat split; try lia.
    rewrite PX. unfold wallE in E. destruct (periodic k); lia.
  - intros c Hc. destruct kzW as (a1 & a2 & a3), kzE as (b1 & b2 & b3). rewrite a1, a2, a3, b1, b2, b3 in Hc. clear a1 a2 a3 b1 b2 b3.
    assert (K : forall i j, near k m ix i -> 0 <= i <= nx m -> iz - 1 <= j <= iz + 1 -> tv m (Vi m i j) <> 11).
    { intros i j Hn Hi Hj. rewrite t_v by (try assumption; lia). unfold template_v. destruct kcases as [Ek|Ek]; rewrite Ek; destruct ((i =? 0) || (i =? nx m)); try discriminate; destruct ((j =? 0) || (j =? nz m - 1)); discriminate. }
    assert (HW : near k m ix iv /\ 0 <= iv <= nx m) by (unfold iv; cases_W; unfold near; lia).
    assert (HE : near k m ix ie /\ 0 <= ie <= nx m) by (unfold ie; cases_E; unfold near; lia).
    cbn [In] in Hc. repeat (destruct Hc as [<-|Hc]; [apply K; (apply HW || apply HE || lia)|]). contradiction.
  - unfold KinSSW, KinSSE, KxSSW, KxSSE, KxSW, KxSE.
    replace (zc1 m ix iz - 1 - nx m) with (Ui m (ix - 1) (iz - 1)) by (unfold zc1, Ui; lia). replace (zc1 m ix iz - nx m) with (Ui m ix (iz - 1)) by (unfold zc1, Ui; lia).
    split; apply far_u0 with (j := iz); auto; try lia; unfold near; destruct k; lia.
  - unfold KinNNW, KinNNE, KxNNW, KxNNE, KxNW, KxNE.
    replace (zc1 m ix iz + nx m - 1 + nx m) with (Ui m (ix - 1) (iz + 2)) by (unfold zc1, Ui; lia). replace (zc1 m ix iz + nx m + nx m) with (Ui m ix (iz + 2)) by (unfold zc1, Ui; lia).
    split; apply far_u0 with (j := iz + 1); auto; try lia; unfold near; destruct k; lia.
  - intros i Hi E. assert (Hn : near k m ix i) by (destruct Hi as [-> | ->]; unfold near; destruct k; lia).
    rewrite PX, (proj2 (tu_near i (iz - 1) Hn ltac:(lia) ltac:(lia) ltac:(lia)) E). reflexivity.
  - intros i Hi E. assert (Hn : near k m ix i) by (destruct Hi as [-> | ->]; unfold near; destruct k; lia).
    rewrite PX, (proj2 (tu_near i (iz + 2) Hn ltac:(lia) ltac:(lia) ltac:(lia)) E). reflexivity.
Qed.
End Z.
End T.
