(** Lemmas for NonlinModel.v. *)
From Coq Require Import List ZArith Bool Lia Reals Lra.
Import ListNotations.
From Verif Require Import NonlinModel.
Open Scope Z_scope.

(** Invariant of the cycle: [nit] between 0 and [nit_max+1], restarts counted,
    every pass logged once with an index in range. *)
Definition inv (c : nl_cfg) (s : nl_state) : Prop :=
  0 <= nit s <= nit_max c + 1 /\ 0 <= nstag s < max_num_stag c /\
  Forall (fun i => 0 <= i <= nit_max c) (logw s) /\
  Z.of_nat (ndiv s) = nstag s /\
  Z.of_nat (solves s) <= nstag s * (nit_max c + 1) + nit s.

Lemma switch_fields c s s' : switch c s = Some s' ->
  nit s' = nit s /\ nstag s' = nstag s /\ logw s' = logw s /\ solves s' = solves s /\
  ndiv s' = ndiv s /\ jac s' = jac s /\ prev s' = prev s /\ (first s <> None -> first s' <> None) /\
  (newton s' = newton s \/ (newton s' = true /\ p2n c = true)) /\
  (first s = None -> s' = s).
Proof.
  unfold switch. destruct ((0 <? nit s) && p2n c) eqn:G; [|injection 1 as <-; tauto].
  destruct (prev s) as [o|] eqn:P; [|injection 1 as <-; tauto].
  destruct (_ || _ || _ || _); [|injection 1 as <-; tauto].
  destruct (first s) eqn:F; [|discriminate]. injection 1 as <-. cbn.
  apply andb_true_iff in G as [_ G].
  repeat split; try reflexivity; try discriminate. now right.
Qed.

Lemma pass_inv c o s s' e : inv c s -> nit s <= nit_max c -> nl_pass c o s = (s', e) ->
  (e = None -> nstag s' < max_num_stag c -> inv c s') /\
  Forall (fun i => 0 <= i <= nit_max c) (logw s') /\
  Z.of_nat (solves s') <= nstag s * (nit_max c + 1) + nit s + 1 /\
  (e = None -> nit s' = nit s + 1 /\ nstag s' = nstag s \/ nit s' = 0 /\ nstag s' = nstag s + 1) /\
  (e = None -> nstag s' < max_num_stag c).
Proof.
  intros (H1 & H2 & H3 & H4 & H5) Hn. unfold nl_pass.
  destruct (switch c s) as [t|] eqn:SW.
  2:{ injection 1 as <- <-. repeat split; try discriminate; [exact H3|lia]. }
  destruct (switch_fields _ _ _ SW) as (E1 & E2 & E3 & E4 & E5 & E6 & _).
  assert (L : Forall (fun i => 0 <= i <= nit_max c) (nit t :: logw t)).
  { constructor; [lia|]. now rewrite E3. }
  destruct (converged o).
  { injection 1 as <- <-. repeat split; try discriminate; cbn; [exact L|lia]. }
  destruct (stag o && (safe_mode c <=? 0)).
  { injection 1 as <- <-. repeat split; try discriminate; cbn [logw solves]; [exact L|lia]. }
  destruct (stag o && elastic c && (safe_mode c =? 1)).
  - destruct (Z.eqb_spec (nstag t + 1) (max_num_stag c)) as [Em|Em]; injection 1 as <- <-;
      (split; [|split; [exact L|split; [cbn [solves]; lia|split]]]); try discriminate.
    + intros _ _. unfold inv. cbn [nit nstag logw ndiv solves]. repeat split; try lia; try exact L.
    + intros _. right. cbn. lia.
    + intros _. cbn. lia.
  - injection 1 as <- <-.
    split; [|split; [exact L|split; [cbn [solves]; lia|split]]].
    + intros _ _. unfold inv. cbn [nit nstag logw ndiv solves]. repeat split; try lia; exact L.
    + intros _. left. cbn. lia.
    + intros _. cbn. lia.
Qed.

(** Passes still possible. *)
Definition budget (c : nl_cfg) (s : nl_state) : Z :=
  (max_num_stag c - nstag s) * (nit_max c + 1) - nit s.

Lemma loop_total c : forall fuel env i s, inv c s -> 0 <= nit_max c ->
  budget c s <= Z.of_nat fuel ->
  exists s' e, nl_loop fuel c env i s = Some (s', e) /\
    Forall (fun i => 0 <= i <= nit_max c) (logw s') /\
    Z.of_nat (solves s') <= max_num_stag c * (nit_max c + 1).
Proof.
  induction fuel as [|fuel IH]; intros env i s Hi Hn Hb.
  - destruct Hi as (H1 & H2 & H3 & H4 & H5). unfold budget in Hb.
    cbn [nl_loop].
    assert (nit s = nit_max c + 1 /\ nstag s + 1 = max_num_stag c) as [A B] by nia.
    destruct (Z.leb_spec (nit s) (nit_max c)); [lia|]. cbn [andb].
    exists s, IterLimit. repeat split; [exact H3|]. nia.
  - cbn [nl_loop].
    destruct (Z.leb_spec (nit s) (nit_max c)) as [Hle|Hgt]; cbn [andb].
    2:{ destruct Hi as (H1 & H2 & H3 & H4 & H5). exists s, IterLimit. repeat split; [exact H3|]. nia. }
    destruct (Z.ltb_spec (nstag s) (max_num_stag c)) as [Hlt|Hge].
    2:{ destruct Hi as (_ & H2 & _). lia. }
    destruct (nl_pass c (env i) s) as [s' [e|]] eqn:P.
    + destruct (pass_inv _ _ _ _ _ Hi Hle P) as (_ & L & S & _).
      exists s', e. repeat split; [exact L|]. destruct Hi as (H1 & H2 & H3 & H4 & H5). nia.
    + destruct (pass_inv _ _ _ _ _ Hi Hle P) as (I & L & S & D & M).
      specialize (M eq_refl). specialize (I eq_refl M). specialize (D eq_refl).
      apply IH; [exact I|exact Hn|]. unfold budget in *.
      destruct D as [[-> ->]|[-> ->]]; [lia|]. 
      destruct Hi as (H1 & _). nia.
Qed.

Lemma start_inv c n isn : -1 <= nit_max c -> 0 < max_num_stag c -> inv c (nl_start c n isn).
Proof.
  intros Hn Hm. unfold nl_start. destruct (isn && p2n c); unfold inv; cbn; repeat split; try lia; constructor.
Qed.

Lemma loop_terminates c env n isn :
  exists s e, nl_loop (nl_fuel c) c env 0 (nl_start c n isn) = Some (s, e) /\
    Forall (fun i => 0 <= i <= nit_max c) (logw s) /\
    Z.of_nat (solves s) <= Z.max 0 (max_num_stag c) * Z.max 0 (nit_max c + 1).
Proof.
  assert (N0 : nit (nl_start c n isn) = 0) by (unfold nl_start; destruct (_ && _); reflexivity).
  assert (S0 : nstag (nl_start c n isn) = 0) by (unfold nl_start; destruct (_ && _); reflexivity).
  assert (L0 : logw (nl_start c n isn) = []) by (unfold nl_start; destruct (_ && _); reflexivity).
  assert (V0 : solves (nl_start c n isn) = O) by (unfold nl_start; destruct (_ && _); reflexivity).
  destruct (Z.ltb_spec (nit_max c) 0) as [Hneg|Hpos].
  { exists (nl_start c n isn), IterLimit.
    assert (E : nl_loop (nl_fuel c) c env 0 (nl_start c n isn) = Some (nl_start c n isn, IterLimit)).
    { destruct (nl_fuel c); cbn [nl_loop]; rewrite N0;
      (destruct (Z.leb_spec 0 (nit_max c)); [lia|reflexivity]). }
    rewrite E, L0, V0. repeat split; [constructor|]. cbn. lia. }
  destruct (Z.leb_spec (max_num_stag c) 0) as [Hs|Hs].
  { exists (nl_start c n isn), IterLimit.
    assert (E : nl_loop (nl_fuel c) c env 0 (nl_start c n isn) = Some (nl_start c n isn, IterLimit)).
    { destruct (nl_fuel c); cbn [nl_loop]; rewrite S0;
      (destruct (Z.ltb_spec 0 (max_num_stag c)); [lia|rewrite andb_false_r; reflexivity]). }
    rewrite E, L0, V0. repeat split; [constructor|]. cbn. lia. }
  rewrite !Z.max_r by lia.
  apply loop_total; [apply start_inv; lia|exact Hpos|].
  unfold budget. rewrite N0, S0. unfold nl_fuel. rewrite Z2Nat.id; nia.
Qed.

(** ** How each end arises *)

(** Specification of the ends: the last observation and the counters. *)
Lemma loop_end c : forall fuel env i s s' e, inv c s ->
  nl_loop fuel c env i s = Some (s', e) ->
  match e with
  | Converged => exists o, prev s' = Some o /\ converged o = true
  | Stagnated => safe_mode c <= 0 /\ exists o, prev s' = Some o /\ converged o = false /\ stag o = true
  | IterLimit => nit s' = nit_max c + 1
  | ExitZero => safe_mode c = 1 /\ elastic c = true /\ nstag s' = max_num_stag c /\
                Z.of_nat (ndiv s') = max_num_stag c
  | Indeterminate => p2n c = true /\ first s' = None
  end.
Proof.
  induction fuel as [|fuel IH]; intros env i s s' e Hi H; cbn [nl_loop] in H.
  - destruct (Z.leb_spec (nit s) (nit_max c)) as [Hle|Hgt]; cbn [andb] in H.
    + destruct (Z.ltb_spec (nstag s) (max_num_stag c)); [discriminate|]. destruct Hi as (_ & H2 & _). lia.
    + injection H as <- <-. destruct Hi as (H1 & _). lia.
  - destruct (Z.leb_spec (nit s) (nit_max c)) as [Hle|Hgt]; cbn [andb] in H.
    2:{ injection H as <- <-. destruct Hi as (H1 & _). lia. }
    destruct (Z.ltb_spec (nstag s) (max_num_stag c)) as [Hlt|Hge].
    2:{ destruct Hi as (_ & H2 & _). lia. }
    destruct (nl_pass c (env i) s) as [t [e'|]] eqn:P.
    + injection H as <- <-. unfold nl_pass in P.
      destruct (switch c s) as [u|] eqn:SW.
      2:{ injection P as <- <-. unfold switch in SW.
          destruct ((0 <? nit s) && p2n c) eqn:G; [|discriminate].
          apply andb_true_iff in G as [_ G]. split; [exact G|].
          destruct (prev s); [|discriminate].
          destruct (_ || _ || _ || _); [|discriminate]. destruct (first s); [discriminate|reflexivity]. }
      destruct (switch_fields _ _ _ SW) as (E1 & E2 & E3 & E4 & E5 & E6 & _).
      destruct (converged (env i)) eqn:C; [injection P as <- <-; exists (env i); split; [reflexivity|exact C]|].
      destruct (stag (env i)) eqn:St; cbn [andb] in P.
      * destruct (Z.leb_spec (safe_mode c) 0).
        { injection P as <- <-. split; [lia|]. exists (env i). auto. }
        destruct (elastic c && (safe_mode c =? 1)) eqn:El; [|discriminate].
        apply andb_true_iff in El as [El1 El2]. apply Z.eqb_eq in El2.
        destruct (Z.eqb_spec (nstag u + 1) (max_num_stag c)); [|discriminate].
        injection P as <- <-. cbn [nstag ndiv].
        destruct Hi as (H1 & H2 & H3 & H4 & H5). repeat split; lia || assumption.
      * discriminate.
    + destruct (pass_inv _ _ _ _ _ Hi Hle P) as (I & _ & _ & _ & M).
      eapply IH; [|exact H]. exact (I eq_refl (M eq_refl)).
Qed.

(** ** Indeterminate flag (C15) *)

Lemma pass_first c o s s' e : first s <> None -> nl_pass c o s = (s', e) ->
  first s' <> None /\ e <> Some Indeterminate.
Proof.
  intros F H. unfold nl_pass in H. destruct (switch c s) as [u|] eqn:SW.
  - destruct (switch_fields _ _ _ SW) as (_ & _ & _ & _ & _ & _ & _ & G & _).
    specialize (G F).
    destruct (converged o); [injection H as <- <-; split; [exact G|discriminate]|].
    destruct (stag o && (safe_mode c <=? 0)); [injection H as <- <-; split; [exact G|discriminate]|].
    destruct (stag o && elastic c && _).
    + destruct (_ =? _); injection H as <- <-; (split; [exact G|discriminate]).
    + injection H as <- <-; split; [exact G|discriminate].
  - exfalso. unfold switch in SW. destruct (_ && _); [|discriminate].
    destruct (prev s); [|discriminate]. destruct (_ || _ || _ || _); [|discriminate].
    destruct (first s); [discriminate|congruence].
Qed.

Lemma loop_first c : forall fuel env i s s' e, first s <> None ->
  nl_loop fuel c env i s = Some (s', e) -> e <> Indeterminate.
Proof.
  induction fuel as [|fuel IH]; intros env i s s' e F H; cbn [nl_loop] in H.
  - destruct (_ && _); [discriminate|]. injection H as <- <-. discriminate.
  - destruct (_ && _); [|injection H as <- <-; discriminate].
    destruct (nl_pass c (env i) s) as [t [e'|]] eqn:P; destruct (pass_first _ _ _ _ _ F P) as [F' NE].
    + injection H as <- <-. congruence.
    + exact (IH _ _ _ _ _ F' H).
Qed.

Lemma loop_no_p2n c : p2n c = false -> forall fuel env i s s' e,
  nl_loop fuel c env i s = Some (s', e) -> e <> Indeterminate.
Proof.
  intros HP. induction fuel as [|fuel IH]; intros env i s s' e H; cbn [nl_loop] in H.
  - destruct (_ && _); [discriminate|]. injection H as <- <-. discriminate.
  - destruct (_ && _); [|injection H as <- <-; discriminate].
    destruct (nl_pass c (env i) s) as [t [e'|]] eqn:P; [|exact (IH _ _ _ _ _ H)].
    injection H as <- <-. unfold nl_pass, switch in P. rewrite HP, andb_false_r in P.
    destruct (converged (env i)); [injection P as <- <-; discriminate|].
    destruct (stag (env i) && (safe_mode c <=? 0)); [injection P as <- <-; discriminate|].
    destruct (stag (env i) && elastic c && _).
    + destruct (_ =? _); [injection P as <- <-; discriminate|discriminate].
    + discriminate.
Qed.

Lemma start_first c n : p2n c = true -> first (nl_start c n true) <> None.
Proof. intros H. unfold nl_start. rewrite H. discriminate. Qed.

(** Steps that all end in Newton mode never read the indeterminate flag. *)
Lemma steps_safe c : forall envs n isn,
  (isn = true \/ p2n c = false) ->
  (forall k s e, nth_error (nl_steps c envs n isn) k = Some (s, e) ->
     (S k < length envs)%nat -> is_newton s = true \/ p2n c = false) ->
  forall k s e, nth_error (nl_steps c envs n isn) k = Some (s, e) -> e <> Indeterminate.
Proof.
  induction envs as [|env rest IH]; intros n isn Hs Hn k s e Hk.
  - destruct k; discriminate.
  - cbn [nl_steps] in *.
    destruct (nl_loop (nl_fuel c) c env 0 (nl_start c n isn)) as [[s1 e1]|] eqn:L.
    2:{ destruct k; discriminate. }
    assert (G : e1 <> Indeterminate).
    { destruct Hs as [->|Hp].
      - destruct (p2n c) eqn:P.
        + eapply loop_first; [|exact L]. now apply start_first.
        + eapply loop_no_p2n; eassumption.
      - eapply loop_no_p2n; eassumption. }
    destruct k as [|k]; cbn in Hk; [injection Hk as <- <-; exact G|].
    destruct rest as [|env2 rest'].
    { destruct e1; cbn in Hk; destruct k; discriminate. }
    assert (S1 : is_newton s1 = true \/ p2n c = false).
    { apply (Hn 0%nat s1 e1); [reflexivity|cbn; lia]. }
    assert (R : nth_error (nl_steps c (env2 :: rest') (newton s1) (is_newton s1)) k = Some (s, e)).
    { destruct e1; try exact Hk; try (destruct k; discriminate). }
    apply (IH (newton s1) (is_newton s1) S1) with (k := k) (s := s); [|exact R].
    intros k' s' e' Hk' Hlen. apply (Hn (S k') s' e'); [|cbn in *; lia].
    cbn [nth_error]. destruct e1; try exact Hk'; destruct k; discriminate.
Qed.

(** ** Jacobian storage (C47) *)

Lemma loop_jac c : (p2n c = true -> need_jacobian c = true) ->
  forall fuel env i s s' e,
  (jac s = true \/ newton s = true -> need_jacobian c = true) ->
  nl_loop fuel c env i s = Some (s', e) ->
  (jac s' = true \/ newton s' = true -> need_jacobian c = true).
Proof.
  intros HP. induction fuel as [|fuel IH]; intros env i s s' e J H; cbn [nl_loop] in H.
  - destruct (_ && _); [discriminate|]. injection H as <- <-. exact J.
  - destruct (_ && _); [|injection H as <- <-; exact J].
    destruct (nl_pass c (env i) s) as [t oe] eqn:P.
    assert (Jt : jac t = true \/ newton t = true -> need_jacobian c = true).
    { unfold nl_pass in P. destruct (switch c s) as [u|] eqn:SW; [|injection P as <- <-; exact J].
      destruct (switch_fields _ _ _ SW) as (_ & _ & _ & _ & _ & E6 & _ & _ & E7 & _).
      assert (Ju : jac u || newton u || aniso c = true \/ newton u = true -> need_jacobian c = true).
      { rewrite E6. intros [A|A].
        - apply orb_true_iff in A as [A|A]; [apply orb_true_iff in A as [A|A]|].
          + now apply J; left.
          + destruct E7 as [E7|[_ E7]]; [apply J; right; congruence|now apply HP].
          + unfold need_jacobian. now rewrite A, orb_true_r.
        - destruct E7 as [E7|[_ E7]]; [apply J; right; congruence|now apply HP]. }
      destruct (converged (env i)); [injection P as <- <-; exact Ju|].
      destruct (stag (env i) && (safe_mode c <=? 0)); [injection P as <- <-; exact Ju|].
      destruct (stag (env i) && elastic c && _).
      - destruct (_ =? _); injection P as <- <-; exact Ju.
      - injection P as <- <-; exact Ju. }
    destruct oe as [e'|]; [injection H as <- <-; exact Jt|].
    exact (IH _ _ _ _ _ Jt H).
Qed.

Lemma steps_jac c : (p2n c = true -> need_jacobian c = true) ->
  forall envs n isn, (n = true -> need_jacobian c = true) ->
  forall s e, In (s, e) (nl_steps c envs n isn) -> jac s = true -> need_jacobian c = true.
Proof.
  intros HP. induction envs as [|env rest IH]; intros n isn Hn s e Hin Hj; [contradiction|].
  cbn [nl_steps] in Hin.
  destruct (nl_loop (nl_fuel c) c env 0 (nl_start c n isn)) as [[s1 e1]|] eqn:L; [|contradiction].
  assert (J : jac s1 = true \/ newton s1 = true -> need_jacobian c = true).
  { eapply loop_jac; [exact HP| |exact L]. unfold nl_start. destruct (isn && p2n c) eqn:E; cbn.
    - intros [X|X]; discriminate.
    - intros [X|X]; [discriminate|now apply Hn]. }
  destruct Hin as [Hin|Hin].
  - injection Hin as <- <-. apply J. now left.
  - destruct e1; try contradiction; (eapply IH; [|exact Hin|exact Hj]; intros; apply J; now right).
Qed.

(** ** Clock (C16) *)

Lemma clock_sum : forall dts t0,
  clock t0 dts = (t0 + fold_right Rplus 0 (map fst dts))%R.
Proof.
  induction dts as [|d dts IH]; intros t0; cbn; [ring|]. rewrite IH. ring.
Qed.

Lemma loop_ndiv0 c : elastic c && (safe_mode c =? 1) = false ->
  forall fuel env i s s' e, nl_loop fuel c env i s = Some (s', e) -> ndiv s' = ndiv s.
Proof.
  intros HS. induction fuel as [|fuel IH]; intros env i s s' e H; cbn [nl_loop] in H.
  - destruct ((nit s <=? nit_max c) && (nstag s <? max_num_stag c)); [discriminate|]. now injection H as <- <-.
  - destruct ((nit s <=? nit_max c) && (nstag s <? max_num_stag c)); [|now injection H as <- <-].
    destruct (nl_pass c (env i) s) as [t oe] eqn:P.
    assert (E : ndiv t = ndiv s).
    { unfold nl_pass in P. destruct (switch c s) as [u|] eqn:SW; [|now injection P as <- <-].
      destruct (switch_fields _ _ _ SW) as (_ & _ & _ & _ & E5 & _).
      rewrite <- andb_assoc, HS, andb_false_r in P.
      destruct (converged (env i)); [injection P as <- <-; exact E5|].
      destruct (stag (env i) && (safe_mode c <=? 0)); injection P as <- <-; exact E5. }
    destruct oe as [e'|]; [injection H as <- <-; exact E|]. rewrite (IH _ _ _ _ _ H). exact E.
Qed.

Lemma steps_ndiv0 c : elastic c && (safe_mode c =? 1) = false ->
  forall envs n isn s e, In (s, e) (nl_steps c envs n isn) -> ndiv s = O.
Proof.
  intros HS. induction envs as [|env rest IH]; intros n isn s e Hin; [contradiction|].
  cbn [nl_steps] in Hin.
  destruct (nl_loop (nl_fuel c) c env 0 (nl_start c n isn)) as [[s1 e1]|] eqn:L; [|contradiction].
  destruct Hin as [Hin|Hin].
  - injection Hin as <- <-. rewrite (loop_ndiv0 c HS _ _ _ _ _ _ L).
    unfold nl_start. destruct (isn && p2n c); reflexivity.
  - destruct e1; try contradiction; exact (IH _ _ _ _ Hin).
Qed.

(** Sum of a quantity over the steps of a run. *)
Definition total (g : R * nl_state -> R) (dts : list (R * nl_state)) : R :=
  fold_right Rplus 0%R (map g dts).

Lemma clock_offset div dts t0 :
  clock t0 dts = (t0 + total (dt_used div) dts + total (fun d => fst d - dt_used div d) dts)%R.
Proof.
  rewrite clock_sum. unfold total.
  induction dts as [|d dts IH]; cbn [map fold_right]; [ring|].
  apply Rplus_eq_reg_l with (- t0)%R.
  assert (E : fold_right Rplus 0%R (map fst dts) =
    (fold_right Rplus 0 (map (dt_used div) dts) +
     fold_right Rplus 0 (map (fun d => fst d - dt_used div d) dts))%R).
  { apply Rplus_eq_reg_l with t0. rewrite IH. ring. }
  rewrite E. ring.
Qed.

Lemma used_undivided div d : ndiv (snd d) = O -> dt_used div d = fst d.
Proof. intros H. unfold dt_used. rewrite H. cbn. field. Qed.

Lemma used_less div d : (1 < div)%R -> (0 < fst d)%R -> ndiv (snd d) <> O ->
  (dt_used div d < fst d)%R.
Proof.
  intros Hd Hp Hn. unfold dt_used.
  assert (P : (1 < div ^ ndiv (snd d))%R) by (apply Rlt_pow_R1; [exact Hd|lia]).
  apply Rmult_lt_reg_r with (div ^ ndiv (snd d))%R; [lra|].
  unfold Rdiv. rewrite Rmult_assoc, Rinv_l by lra. rewrite Rmult_1_r. nra.
Qed.
