(** * C68-C70: implicit diffusion of heat and composition *)
From Coq Require Import Reals ZArith List Bool Arith Lra Lia.
From Verif Require Import GridModel RheoModel DiffModel DiffProofs DiffCore LinSolve.
Import ListNotations.
Local Open Scope R_scope.

(** Conditions under which the solve is meant to be used: positive spacings, sensible periodic flags, a bottom
    flux only on square cells (see the refutations for what happens otherwise). *)
Definition usable (g : dgrid) : Prop := periodic_ok g /\ spacings_ok g /\ bottom_ok g.

Section Aux.
  Variable g : dgrid.
  Hypothesis Hu : usable g.
  Hypothesis Hph : physical g.
  Notation cellp c := (cell g (fst c) (snd c)).
  Let Hper : periodic_ok g := proj1 Hu.
  Let Hsp : spacings_ok g := proj1 (proj2 Hu).
  Let Hbo : bottom_ok g := proj2 (proj2 Hu).

  Lemma spacing_pos : forall s, 0 < spacing g s.
  Proof. destruct Hsp as (S1 & S2 & _). intros []; assumption. Qed.
  Lemma touched_cell : forall s k l c a, active g k l -> touches g s k l = ToCell c a -> active g (fst c) (snd c) /\ 0 <= a.
  Proof.
    destruct Hph as (P1 & P2 & _ & _). intros s k l c a H E.
    assert (Hs : forall c a, surface g k l = ToCell c a -> False) by (intros ? ?; unfold surface; destruct (_ =? _)%Z; discriminate).
    destruct s; cbn [touches] in E.
    - destruct (Nat.eqb_spec l 0) as [_|Hl]; [destruct (_ =? 1)%Z; [discriminate|]; destruct (_ =? 0)%Z; discriminate|].
      destruct (air_at g (k + 1) l) eqn:Ea; [destruct (Hs _ _ E)|]. injection E as <- <-. split; [now apply act_S|apply P2].
    - destruct (Nat.eqb_spec k 0) as [->|Hk].
      + destruct (_ =? 1)%Z; [discriminate|]. destruct (flag_at g 0 (l + 1) =? -2)%Z eqn:E2; [|discriminate]. injection E as <- <-. apply Z.eqb_eq in E2.
        destruct (act_pW g Hper l H E2) as (H1 & _). split; [exact H1|apply P1].
      + destruct (air_at g k (l + 1)) eqn:Ea; [destruct (Hs _ _ E)|]. injection E as <- <-. split; [now apply act_W|apply P1].
    - destruct (Nat.eqb_spec (k + 1) (g_ncx g)) as [Ek|Hk].
      + destruct (_ =? 1)%Z; [discriminate|]. destruct (flag_at g (k + 2) (l + 1) =? -2)%Z eqn:E2; [|discriminate]. injection E as <- <-. apply Z.eqb_eq in E2.
        assert (Ek' : k = (g_ncx g - 1)%nat) by lia. assert (Ha' := H). rewrite Ek' in Ha'.
        destruct (act_pE g Hper l Ha' ltac:(rewrite <- E2; f_equal; lia)) as (H1 & _). split; [exact H1|apply P1].
      + destruct (air_at g (k + 2) (l + 1)) eqn:Ea; [destruct (Hs _ _ E)|]. injection E as <- <-. split; [now apply act_E|apply P1].
    - destruct (Nat.eqb_spec (l + 1) (g_ncz g)) as [_|Hl]; [destruct (_ =? 1)%Z; discriminate|].
      destruct (air_at g (k + 1) (l + 2)) eqn:Ea; [destruct (Hs _ _ E)|]. injection E as <- <-. split; [now apply act_N|apply P2].
  Qed.
  Lemma touched_value : forall s k l v a, touches g s k l = ToValue v a -> 0 <= a.
  Proof.
    destruct Hph as (P1 & P2 & P3 & _). intros s k l v a E.
    assert (Hs : surface g k l = ToValue v a -> 0 <= a).
    { unfold surface. destruct (_ =? _)%Z; [|discriminate]. intros F. injection F as _ <-. eapply Rle_trans; [exact P3|apply Rmax_l]. }
    destruct s; cbn [touches] in E.
    - destruct (Nat.eqb l 0); [destruct (_ =? 1)%Z; [injection E as _ <-; apply P2|]; destruct (_ =? 0)%Z; discriminate|]. destruct (air_at _ _ _); [auto|discriminate].
    - destruct (Nat.eqb k 0); [destruct (_ =? 1)%Z; [injection E as _ <-; apply P1|]; destruct (_ =? -2)%Z; discriminate|]. destruct (air_at _ _ _); [auto|discriminate].
    - destruct (Nat.eqb (k + 1) _); [destruct (_ =? 1)%Z; [injection E as _ <-; apply P1|]; destruct (_ =? -2)%Z; discriminate|]. destruct (air_at _ _ _); [auto|discriminate].
    - destruct (Nat.eqb (l + 1) _); [destruct (_ =? 1)%Z; [injection E as _ <-; apply P2|discriminate]|]. destruct (air_at _ _ _); [auto|discriminate].
  Qed.

  (** smallest element of a finite list *)
  Lemma argmin : forall (f : nat * nat -> R) L, L <> [] -> exists c, In c L /\ forall d, In d L -> f c <= f d.
  Proof.
    intros f. induction L as [|c L IH]; intros H; [congruence|]. destruct L as [|d L].
    - exists c. split; [now left|]. intros d [<-|[]]. lra.
    - destruct (IH ltac:(congruence)) as [m [Hm Hmin]]. destruct (Rle_dec (f c) (f m)) as [Hl|Hl].
      + exists c. split; [now left|]. intros e [<-|He]; [lra|]. specialize (Hmin e He). lra.
      + exists m. split; [now right|]. intros e [<-|He]; [lra|auto].
  Qed.
  Lemma div_nonneg : forall a b, 0 <= a -> 0 < b -> 0 <= a / b.
  Proof. intros a b Ha Hb. unfold Rdiv. apply Rmult_le_pos; [exact Ha|]. left. now apply Rinv_0_lt_compat. Qed.

  (** fields that gain less than another: comparison principle. [T1] and [T2] are results for the same matrix. *)
  Definition gains (src T T' : nat -> R) (s : R -> R -> Prop) : Prop := forall k l, active g k l -> s (at_ g (g_rc g) (k, l) * (at_ g T' (k, l) - at_ g T (k, l)) / g_dt g) (allsides (fun s => enters g T' s k l / spacing g s) + at_ g src (k, l)).
  Lemma compare : forall src1 src2 T1 T2 T1' T2',
    (forall k l, active g k l -> balanced g src1 T1 T1' k l) -> (forall k l, active g k l -> balanced g src2 T2 T2' k l) ->
    (forall k l, active g k l -> at_ g T1 (k, l) <= at_ g T2 (k, l)) -> (forall k l, active g k l -> at_ g src1 (k, l) <= at_ g src2 (k, l)) ->
    forall k l, active g k l -> at_ g T1' (k, l) <= at_ g T2' (k, l).
  Proof.
    intros src1 src2 T1 T2 T1' T2' B1 B2 H0 Hs k l Ha.
    destruct (argmin (fun c => at_ g T2' c - at_ g T1' c) (fl g)) as [[k0 l0] [Hm Hmin]]; [intros E; apply in_fl_active in Ha; rewrite E in Ha; destruct Ha|].
    pose proof (Hmin (k, l) ltac:(now apply in_fl_active)) as Hkl. cbv beta in Hkl.
    cut (0 <= at_ g T2' (k0, l0) - at_ g T1' (k0, l0)); [lra|].
    apply Rnot_lt_le. intros Hneg. apply in_fl_active in Hm. specialize (B1 k0 l0 Hm). specialize (B2 k0 l0 Hm). unfold balanced in B1, B2.
    assert (Hside : forall s, enters g T1' s k0 l0 / spacing g s <= enters g T2' s k0 l0 / spacing g s).
    { intros s. pose proof (spacing_pos s) as Hh. unfold Rdiv at 1 2. apply Rmult_le_compat_r; [left; now apply Rinv_0_lt_compat|].
      unfold enters. destruct (touches g s k0 l0) as [|c a|v a|q] eqn:Et; [lra| | |lra].
      - destruct (touched_cell s k0 l0 c a Hm Et) as [Hc Hpos]. apply in_fl_active in Hc. rewrite <- surjective_pairing in Hc. specialize (Hmin c Hc). cbv beta in Hmin.
        unfold Rdiv. apply Rmult_le_compat_r; [left; now apply Rinv_0_lt_compat|]. apply Rmult_le_compat_l; [exact Hpos|lra].
      - pose proof (touched_value s k0 l0 v a Et) as Hpos. unfold Rdiv at 1 3. apply Rmult_le_compat_r; [left; apply Rinv_0_lt_compat; lra|]. apply Rmult_le_compat_l; [exact Hpos|lra]. }
    specialize (H0 k0 l0 Hm). specialize (Hs k0 l0 Hm). pose proof (Hside South). pose proof (Hside West). pose proof (Hside East). pose proof (Hside North).
    unfold allsides in B1, B2. destruct Hph as (_ & _ & _ & P4). specialize (P4 k0 l0 Hm). destruct Hsp as (_ & _ & S3).
    set (rc := at_ g (g_rc g) (k0, l0)) in *.
    assert (Hle : rc * (at_ g T1' (k0, l0) - at_ g T1 (k0, l0)) / g_dt g <= rc * (at_ g T2' (k0, l0) - at_ g T2 (k0, l0)) / g_dt g) by lra.
    apply (Rmult_le_compat_r (g_dt g)) in Hle; [|lra]. unfold Rdiv in Hle. rewrite !Rmult_assoc, Rinv_l, !Rmult_1_r in Hle by lra.
    apply Rmult_le_reg_l in Hle; [lra|exact P4].
  Qed.

  Lemma same_T : forall T x, (forall k l, active g k l -> T (cell g k l) = x (pos g (k, l))) -> forall k l, active g k l -> at_ g T (k, l) = x (pos g (k, l)).
  Proof. intros T x H k l Ha. rewrite <- H by exact Ha. reflexivity. Qed.
End Aux.

(** a field by equation numbers, on the cells *)
Definition field_of (g : dgrid) (x : nat -> R) (j : nat) : R := x (pos g (j mod g_ncx g, j / g_ncx g)%nat).
Lemma field_of_cell : forall g x k l, (k < g_ncx g)%nat -> field_of g x (cell g k l) = x (pos g (k, l)).
Proof.
  intros g x k l Hk. unfold field_of, cell. rewrite Nat.mod_add by lia. rewrite Nat.div_add by lia.
  rewrite Nat.mod_small, Nat.div_small by exact Hk. reflexivity.
Qed.

(** ** C68: every solve balances the heat of each cell *)
Theorem C68_heat_balance : forall g src out T T', usable g -> step g src out T (Some T') ->
  (forall k l, active g k l -> balanced g src T T' k l /\ 0 <= at_ g T' (k, l)) /\
  (forall k l, (k < g_ncx g)%nat -> (l < g_ncz g)%nat -> air_at g (k + 1) (l + 1) = true -> at_ g T' (k, l) = out) /\
  (forall j, (g_ncx g * g_ncz g <= j)%nat -> T' j = T j).
Proof.
  intros g src out T T' (Hp & Hs & Hb) [x [Hx HT]]. pose proof (extract_facts g x out T) as F. rewrite <- HT in F. destruct F as (F1 & F2 & F3).
  assert (HT' : forall k l, active g k l -> T' (cell g k l) = x (pos g (k, l))).
  { intros k l Ha. rewrite F1 by apply Ha. assert (Hf := Ha). apply in_fl_active, in_fl in Hf. destruct Hf as [_ ->]. reflexivity. }
  repeat split.
  - now apply (proj1 (solved_balanced g Hp Hs src T T' x Hb HT') Hx).
  - unfold at_. cbn [fst snd]. change (0 <= T' (cell g k l)). rewrite HT' by assumption. apply F2. now apply in_fl_active.
  - intros k l Hk Hl Hair. unfold at_. cbn [fst snd]. change (T' (cell g k l) = out). rewrite F1 by assumption.
    unfold air_at, flag_at in Hair. unfold fluid, ext. rewrite Hair. reflexivity.
  - exact F3.
Qed.
Print Assumptions C68_heat_balance.

(** The solve has exactly one outcome, and a field that satisfies the balance is that outcome. *)
Theorem C68_one_outcome : forall g src out T, usable g -> physical g ->
  exists o, step g src out T o /\
    (forall o', step g src out T o' -> match o, o' with None, None => True | Some T1, Some T2 => forall j, T1 j = T2 j | _, _ => False end).
Proof.
  intros g src out T Hu Hph. destruct Hu as (Hp & Hs & Hb) eqn:Eu.
  assert (act : forall k l, active g k l -> (k < g_ncx g)%nat) by (intros k l H; apply H).
  assert (Uniq : forall x y, solved g x (rhs_vec g src T) -> solved g y (rhs_vec g src T) -> forall c, In c (fl g) -> x (pos g c) = y (pos g c)).
  { intros x y Hx Hy [k l] Hc. apply in_fl_active in Hc.
    pose proof (proj1 (solved_balanced g Hp Hs src T (field_of g x) x Hb ltac:(intros; apply field_of_cell; eauto)) Hx) as B1.
    pose proof (proj1 (solved_balanced g Hp Hs src T (field_of g y) y Hb ltac:(intros; apply field_of_cell; eauto)) Hy) as B2.
    pose proof (compare g Hu Hph _ _ _ _ _ _ B1 B2 ltac:(intros; lra) ltac:(intros; lra) k l Hc) as L1.
    pose proof (compare g Hu Hph _ _ _ _ _ _ B2 B1 ltac:(intros; lra) ltac:(intros; lra) k l Hc) as L2.
    unfold at_ in L1, L2. cbn [fst snd] in L1, L2. change (k + l * g_ncx g)%nat with (cell g k l) in *. rewrite !field_of_cell in L1, L2 by (eapply act; eauto). lra. }
  assert (K : trivial_kernel (neq g) (low g)).
  { intros x H j Hj.
    destruct (pos_surj g j Hj) as [c [Hc <-]].
    (* the homogeneous system is the heat system of a body with zero values everywhere *)
    set (g0 := Dgrid (g_ncx g) (g_ncz g) (g_dx g) (g_dz g) (g_dt g) (g_typ g) (fun _ => 0) (g_kx g) (g_kz g) (g_rc g) (g_mink g)).
    assert (U0 : usable g0) by (split; [exact Hp|split; [exact Hs|intros k Hk Ht; left; reflexivity]]).
    assert (Hx0 : forall k l, active g0 k l -> balanced g0 (fun _ => 0) (fun _ => 0) (field_of g0 x) k l).
    { apply (solved_balanced g0 (proj1 U0) (proj1 (proj2 U0)) (fun _ => 0) (fun _ => 0) (field_of g0 x) x (proj2 (proj2 U0))).
      - intros k l Ha. apply field_of_cell. apply Ha.
      - intros i Hi. change (low g0) with (low g). change (neq g0) with (neq g). rewrite H by exact Hi. symmetry.
        destruct (pos_surj g0 i Hi) as [d [Hd <-]]. rewrite rhs_at by exact Hd. unfold rhs0, bbc.
        assert (Fb : forall b t i k l, flux_bbc g0 b t i k l = 0) by (intros [|] t i' k' l'; unfold flux_bbc, vC; cbn [g_val g0]; [|reflexivity]; destruct (negb _); [reflexivity|]; destruct (_ =? _)%Z; [ring|reflexivity]).
        assert (Wb : forall b t a i, wall_bbc b t a i 0 = 0) by (intros b t a i'; unfold wall_bbc; destruct (_ && _); [ring|reflexivity]).
        rewrite !Fb. change (vS g0) with (fun _ _ : nat => 0). change (vW g0) with (fun _ _ : nat => 0). change (vE g0) with (fun _ _ : nat => 0). change (vN g0) with (fun _ _ : nat => 0). cbv beta. rewrite !Wb.
        destruct (_ && _); unfold Rdiv; ring. }
    assert (Ph0 : physical g0) by exact Hph.
    destruct c as [k l]. apply in_fl_active in Hc.
    assert (Z0 : forall k l, active g0 k l -> balanced g0 (fun _ => 0) (fun _ => 0) (fun _ => 0) k l).
    { intros k' l' Ha. unfold balanced, allsides.
      assert (E0 : forall s, enters g0 (fun _ => 0) s k' l' = 0).
      { intros s. unfold enters, at_, touches, surface, val_at. cbn [g_val g0]. destruct s; repeat match goal with |- context [if ?b then _ else _] => destruct b end; unfold Rdiv; ring. }
      rewrite !E0. unfold at_, Rdiv. ring. }
    pose proof (compare g0 U0 Ph0 _ _ _ _ _ _ Hx0 Z0 ltac:(intros; lra) ltac:(intros; lra) k l Hc) as L1.
    pose proof (compare g0 U0 Ph0 _ _ _ _ _ _ Z0 Hx0 ltac:(intros; lra) ltac:(intros; lra) k l Hc) as L2.
    unfold at_ in L1, L2. cbn [fst snd] in L1, L2. change (k + l * g_ncx g0)%nat with (cell g0 k l) in *. rewrite field_of_cell in L1, L2 by apply Hc. change (pos g0 (k, l)) with (pos g (k, l)) in *. lra. }
  destruct (kernel_solvable (neq g) (low g) (rhs_vec g src T) K) as [x Hx].
  exists (extract g x out T). split; [exists x; split; [exact Hx|reflexivity]|].
  intros o' [y [Hy ->]]. pose proof (extract_facts g x out T) as F. pose proof (extract_facts g y out T) as F'.
  destruct (extract g x out T) as [T1|], (extract g y out T) as [T2|].
  - destruct F as (F1 & F2 & F3), F' as (F1' & F2' & F3'). intros j. destruct (le_lt_dec (g_ncx g * g_ncz g) j) as [Hj|Hj]; [rewrite F3, F3' by exact Hj; reflexivity|].
    assert (Hc : (0 < g_ncx g)%nat) by (destruct (g_ncx g); lia).
    assert (Ej : j = cell g (j mod g_ncx g) (j / g_ncx g)) by (unfold cell; pose proof (Nat.div_mod j (g_ncx g)); lia).
    rewrite Ej. rewrite F1, F1' by (try (apply Nat.mod_upper_bound; lia); apply Nat.div_lt_upper_bound; lia).
    destruct (fluid g (j mod g_ncx g) (j / g_ncx g)) eqn:Ef; [|reflexivity]. apply Uniq; auto. apply in_fl. split; [|exact Ef]. split; [apply Nat.mod_upper_bound; lia|apply Nat.div_lt_upper_bound; lia].
  - destruct F as (F1 & F2 & F3), F' as (c & Hc & Hneg). specialize (F2 c Hc). rewrite (Uniq x y Hx Hy c Hc) in F2. lra.
  - destruct F' as (F1 & F2 & F3), F as (c & Hc & Hneg). specialize (F2 c Hc). rewrite <- (Uniq x y Hx Hy c Hc) in F2. lra.
  - exact I.
Qed.
Print Assumptions C68_one_outcome.

(** ** C69: bounds, order, and no negative result *)
Definition inputs_above (g : dgrid) (m : R) : Prop := forall k l s, active g k l ->
  match touches g s k l with ToValue v _ => m <= v | Flux q => q <= 0 | _ => True end.
Definition inputs_below (g : dgrid) (m : R) : Prop := forall k l s, active g k l ->
  match touches g s k l with ToValue v _ => v <= m | Flux q => 0 <= q | _ => True end.
Definition field_above (g : dgrid) (T : nat -> R) (m : R) : Prop := forall k l, active g k l -> m <= at_ g T (k, l).
Definition field_below (g : dgrid) (T : nat -> R) (m : R) : Prop := forall k l, active g k l -> at_ g T (k, l) <= m.
Definition level (g : dgrid) (m : R) (j : nat) : R :=
  - allsides (fun s => enters g (fun _ => m) s (j mod g_ncx g) (j / g_ncx g) / spacing g s).
Lemma level_at : forall g m k l, (k < g_ncx g)%nat -> at_ g (level g m) (k, l) = - allsides (fun s => enters g (fun _ => m) s k l / spacing g s).
Proof.
  intros g m k l Hk. unfold at_, level. cbn [fst snd]. rewrite Nat.mod_add, Nat.div_add by lia. rewrite Nat.mod_small, Nat.div_small by exact Hk. reflexivity.
Qed.
Lemma level_balanced : forall g m k l, active g k l -> balanced g (level g m) (fun _ => m) (fun _ => m) k l.
Proof. intros g m k l H. unfold balanced. rewrite level_at by apply H. unfold at_, Rdiv. ring. Qed.
Lemma balanced_above : forall g m src T T', usable g -> physical g -> inputs_above g m -> field_above g T m -> (forall k l, active g k l -> 0 <= at_ g src (k, l)) ->
  (forall k l, active g k l -> balanced g src T T' k l) -> field_above g T' m.
Proof.
  intros g m src T T' Hu Hph Hi Hf Hs HB k l Ha.
  apply (compare g Hu Hph (level g m) src (fun _ => m) T (fun _ => m) T' (level_balanced g m) HB Hf); [|exact Ha].
  intros k' l' Ha'. rewrite level_at by apply Ha'. specialize (Hs k' l' Ha').
  assert (K : forall s, 0 <= enters g (fun _ => m) s k' l' / spacing g s).
  { intros s. pose proof (spacing_pos g Hu s) as Hh. apply div_nonneg; [|exact Hh]. specialize (Hi k' l' s Ha'). unfold enters. destruct (touches g s k' l') as [|c a|v a|q] eqn:Et; [lra| | |lra].
    - unfold at_, Rdiv. rewrite Rminus_diag_eq by reflexivity. rewrite Rmult_0_r, Rmult_0_l. lra.
    - apply div_nonneg; [|lra]. apply Rmult_le_pos; [exact (touched_value g Hph s k' l' v a Et)|]. unfold at_. lra. }
  unfold allsides. pose proof (K South). pose proof (K West). pose proof (K East). pose proof (K North). lra.
Qed.
Lemma balanced_below : forall g m src T T', usable g -> physical g -> inputs_below g m -> field_below g T m -> (forall k l, active g k l -> at_ g src (k, l) <= 0) ->
  (forall k l, active g k l -> balanced g src T T' k l) -> field_below g T' m.
Proof.
  intros g m src T T' Hu Hph Hi Hf Hs HB k l Ha.
  apply (compare g Hu Hph src (level g m) T (fun _ => m) T' (fun _ => m) HB (level_balanced g m) Hf); [|exact Ha].
  intros k' l' Ha'. rewrite level_at by apply Ha'. specialize (Hs k' l' Ha').
  assert (K : forall s, enters g (fun _ => m) s k' l' / spacing g s <= 0).
  { intros s. pose proof (spacing_pos g Hu s) as Hh. cut (0 <= (- enters g (fun _ => m) s k' l') / spacing g s); [unfold Rdiv; lra|].
    apply div_nonneg; [|exact Hh]. specialize (Hi k' l' s Ha'). unfold enters. destruct (touches g s k' l') as [|c a|v a|q] eqn:Et; [lra| | |lra].
    - unfold at_, Rdiv. rewrite Rminus_diag_eq by reflexivity. rewrite Rmult_0_r, Rmult_0_l. lra.
    - unfold at_. replace (- (a * (v - m) / (spacing g s / 2))) with (a * (m - v) / (spacing g s / 2)) by (field; lra). apply div_nonneg; [|lra]. apply Rmult_le_pos; [exact (touched_value g Hph s k' l' v a Et)|lra]. }
  unfold allsides. pose proof (K South). pose proof (K West). pose proof (K East). pose proof (K North). lra.
Qed.
(** any outcome comes with a solution field that is balanced *)
Lemma step_field : forall g src out T o, usable g -> step g src out T o -> exists Tx, (forall k l, active g k l -> balanced g src T Tx k l) /\
  match o with Some T' => forall k l, active g k l -> at_ g T' (k, l) = at_ g Tx (k, l) | None => exists k l, active g k l /\ at_ g Tx (k, l) < 0 end.
Proof.
  intros g src out T o Hu [x [Hx ->]]. destruct Hu as (Hp & Hs & Hb). exists (field_of g x). split.
  - apply (solved_balanced g Hp Hs src T (field_of g x) x Hb); [|exact Hx]. intros k l Ha. apply field_of_cell. apply Ha.
  - pose proof (extract_facts g x out T) as F. destruct (extract g x out T) as [T'|].
    + destruct F as (F1 & _). intros k l Ha. unfold at_. cbn [fst snd]. change (k + l * g_ncx g)%nat with (cell g k l). rewrite F1 by apply Ha.
      rewrite field_of_cell by apply Ha. assert (Hf := Ha). apply in_fl_active, in_fl in Hf. destruct Hf as [_ ->]. reflexivity.
    + destruct F as ([k l] & Hc & Hn). apply in_fl_active in Hc. exists k, l. split; [exact Hc|]. unfold at_. cbn [fst snd]. change (k + l * g_ncx g)%nat with (cell g k l). rewrite field_of_cell by apply Hc. exact Hn.
Qed.

(** Lower bound: with sources that only heat, nothing becomes colder than the coldest of the old field and the
    prescribed values; the solve cannot stop on a negative value. *)
Theorem C69_no_undershoot : forall g m src out T o, usable g -> physical g -> 0 <= m -> inputs_above g m -> field_above g T m ->
  (forall k l, active g k l -> 0 <= at_ g src (k, l)) -> step g src out T o -> exists T', o = Some T' /\ field_above g T' m.
Proof.
  intros g m src out T o Hu Hph Hm Hi Hf Hs Hst. destruct (step_field g src out T o Hu Hst) as [Tx [HB Ho]].
  pose proof (balanced_above g m src T Tx Hu Hph Hi Hf Hs HB) as HA. destruct o as [T'|].
  - exists T'. split; [reflexivity|]. intros k l Ha. rewrite Ho by exact Ha. now apply HA.
  - destruct Ho as (k & l & Ha & Hn). specialize (HA k l Ha). lra.
Qed.
Print Assumptions C69_no_undershoot.

(** Upper bound without heating sources. *)
Theorem C69_no_overshoot : forall g m src out T T', usable g -> physical g -> inputs_below g m -> field_below g T m ->
  (forall k l, active g k l -> at_ g src (k, l) <= 0) -> step g src out T (Some T') -> field_below g T' m.
Proof.
  intros g m src out T T' Hu Hph Hi Hf Hs Hst. destruct (step_field g src out T (Some T') Hu Hst) as [Tx [HB Ho]].
  pose proof (balanced_below g m src T Tx Hu Hph Hi Hf Hs HB) as HA. intros k l Ha. rewrite Ho by exact Ha. now apply HA.
Qed.
Print Assumptions C69_no_overshoot.

(** Any number of source-free solves in a row. *)
Theorem C69_all_steps_bounded : forall g m M out n T o, usable g -> physical g -> 0 <= m -> inputs_above g m -> inputs_below g M ->
  field_above g T m -> field_below g T M -> steps g (fun _ _ => 0) out n T o -> exists T', o = Some T' /\ field_above g T' m /\ field_below g T' M.
Proof.
  intros g m M out n T o Hu Hph Hm Hi Hi' Hf Hf' H. revert Hf Hf'.
  induction H as [T|n T T1 T2 H1 H2 IH|n T H1]; intros Hf Hf'.
  - eauto.
  - apply IH.
    + destruct (C69_no_undershoot g m (fun _ => 0) out T _ Hu Hph Hm Hi Hf ltac:(intros; unfold at_; lra) H1) as [T' [E HA]]. injection E as <-. exact HA.
    + exact (C69_no_overshoot g M (fun _ => 0) out T T1 Hu Hph Hi' Hf' ltac:(intros; unfold at_; lra) H1).
  - destruct (C69_no_undershoot g m (fun _ => 0) out T _ Hu Hph Hm Hi Hf ltac:(intros; unfold at_; lra) H1) as [T' [E _]]. discriminate.
Qed.
Print Assumptions C69_all_steps_bounded.

(** A hotter start and stronger sources give a result that is nowhere colder. *)
Theorem C69_order_kept : forall g src1 src2 out T1 T2 T1' T2', usable g -> physical g ->
  (forall k l, active g k l -> at_ g T1 (k, l) <= at_ g T2 (k, l)) -> (forall k l, active g k l -> at_ g src1 (k, l) <= at_ g src2 (k, l)) ->
  step g src1 out T1 (Some T1') -> step g src2 out T2 (Some T2') -> forall k l, active g k l -> at_ g T1' (k, l) <= at_ g T2' (k, l).
Proof.
  intros g src1 src2 out T1 T2 T1' T2' Hu Hph H0 Hs S1 S2 k l Ha.
  apply (compare g Hu Hph src1 src2 T1 T2 T1' T2'); try assumption; intros k' l' Ha'.
  - now apply (C68_heat_balance g src1 out T1 T1' Hu S1).
  - now apply (C68_heat_balance g src2 out T2 T2' Hu S2).
Qed.
Print Assumptions C69_order_kept.

(** ** C70: conservation and the matrix *)
(** all cells that are not air, line by line *)
Definition body (g : dgrid) : list (nat * nat) :=
  filter (fun c => negb (air_at g (fst c + 1) (snd c + 1))) (flat_map (fun l => map (fun k => (k, l)) (seq 0 (g_ncx g))) (seq 0 (g_ncz g))).
(** heat entering through a side that is not shared with another cell *)
Definition from_outside (g : dgrid) (T : nat -> R) (s : side) (k l : nat) : R :=
  match touches g s k l with ToCell _ _ => 0 | _ => enters g T s k l end.
Lemma outside_affine : forall g T s k l, from_outside g T s k l = from_outside g (fun _ => 0) s k l * (1 - at_ g T (k, l)) + from_outside g (fun _ => 1) s k l * at_ g T (k, l).
Proof. intros g T s k l. unfold from_outside, enters. destruct (touches g s k l); unfold at_, Rdiv; ring. Qed.
Lemma const_outside : forall g a s k l, enters g (fun _ => a) s k l = from_outside g (fun _ => a) s k l.
Proof. intros g a s k l. unfold from_outside. destruct (touches g s k l) eqn:E; try reflexivity. unfold enters. rewrite E. unfold at_, Rdiv. ring. Qed.

Section Matrix.
  Variable g : dgrid.
  Hypothesis Hp : periodic_ok g.
  Hypothesis Hs : spacings_ok g.
  Hypothesis Hb : bottom_ok g.
  Lemma bbc_outside : forall k l, active g k l -> bbc g k l = allsides (fun s => from_outside g (fun _ => 0) s k l / spacing g s).
  Proof.
    intros k l Ha. pose proof (row_action g Hp Hs (fun _ => 0) (fun _ => 0) k l ltac:(intros ? ? ?; reflexivity) Ha Hb) as H.
    assert (D : forall r, dot r (fun _ => 0) = 0) by (induction r as [|e r IH]; [reflexivity|]; cbn [dot fold_right]; fold (dot r (fun _ => 0)); rewrite IH; ring).
    rewrite D, Rmult_0_r in H. unfold allsides in *. rewrite <- !const_outside. lra.
  Qed.
  Definition rowsum (c : nat * nat) : R := dot (row g (fst c) (snd c)) (fun _ => 1).
  Lemma rowsum_eq : forall k l, active g k l -> rowsum (k, l) = g_rc g (cell g k l) / g_dt g
    + allsides (fun s => (from_outside g (fun _ => 0) s k l - from_outside g (fun _ => 1) s k l) / spacing g s).
  Proof.
    intros k l Ha. pose proof (row_action g Hp Hs (fun _ => 1) (fun _ => 1) k l ltac:(intros ? ? ?; reflexivity) Ha Hb) as H.
    rewrite bbc_outside in H by exact Ha. unfold rowsum. cbn [fst snd]. unfold allsides, Rdiv, Rminus in *. rewrite !const_outside in H. rewrite !Rmult_plus_distr_r. lra.
  Qed.
  Lemma M_rowsum : forall c, In c (fl g) -> lsum (fun c' => M g c c') (fl g) = rowsum c.
  Proof. intros c Hc. unfold rowsum. change (fun _ : Z => 1) with (byeq (fun _ => 1)). rewrite <- (Mx g Hp c (fun _ => 1) Hc). apply lsum_ext. intros. ring. Qed.
  Lemma sum_rows : forall x, lsum (fun c => dot (row g (fst c) (snd c)) (byeq x)) (fl g) = lsum (fun c => rowsum c * x (pos g c)) (fl g).
  Proof.
    intros x. rewrite (lsum_ext _ _ (fun c => lsum (fun c' => M g c c' * x (pos g c')) (fl g))) by (intros c Hc; symmetry; now apply Mx).
    rewrite lsum_swap. apply lsum_ext. intros c' Hc'. rewrite <- M_rowsum by exact Hc'.
    rewrite (lsum_ext _ _ (fun c => x (pos g c') * M g c' c)) by (intros c Hc; rewrite (M_sym g Hp c c') by assumption; ring). rewrite lsum_scal. apply Rmult_comm.
  Qed.
  (** the quadratic form *)
  Lemma quad_form : forall x, lsum (fun c => x (pos g c) * dot (row g (fst c) (snd c)) (byeq x)) (fl g)
    = lsum (fun c => rowsum c * (x (pos g c) * x (pos g c))) (fl g) + / 2 * lsum (fun c => lsum (fun c' => - M g c c' * ((x (pos g c) - x (pos g c')) * (x (pos g c) - x (pos g c')))) (fl g)) (fl g).
  Proof.
    intros x. set (u := fun c => x (pos g c)). change (fun c => x (pos g c) * dot (row g (fst c) (snd c)) (byeq x)) with (fun c => u c * dot (row g (fst c) (snd c)) (byeq x)).
    rewrite (lsum_ext _ (fun c => u c * dot (row g (fst c) (snd c)) (byeq x)) (fun c => lsum (fun c' => M g c c' * (u c * u c')) (fl g)))
      by (intros c Hc; rewrite <- (Mx g Hp c x Hc), <- lsum_scal; apply lsum_ext; intros; unfold u; ring).
    assert (E : lsum (fun c => lsum (fun c' => - M g c c' * ((x (pos g c) - x (pos g c')) * (x (pos g c) - x (pos g c')))) (fl g)) (fl g)
      = 2 * lsum (fun c => lsum (fun c' => M g c c' * (u c * u c')) (fl g)) (fl g) - lsum (fun c => rowsum c * (u c * u c)) (fl g) - lsum (fun c => rowsum c * (u c * u c)) (fl g)).
    { rewrite (lsum_ext _ _ (fun c => lsum (fun c' => 2 * (M g c c' * (u c * u c'))) (fl g) + (lsum (fun c' => (- (u c * u c)) * M g c c') (fl g) + lsum (fun c' => - (M g c c' * (u c' * u c'))) (fl g)))).
      2:{ intros c Hc. rewrite <- !lsum_plus. apply lsum_ext. intros c' Hc'. unfold u. ring. }
      rewrite !lsum_plus. rewrite (lsum_ext _ (fun c => lsum (fun c' => 2 * (M g c c' * (u c * u c'))) (fl g)) (fun c => 2 * lsum (fun c' => M g c c' * (u c * u c')) (fl g))) by (intros; apply lsum_scal).
      rewrite lsum_scal.
      assert (E1 : lsum (fun c => lsum (fun c' => - (u c * u c) * M g c c') (fl g)) (fl g) = - lsum (fun c => rowsum c * (u c * u c)) (fl g)).
      { replace (- lsum (fun c => rowsum c * (u c * u c)) (fl g)) with (-1 * lsum (fun c => rowsum c * (u c * u c)) (fl g)) by ring. rewrite <- lsum_scal. apply lsum_ext. intros c Hc. rewrite lsum_scal, M_rowsum by exact Hc. ring. }
      assert (E2 : lsum (fun c => lsum (fun c' => - (M g c c' * (u c' * u c'))) (fl g)) (fl g) = - lsum (fun c => rowsum c * (u c * u c)) (fl g)).
      { rewrite lsum_swap. replace (- lsum (fun c => rowsum c * (u c * u c)) (fl g)) with (-1 * lsum (fun c => rowsum c * (u c * u c)) (fl g)) by ring. rewrite <- lsum_scal. apply lsum_ext. intros c Hc.
        rewrite (lsum_ext _ _ (fun d => (- (u c * u c)) * M g c d)) by (intros d Hd; rewrite (M_sym g Hp d c) by assumption; ring). rewrite lsum_scal, M_rowsum by exact Hc. ring. }
      rewrite E1, E2. ring. }
    rewrite E. unfold u. field.
  Qed.
End Matrix.

(** Heat only enters or leaves through the outer sides: what cells exchange cancels exactly. *)
Theorem C70_heat_conserved : forall g src out T T', usable g -> step g src out T (Some T') ->
  lsum (fun c => at_ g (g_rc g) c * at_ g T' c) (body g) - lsum (fun c => at_ g (g_rc g) c * at_ g T c) (body g)
  = g_dt g * lsum (fun c => allsides (fun s => from_outside g T' s (fst c) (snd c) / spacing g s) + at_ g src c) (body g).
Proof.
  intros g src out T T' Hu Hst. assert (Hu' := Hu). destruct Hu' as (Hp & Hs & Hb).
  change (body g) with (fl g).
  destruct Hst as [x [Hx HT]]. pose proof (extract_facts g x out T) as F. rewrite <- HT in F. destruct F as (F1 & _ & _).
  assert (HT' : forall c, In c (fl g) -> at_ g T' c = x (pos g c)).
  { intros [k l] Hc. assert (Hf := Hc). apply in_fl in Hf. destruct Hf as [[Hk Hl] Hf]. unfold at_. cbn [fst snd]. change (k + l * g_ncx g)%nat with (cell g k l). rewrite F1 by assumption. now rewrite Hf. }
  pose proof (proj1 (solved_rows g Hp x (rhs_vec g src T)) Hx) as Hr. pose proof (sum_rows g Hp x) as HS.
  rewrite (lsum_ext _ _ (fun c => rhs0 g src T (fst c) (snd c) + bbc g (fst c) (snd c))) in HS by (intros c Hc; rewrite Hr, rhs_at by exact Hc; reflexivity).
  rewrite (lsum_ext _ (fun c => rowsum g c * x (pos g c)) (fun c => / g_dt g * (at_ g (g_rc g) c * at_ g T' c) + (bbc g (fst c) (snd c) - allsides (fun s => from_outside g T' s (fst c) (snd c) / spacing g s)))) in HS.
  2:{ intros [k l] Hc. rewrite <- HT' by exact Hc. apply in_fl_active in Hc. rewrite rowsum_eq, bbc_outside by assumption. cbn [fst snd]. unfold allsides.
      rewrite !(outside_affine g T'). change (cell g k l) with (k + l * g_ncx g)%nat. change (g_rc g (k + l * g_ncx g)%nat) with (at_ g (g_rc g) (k, l)). unfold Rdiv. ring. }
  rewrite (lsum_ext _ (fun c => rhs0 g src T (fst c) (snd c) + bbc g (fst c) (snd c)) (fun c => / g_dt g * (at_ g (g_rc g) c * at_ g T c) + (at_ g src c + bbc g (fst c) (snd c)))) in HS
    by (intros [k l] _; unfold rhs0, at_; cbn [fst snd]; change (cell g k l) with (k + l * g_ncx g)%nat; unfold Rdiv; ring).
  rewrite !lsum_plus, !lsum_scal in HS.
  rewrite (lsum_ext _ (fun c => bbc g (fst c) (snd c) - allsides (fun s => from_outside g T' s (fst c) (snd c) / spacing g s)) (fun c => bbc g (fst c) (snd c) + (-1) * allsides (fun s => from_outside g T' s (fst c) (snd c) / spacing g s))) in HS by (intros; ring).
  rewrite lsum_plus, lsum_scal in HS. rewrite lsum_plus. destruct Hs as (_ & _ & S3).
  set (A := lsum (fun c => at_ g (g_rc g) c * at_ g T' c) (fl g)) in *. set (B := lsum (fun c => at_ g (g_rc g) c * at_ g T c) (fl g)) in *.
  match goal with |- _ = g_dt g * (?P + ?Q) => set (P' := P) in *; set (Q' := Q) in * end.
  assert (HS' : / g_dt g * (A - B) = P' + Q') by lra. rewrite <- HS'. field. lra.
Qed.
Print Assumptions C70_heat_conserved.

(** The matrix handed to the Cholesky factorisation is symmetric and positive definite. *)
Theorem C70_positive_definite : forall g, usable g -> physical g ->
  (forall i j, (i < neq g)%nat -> (j < neq g)%nat -> low g i j = coef (csr_row g i) (Z.of_nat j)) /\
  (forall x, (exists i, (i < neq g)%nat /\ x i <> 0) -> 0 < sumn (neq g) (fun i => x i * sumn (neq g) (fun j => low g i j * x j))).
Proof.
  intros g Hu Hph. assert (Hu' := Hu). destruct Hu' as (Hp & Hs & Hb). split.
  - intros i j Hi Hj. destruct (pos_surj g i Hi) as [c [Hc <-]], (pos_surj g j Hj) as [d [Hd <-]].
    rewrite (low_M g Hp c d Hc Hd), csr_is_row by exact Hc. destruct (eqn_pos g d Hd) as [<- _]. reflexivity.
  - intros x [i [Hi Hne]]. rewrite sum_fl.
    rewrite (lsum_ext _ _ (fun c => x (pos g c) * dot (row g (fst c) (snd c)) (byeq x))).
    2:{ intros c Hc. rewrite sum_fl, <- (Mx g Hp c x Hc). f_equal. apply lsum_ext. intros d Hd. rewrite (low_M g Hp) by assumption. reflexivity. }
    rewrite quad_form by exact Hp.
    assert (R0 : forall c, In c (fl g) -> 0 < rowsum g c).
    { intros [k l] Hc. apply in_fl_active in Hc. rewrite rowsum_eq by assumption.
      assert (K : forall s, 0 <= (from_outside g (fun _ => 0) s k l - from_outside g (fun _ => 1) s k l) / spacing g s).
      { intros s. pose proof (spacing_pos g Hu s) as Hh. apply div_nonneg; [|exact Hh]. unfold from_outside, enters. destruct (touches g s k l) as [|c a|v a|q] eqn:Et; try lra.
        pose proof (touched_value g Hph s k l v a Et) as Hpos. unfold at_. replace (a * (v - 0) / (spacing g s / 2) - a * (v - 1) / (spacing g s / 2)) with (a / (spacing g s / 2)) by (field; lra). apply div_nonneg; lra. }
      unfold allsides. pose proof (K South). pose proof (K West). pose proof (K East). pose proof (K North).
      destruct Hph as (_ & _ & _ & P4). specialize (P4 k l Hc). destruct Hs as (_ & _ & S3). assert (0 < g_rc g (cell g k l) / g_dt g) by (apply Rdiv_lt_0_compat; [exact P4|exact S3]). lra. }
    destruct (pos_surj g i Hi) as [c [Hc <-]].
    assert (P1 : 0 < lsum (fun c => rowsum g c * (x (pos g c) * x (pos g c))) (fl g)).
    { apply lsum_pos with (c := c); [|exact Hc|].
      - intros d Hd. specialize (R0 d Hd). apply Rmult_le_pos; [lra|]. apply Rle_0_sqr.
      - apply Rmult_lt_0_compat; [now apply R0|]. now apply Rlt_0_sqr. }
    assert (P2 : 0 <= lsum (fun c => lsum (fun c' => - M g c c' * ((x (pos g c) - x (pos g c')) * (x (pos g c) - x (pos g c')))) (fl g)) (fl g)).
    { apply lsum_nonneg. intros d Hd. apply lsum_nonneg. intros e He. destruct (peq_spec d e) as [->|Hde]; [right; ring|].
      apply Rmult_le_pos; [|apply Rle_0_sqr]. destruct d as [k l], e as [k' l']. apply in_fl_active in Hd, He. rewrite (M_parts g Hp k l k' l' Hd He).
      assert (D0 : cD g (k, l) (k', l') = 0) by (unfold cD; destruct (peq_spec (k, l) (k', l')); [contradiction|reflexivity]). rewrite D0.
      destruct Hs as (S1 & S2 & S3). destruct Hph as (Q1 & Q2 & _).
      assert (IX : 0 <= idx2 g) by (unfold idx2; apply div_nonneg; [|exact S1]; apply div_nonneg; lra).
      assert (IZ : 0 <= idz2 g) by (unfold idz2; apply div_nonneg; [|exact S2]; apply div_nonneg; lra).
      assert (Z : forall (b : bool) a i, 0 <= a -> 0 <= i -> (if b then - (1) * a * i else 0) <= 0) by (intros [|] a i' Ha Hi'; [pose proof (Rmult_le_pos a i' Ha Hi'); lra|lra]).
      assert (z1 : cS g (k, l) (k', l') <= 0) by (unfold cS; apply Z; [rewrite AS_at; apply Q2|exact IZ]).
      assert (z2 : cN g (k, l) (k', l') <= 0) by (unfold cN; apply Z; [rewrite AN_at; apply Q2|exact IZ]).
      assert (z3 : cW g (k, l) (k', l') <= 0) by (unfold cW; apply Z; [apply Q1|exact IX]).
      assert (z4 : cE g (k, l) (k', l') <= 0) by (unfold cE; apply Z; [rewrite AE_at; apply Q1|exact IX]).
      assert (z5 : cpW g (k, l) (k', l') <= 0) by (unfold cpW; apply Z; [apply Q1|exact IX]).
      assert (z6 : cpE g (k, l) (k', l') <= 0) by (unfold cpE; apply Z; [rewrite AE_at; apply Q1|exact IX]).
      lra. }
    lra.
Qed.
Print Assumptions C70_positive_definite.

(** Storage: at most five entries per equation (the size of the arrays), every column is an equation. *)
Theorem C70_storage : forall g, periodic_ok g ->
  (length (fst (assemble g)) <= 5 * neq g)%nat /\ snd (assemble g) (neq g) = length (fst (assemble g)) /\
  (forall i, (i < neq g)%nat -> (snd (assemble g) i <= snd (assemble g) (S i))%nat) /\
  (forall e, In e (fst (assemble g)) -> (0 <= fst e < Z.of_nat (neq g))%Z).
Proof.
  intros g Hp. destruct (asm_facts g) as [H1 H2]. destruct (number_facts g) as (HN & _ & _). repeat split.
  - rewrite H1, HN. generalize (fl g). intros L. induction L as [|[k l] L IH]; [cbn; lia|]. cbn [map concat length fst snd]. rewrite app_length. pose proof (row_le5 g k l). lia.
  - rewrite H2 by lia. rewrite HN, firstn_all. now rewrite H1.
  - intros i Hi. rewrite !H2 by lia. clear. revert i. generalize (fl g). intros L. induction L as [|c L IH]; intros i; [destruct i; cbn; lia|].
    destruct i as [|i]; [cbn [firstn map concat length]; lia|]. specialize (IH i). cbn [firstn map concat]. cbn [firstn] in IH. rewrite !app_length. destruct L; cbn [firstn] in *; lia.
  - rewrite H1 in H. apply in_concat in H. destruct H as [r [Hr He]]. apply in_map_iff in Hr. destruct Hr as [[k l] [<- Hc]]. apply in_fl_active in Hc. cbn [fst snd] in He.
    destruct (row_cols g Hp k l e Hc He) as [c [Hc' ->]]. destruct (eqn_pos g c Hc') as [-> _]. lia.
  - rewrite H1 in H. apply in_concat in H. destruct H as [r [Hr He]]. apply in_map_iff in Hr. destruct Hr as [[k l] [<- Hc]]. apply in_fl_active in Hc. cbn [fst snd] in He.
    destruct (row_cols g Hp k l e Hc He) as [c [Hc' ->]]. destruct (eqn_pos g c Hc') as [-> Hlt]. lia.
Qed.
Print Assumptions C70_storage.

(** ** Concrete grids *)
(** Two by two cells, the upper right one air, its neighbours tagged as surface cells; temperature prescribed on
    top, heat flux from below, closed sides. *)
Definition g_ex : dgrid := Dgrid 2 2 1 1 1
  (fun j => nth j [0;0;0;0;  0;-1;1;0;  0;1;30;0;  0;1;1;0]%Z 0%Z)
  (fun j => if Nat.ltb j 4 then -1 else if Nat.ltb j 12 then 1 / 2 else 2) (fun _ => 1) (fun _ => 1) (fun _ => 3) (1 / 10).
Lemma g_ex_periodic : periodic_ok g_ex.
Proof. intros l Hl. cbn in Hl. destruct l as [|[|l]]; [| |lia]; (split; [split; intros E; discriminate|intros E; discriminate]). Qed.
Lemma g_ex_usable : usable g_ex.
Proof. split; [exact g_ex_periodic|]. split; [repeat split; cbn; lra|]. intros k _ _. right. reflexivity. Qed.
Lemma g_ex_physical : physical g_ex.
Proof. repeat split; intros; unfold kvert, khoriz, at_; cbn [g_kx g_kz g_rc g_mink g_ex]; lra. Qed.
Lemma g_ex_inputs : inputs_above g_ex 0.
Proof.
  intros k l s (Hk & Hl & Ha). cbn [g_ncx g_ncz g_ex] in Hk, Hl.
  destruct k as [|[|k]]; [| |lia]; (destruct l as [|[|l]]; [| |lia]); destruct s; unfold touches, surface, flag_at, val_at, air_at; cbn; try exact I; lra.
Qed.
Example C68_ex : usable g_ex /\ physical g_ex /\ neq g_ex = 3%nat /\ exists T', step g_ex (fun _ => 1) 0 (fun _ => 5) (Some T').
Proof.
  split; [exact g_ex_usable|]. split; [exact g_ex_physical|]. split; [vm_compute; reflexivity|].
  destruct (C68_one_outcome g_ex (fun _ => 1) 0 (fun _ => 5) g_ex_usable g_ex_physical) as [o [Ho _]].
  destruct (C69_no_undershoot g_ex 0 (fun _ => 1) 0 (fun _ => 5) o g_ex_usable g_ex_physical ltac:(lra) g_ex_inputs ltac:(intros k l _; unfold at_; lra) ltac:(intros; unfold at_; lra) Ho) as [T' [-> _]].
  exists T'. exact Ho.
Qed.
(** A closed box of three periodic columns: no heat can leave. *)
Definition g_box (kw ke : R) : dgrid := Dgrid 3 1 1 1 1
  (fun j => nth j [2;2;2;2;2;  -2;-1;-1;-1;-2;  2;2;2;2;2]%Z 2%Z) (fun _ => 0)
  (fun j => if Nat.eqb j 4 then kw else if Nat.eqb j 7 then ke else 1) (fun _ => 1) (fun _ => 1) 0.
Example C70_ex : usable (g_box 1 1) /\ physical (g_box 1 1) /\ neq (g_box 1 1) = 3%nat /\ periodic_ok (g_box 1 1) /\ flag_at (g_box 1 1) 0 1 = (-2)%Z.
Proof.
  assert (P : periodic_ok (g_box 1 1)).
  { intros l Hl. cbn in Hl. assert (l = 0%nat) by lia. subst l. split; [cbn; tauto|]. intros _. repeat split; cbn; lia || reflexivity. }
  split; [split; [exact P|]; split; [repeat split; cbn; lra|]; intros k _ _; left; reflexivity|].
  split.
  { repeat split; intros; unfold kvert, khoriz, at_; cbn [g_kx g_kz g_rc g_mink g_box]; try lra.
    destruct (Nat.eqb _ 4); [lra|]. destruct (Nat.eqb _ 7); lra. }
  split; [vm_compute; reflexivity|]. split; [exact P|reflexivity].
Qed.
Example C69_ex : inputs_above g_ex 0 /\ field_above g_ex (fun _ => 5) 0 /\ inputs_below (g_box 1 1) 7 /\ field_below (g_box 1 1) (fun _ => 5) 7.
Proof.
  split; [exact g_ex_inputs|]. split; [intros k l _; unfold at_; lra|]. split; [|intros k l _; unfold at_; lra].
  intros k l s (Hk & Hl & Ha). cbn [g_ncx g_ncz g_box] in Hk, Hl. assert (l = 0%nat) by lia. subst l.
  destruct k as [|[|[|k]]]; [| | |lia]; destruct s; unfold touches, surface, flag_at, val_at, air_at; cbn; exact I.
Qed.

(** ** What the code does not do *)
Lemma g_box_pos : forall kw ke k, (k < 3)%nat -> In (k, 0%nat) (fl (g_box kw ke)) /\ pos (g_box kw ke) (k, 0%nat) = k.
Proof. intros kw ke k Hk. destruct k as [|[|[|k]]]; [| | |lia]; (split; [cbn; tauto|reflexivity]). Qed.
Lemma g_box_rows : forall kw ke,
  row (g_box kw ke) 0 0 = [(0%Z, diag (g_box kw ke) 0 0); (1%Z, - (1) * 1 * idx2 (g_box kw ke)); (2%Z, - (1) * kw * idx2 (g_box kw ke))] /\
  row (g_box kw ke) 1 0 = [(0%Z, - (1) * 1 * idx2 (g_box kw ke)); (1%Z, diag (g_box kw ke) 1 0); (2%Z, - (1) * 1 * idx2 (g_box kw ke))] /\
  row (g_box kw ke) 2 0 = [(0%Z, - (1) * ke * idx2 (g_box kw ke)); (1%Z, - (1) * 1 * idx2 (g_box kw ke)); (2%Z, diag (g_box kw ke) 2 0)].
Proof. intros. repeat split. Qed.
Lemma g_box_diag : forall kw ke, diag (g_box kw ke) 0 0 = 2 + kw /\ diag (g_box kw ke) 1 0 = 3 /\ diag (g_box kw ke) 2 0 = 2 + ke /\ idx2 (g_box kw ke) = 1.
Proof.
  intros. unfold diag, flux_val, wall_val, onW, onE, AW, AE, AS, AN, idx2, idz2. cbn. repeat split; field.
Qed.
(** Periodic sides whose end conductivities differ (they are computed from the markers of each side
    separately): a body of uniform temperature 13, closed and without sources, comes out at 24, 19 and 20. *)
Theorem C68_periodic_ends_refuted : exists g T', (forall i, 0 < g_kx g i) /\ (forall i, 0 < g_kz g i) /\ spacings_ok g /\ bottom_ok g /\
  (forall l, (l < g_ncz g)%nat -> flag_at g 0 (l + 1) = (-2)%Z /\ flag_at g (g_ncx g + 1) (l + 1) = (-2)%Z) /\
  (forall k l s, active g k l -> from_outside g T' s k l = 0) /\
  step g (fun _ => 0) 0 (fun _ => 13) (Some T') /\ at_ g T' (0, 0)%nat = 24 /\ at_ g T' (1, 0)%nat = 19 /\ at_ g T' (2, 0)%nat = 20.
Proof.
  set (x := fun i : nat => match i with 0%nat => 24 | 1%nat => 19 | _ => 20 end). set (g := g_box 1 2).
  assert (Hf : exists T', extract g x 0 (fun _ => 13) = Some T').
  { pose proof (extract_facts g x 0 (fun _ => 13)) as F. destruct (extract g x 0 (fun _ => 13)) as [T'|]; [eauto|].
    destruct F as (c & _ & Hn). exfalso. unfold x in Hn. destruct (pos g c) as [|[|n]]; lra. }
  destruct Hf as [T' HT]. exists g, T'. pose proof (extract_facts g x 0 (fun _ => 13)) as F. rewrite HT in F. destruct F as (F1 & _ & _).
  split; [intros i; cbn [g_kx g_box g]; destruct (Nat.eqb i 4); [lra|]; destruct (Nat.eqb i 7); lra|].
  split; [intros i; cbn; lra|]. split; [repeat split; cbn; lra|]. split; [intros k _ _; left; reflexivity|].
  split; [intros l Hl; cbn in Hl; assert (l = 0%nat) by lia; subst l; split; reflexivity|].
  split.
  { intros k l s (Hk & Hl & _). cbn in Hk, Hl. assert (l = 0%nat) by lia. subst l.
    destruct k as [|[|[|k]]]; [| | |lia]; destruct s; unfold from_outside, enters, touches, surface, flag_at, val_at, air_at; cbn; reflexivity. }
  split.
  - exists x. split; [|symmetry; exact HT]. intros i Hi. change (neq g) with 3%nat in *.
    destruct (g_box_rows 1 2) as (R0 & R1 & R2). destruct (g_box_diag 1 2) as (D0 & D1 & D2 & DX).
    destruct (g_box_pos 1 2 0 ltac:(lia)) as [I0 P0], (g_box_pos 1 2 1 ltac:(lia)) as [I1 P1], (g_box_pos 1 2 2 ltac:(lia)) as [I2 P2].
    pose proof (csr_is_row g _ I0) as C0. pose proof (csr_is_row g _ I1) as C1. pose proof (csr_is_row g _ I2) as C2. fold g in P0, P1, P2, R0, R1, R2, D0, D1, D2, DX.
    rewrite P0 in C0. rewrite P1 in C1. rewrite P2 in C2. cbn [fst snd] in C0, C1, C2. rewrite R0, D0, DX in C0. rewrite R1, D1, DX in C1. rewrite R2, D2, DX in C2.
    pose proof (rhs_at g (fun _ => 0) (fun _ => 13) _ I0) as H0. pose proof (rhs_at g (fun _ => 0) (fun _ => 13) _ I1) as H1. pose proof (rhs_at g (fun _ => 0) (fun _ => 13) _ I2) as H2.
    rewrite P0 in H0. rewrite P1 in H1. rewrite P2 in H2.
    unfold sumn, low. cbn [seq fold_right].
    destruct i as [|[|[|i]]]; [rewrite H0|rewrite H1|rewrite H2|lia]; cbn [Nat.leb]; rewrite ?C0, ?C1, ?C2; unfold coef, rhs0, bbc, flux_bbc, wall_bbc, x; cbn; field.
  - unfold at_. cbn [fst snd]. pose proof (F1 0%nat 0%nat ltac:(cbn; lia) ltac:(cbn; lia)) as E0. pose proof (F1 1%nat 0%nat ltac:(cbn; lia) ltac:(cbn; lia)) as E1. pose proof (F1 2%nat 0%nat ltac:(cbn; lia) ltac:(cbn; lia)) as E2.
    repeat split; assumption.
Qed.
Print Assumptions C68_periodic_ends_refuted.

(** The bottom heat flux is divided by the horizontal spacing: a column one high and two wide, heated from below
    by a unit flux for a unit time, gains one half instead of one. *)
Definition g_one : dgrid := Dgrid 1 1 2 1 1 (fun j => nth j [2;0;2; 2;-1;2; 2;2;2]%Z 2%Z) (fun _ => -1) (fun _ => 1) (fun _ => 1) (fun _ => 1) 0.
Theorem C68_bottom_flux_refuted : exists g T', periodic_ok g /\ spacings_ok g /\ physical g /\ step g (fun _ => 0) 0 (fun _ => 0) (Some T') /\
  active g 0 0 /\ touches g South 0 0 = Flux (-1) /\ (forall s, s <> South -> touches g s 0 0 = Closed) /\
  at_ g T' (0, 0)%nat = 1 / 2 /\ ~ balanced g (fun _ => 0) (fun _ => 0) T' 0 0.
Proof.
  set (x := fun _ : nat => 1 / 2).
  assert (P : periodic_ok g_one) by (intros l Hl; cbn in Hl; assert (l = 0%nat) by lia; subst l; split; [split; intros E; discriminate|intros E; discriminate]).
  assert (Hf : exists T', extract g_one x 0 (fun _ => 0) = Some T').
  { pose proof (extract_facts g_one x 0 (fun _ => 0)) as F. destruct (extract g_one x 0 (fun _ => 0)) as [T'|]; [eauto|]. destruct F as (c & _ & Hn). exfalso. unfold x in Hn. lra. }
  destruct Hf as [T' HT]. exists g_one, T'. pose proof (extract_facts g_one x 0 (fun _ => 0)) as F. rewrite HT in F. destruct F as (F1 & _ & _).
  assert (E : at_ g_one T' (0, 0)%nat = 1 / 2) by (specialize (F1 0%nat 0%nat ltac:(cbn; lia) ltac:(cbn; lia)); exact F1).
  split; [exact P|]. split; [repeat split; cbn; lra|]. split; [repeat split; intros; unfold kvert, khoriz, at_; cbn [g_kx g_kz g_rc g_mink g_one]; lra|].
  split.
  - exists x. split; [|symmetry; exact HT]. apply (solved_rows g_one P). intros c Hc. assert (Ec : c = (0, 0)%nat) by (cbn in Hc; destruct Hc as [<-|[]]; reflexivity). subst c.
    rewrite rhs_at by exact Hc. cbn [fst snd].
    assert (R : row g_one 0 0 = [(0%Z, diag g_one 0 0)]) by reflexivity. rewrite R.
    assert (D : diag g_one 0 0 = 1) by (unfold diag, flux_val, wall_val, onW, onE; cbn; field). rewrite D.
    unfold dot, byeq, x, rhs0, bbc, flux_bbc, wall_bbc, onW, onE. cbn. field.
  - split; [repeat split; cbn; lia|]. split; [reflexivity|]. split; [intros [] Hs; try reflexivity; congruence|]. split; [exact E|].
    unfold balanced, allsides, enters. change (touches g_one South 0 0) with (Flux (-1)). change (touches g_one West 0 0) with Closed. change (touches g_one East 0 0) with Closed. change (touches g_one North 0 0) with Closed.
    rewrite E. unfold at_. cbn [g_rc g_dt g_one spacing g_dz g_dx]. lra.
Qed.
Print Assumptions C68_bottom_flux_refuted.

(** A periodic line whose last cell is air: the first cell's row refers to the equation -1. *)
Definition g_air : dgrid := Dgrid 3 1 1 1 1 (fun j => nth j [2;2;2;2;2;  -2;-1;-1;30;-2;  2;2;2;2;2]%Z 2%Z) (fun _ => 0) (fun _ => 1) (fun _ => 1) (fun _ => 1) 0.
Theorem C70_periodic_air_refuted : exists g e, spacings_ok g /\ physical g /\ bottom_ok g /\
  (forall l, (l < g_ncz g)%nat -> flag_at g 0 (l + 1) = (-2)%Z /\ flag_at g (g_ncx g + 1) (l + 1) = (-2)%Z /\ kvert g 0 l = kvert g (g_ncx g) l) /\
  In e (fst (assemble g)) /\ fst e = (-1)%Z.
Proof.
  exists g_air, ((-1)%Z, - (1) * 1 * idx2 g_air). split; [repeat split; cbn; lra|]. split; [repeat split; intros; unfold kvert, khoriz, at_; cbn [g_kx g_kz g_rc g_mink g_air]; lra|].
  split; [intros k _ _; left; reflexivity|]. split; [intros l Hl; cbn in Hl; assert (l = 0%nat) by lia; subst l; repeat split|].
  split; [|reflexivity]. rewrite (proj1 (asm_facts g_air)). apply in_concat. exists (row g_air 0 0). split.
  - apply in_map_iff. exists (0, 0)%nat. split; [reflexivity|]. cbn. tauto.
  - right. right. left. reflexivity.
Qed.
Print Assumptions C70_periodic_air_refuted.
