(** * C119, C120: functions given by the set-up *)
From Coq Require Import Reals ZArith List Bool Arith Lia Lra FinFun.
From Verif Require Import CallbackModel.
Import ListNotations.
Local Open Scope nat_scope.

(** ** C119: required functions *)

(** What a run needs: both structures, both velocity functions, the topography with a free surface, the temperature
    function if the temperature is prescribed. *)
Definition complete (s : setup) (o : options) : Prop :=
  s_parts s <> None /\ (exists b, s_bcs s = Some b /\ b_vx b = true /\ b_vz b = true /\ (x_fix o = 1%Z -> b_fix b = true)) /\
  (x_free_surface o = 1%Z -> s_topo s <> None).

Lemma use_all_ran : forall s l, use_all s l = RanThrough <-> (forall u, In u l -> given s u = true).
Proof.
  intros s. induction l as [|u l IH]; cbn [use_all]; [split; [intros _ u []|reflexivity]|].
  split.
  - destruct (given s u) eqn:E; [|discriminate]. intros H v [<-|Hv]; [exact E|]. now apply (proj1 IH H).
  - intros H. rewrite (H u) by now left. apply IH. intros v Hv. apply H. now right.
Qed.
Lemma use_all_null : forall s l u, use_all s l = UBNull u -> In u l /\ given s u = false.
Proof.
  intros s. induction l as [|v l IH]; intros u H; cbn [use_all] in H; [discriminate|].
  destruct (given s v) eqn:E; [destruct (IH u H); split; [now right|assumption]|]. injection H; intros <-. split; [now left|exact E].
Qed.

Lemma complete_given : forall s o, complete s o ->
  given s UseBCs = true /\ given s CallVx = true /\ given s CallVz = true /\ given s UseParticles = true /\
  (x_fix o = 1%Z -> given s CallFix = true) /\ (x_free_surface o = 1%Z -> given s UseTopo = true).
Proof.
  intros s o [P [[b [B1 [B2 [B3 B4]]]] T]]. unfold given. rewrite B1. repeat split; auto.
  - destruct (s_parts s); [reflexivity|congruence].
  - intros F. destruct (s_topo s); [reflexivity|exfalso; now apply (T F)].
Qed.
Lemma setbcs_in : forall o u, In u (setbcs_uses o) -> u = UseBCs \/ u = CallVx \/ u = CallVz \/ (u = CallFix /\ x_fix o = 1%Z).
Proof.
  intros o u H. unfold setbcs_uses in H. apply in_app_or in H. destruct H as [H|H]; [cbn in H; intuition auto|].
  destruct (Z.eqb_spec (x_fix o) 1) as [E|E]; cbn in H; intuition auto.
Qed.
Lemma step_in : forall o n u, In u (steps_uses o n) -> In u (setbcs_uses o) \/ u = UseParticles.
Proof.
  intros o. induction n as [|n IH]; intros u H; [destruct H|]. cbn [steps_uses] in H. apply in_app_or in H. destruct H as [H|H]; [|now apply IH].
  unfold step_uses in H. apply in_app_or in H. destruct H as [H|H].
  - destruct (Z.eqb (x_mechanical o) 1); [now left|destruct H].
  - destruct (_ && _ && _); cbn in H; intuition auto.
Qed.

(** A new run of any number of steps uses no missing function exactly if the set-up is complete; a restarted one does
    not if it is complete. *)
Theorem C119_complete : forall s o n,
  (x_irestart o = 0%Z -> (run s o n = RanThrough <-> complete s o)) /\ (complete s o -> run s o n = RanThrough).
Proof.
  intros s o n.
  assert (A : complete s o -> run s o n = RanThrough).
  { intros C. destruct (complete_given s o C) as [G1 [G2 [G3 [G4 [G5 G6]]]]]. apply use_all_ran. intros u H.
    assert (SB : forall u, In u (setbcs_uses o) -> given s u = true).
    { intros v Hv. destruct (setbcs_in o v Hv) as [-> | [-> | [-> | [-> F]]]]; auto. }
    apply in_app_or in H. destruct H as [H|H].
    - unfold start_uses in H. destruct (Z.eqb (x_irestart o) 0); [|destruct H].
      apply in_app_or in H; destruct H as [H|H]; [auto|]. apply in_app_or in H; destruct H as [H|H].
      + destruct (Z.eqb_spec (x_free_surface o) 1) as [E|E]; cbn in H; [|destruct H]. destruct H as [<-|[<-|[]]]; auto.
      + apply in_app_or in H; destruct H as [H|H]; [destruct H as [<-|[]]; exact G4|].
        apply in_app_or in H; destruct H as [H|H]; auto.
    - destruct (step_in o n u H) as [H1| -> ]; auto. }
  split; [|exact A]. intros R0. split; [|exact A]. intros H.
  pose proof (proj1 (use_all_ran s _) H) as U.
  assert (V : forall u, In u (start_uses o) -> given s u = true) by (intros u Hu; apply U; apply in_or_app; now left).
  unfold start_uses in V. rewrite R0 in V. cbn [Z.eqb] in V.
  assert (SB : forall u, In u (setbcs_uses o) -> given s u = true) by (intros u Hu; apply V; apply in_or_app; now left).
  split; [|split].
  - assert (P : given s UseParticles = true) by (apply V; apply in_or_app; right; apply in_or_app; right; now left).
    intros E. unfold given in P. rewrite E in P. discriminate.
  - pose proof (SB UseBCs (or_introl eq_refl)) as S1. pose proof (SB CallVx (or_intror (or_introl eq_refl))) as S2.
    pose proof (SB CallVz (or_intror (or_intror (or_introl eq_refl)))) as S3. unfold given in *.
    destruct (s_bcs s) as [b|]; [|discriminate]. exists b. repeat split; auto. intros F.
    apply (SB CallFix). unfold setbcs_uses. rewrite F. cbn. auto.
  - intros F E. assert (P : given s UseTopo = true).
    { apply V. apply in_or_app. right. apply in_or_app. left. rewrite F. now left. }
    unfold given in P. rewrite E in P. discriminate.
Qed.
Print Assumptions C119_complete.

(** The check of the set-up, were it called, would reject every incomplete set-up except a missing temperature
    function, and its message tables are large enough. *)
Theorem C119_check : forall s o, (x_fix o <> 1%Z -> errors s o = 0 -> complete s o) /\ errors s o <= 20 /\
  (match s_parts s with Some l => length l <= 11 | None => True end -> warnings s o <= 20).
Proof.
  intros s o. unfold errors, warnings, complete, one. split; [|split].
  - intros F H. destruct (s_parts s) as [l|]; [|lia]. destruct (s_bcs s) as [b|]; [|lia]. split; [discriminate|]. split.
    + exists b. destruct (b_vx b), (b_vz b); cbn [negb] in H; try lia. repeat split; auto.
    + intros E. rewrite E in H. cbn [Z.eqb] in H. destruct (s_topo s); [discriminate|lia].
  - destruct (s_parts s), (s_bcs s) as [b|], (s_topo s), (Z.eqb (x_free_surface o) 0), (Z.eqb (x_thermal o) 0); try lia;
      destruct (b_vx b), (b_vz b), (b_t b); cbn [negb]; lia.
  - intros L.
    assert (P : match s_parts s with None => 0 | Some l => fold_right (fun b n => (if negb b then 1 else 0) + n) 0 l end <= 11).
    { destruct (s_parts s) as [l|]; [|lia]. eapply Nat.le_trans; [|exact L]. clear L.
      induction l as [|b l IH]; cbn [fold_right length]; [lia|]. destruct b; cbn [negb]; lia. }
    destruct (s_bcs s) as [b|]; [destruct (b_p b)|]; destruct (s_topo s) as [t|]; try (destruct (t_z t), (t_phase t)); destruct (Z.eqb (x_free_surface o) 0); cbn [negb]; lia.
Qed.
Print Assumptions C119_check.

(** Refuted: an incomplete set-up is reported with exit code 144. The check is not called: every new run with an
    incomplete set-up uses a NULL pointer. *)
Theorem C119_unchecked_refuted : forall s o n, x_irestart o = 0%Z -> ~ complete s o -> exists u, run s o n = UBNull u /\ given s u = false.
Proof.
  intros s o n R0 H. destruct (run s o n) as [|u] eqn:E.
  - exfalso. apply H. now apply (proj1 (C119_complete s o n) R0).
  - exists u. split; [reflexivity|]. exact (proj2 (use_all_null _ _ _ E)).
Qed.
Print Assumptions C119_unchecked_refuted.

(** Refuted: the check covers all functions that are called. *)
Theorem C119_fix_refuted : exists s o, errors s o = 0 /\ run s o 1 = UBNull CallFix.
Proof.
  exists (Setup (Some []) (Some (BcPtrs true true true true false)) None), (Options 0 0 1 1 1 1 0 0). split; reflexivity.
Qed.
Print Assumptions C119_fix_refuted.

Example C119_ex : complete (Setup (Some [true; false]) (Some (BcPtrs true true false false false)) None) (Options 0 0 0 1 1 1 (-1) 0) /\
  run (Setup (Some [true; false]) (Some (BcPtrs true true false false false)) None) (Options 0 0 0 1 1 1 (-1) 0) 3 = RanThrough /\
  run (Setup None (Some (BcPtrs true true false false false)) None) (Options 0 0 0 1 1 1 (-1) 0) 3 = UBNull UseParticles /\
  run (Setup (Some []) (Some (BcPtrs true false false false false)) None) (Options 1 0 0 1 1 1 (-1) 0) 3 = UBNull CallVz /\
  errors (Setup None None None) (Options 1 0 0 1 1 1 0 0) = 3.
Proof. repeat split; try reflexivity; try discriminate. eexists. repeat split; try reflexivity. discriminate. Qed.

(** ** C120: conditions for temperature and composition *)
Definition tgt (w : write) : nat := match w with Both i _ => i | TypeOnly i _ => i end.
Definition eff (w : write) (e : entry) : entry := match w with Both _ x => x | TypeOnly _ t => (t, snd e) end.
Definition at_ (j : nat) (ws : list write) (e : entry) : entry := fold_left (fun e w => if Nat.eqb j (tgt w) then eff w e else e) ws e.

Lemma fold_store : forall ws f j, fold_left store ws f j = at_ j ws (f j).
Proof.
  induction ws as [|w ws IH]; intros f j; [reflexivity|]. cbn [fold_left at_]. rewrite IH. unfold at_. cbn [fold_left]. f_equal.
  destruct w; reflexivity.
Qed.
Lemma at_app : forall j a b e, at_ j (a ++ b) e = at_ j b (at_ j a e).
Proof. intros. unfold at_. apply fold_left_app. Qed.
Lemma at_none : forall j ws e, (forall w, In w ws -> tgt w <> j) -> at_ j ws e = e.
Proof.
  intros j. induction ws as [|w ws IH]; intros e H; [reflexivity|]. unfold at_. cbn [fold_left].
  destruct (Nat.eqb_spec j (tgt w)) as [E|E]; [exfalso; apply (H w); [now left|now symmetry]|]. apply IH. intros v Hv. apply H. now right.
Qed.
Lemma at_owner : forall (A : Type) (g : A -> list write) j o l e, NoDup l -> In o l ->
  (forall x, In x l -> x <> o -> forall w, In w (g x) -> tgt w <> j) -> at_ j (flat_map g l) e = at_ j (g o) e.
Proof.
  intros A g j o. induction l as [|x l IH]; intros e N I H; [destruct I|]. cbn [flat_map]. rewrite at_app.
  apply NoDup_cons_iff in N. destruct N as [N1 N2]. destruct I as [-> | I].
  - apply at_none. intros w Hw. apply in_flat_map in Hw. destruct Hw as [y [Y1 Y2]]. apply (H y); [now right| |exact Y2]. intros ->. contradiction.
  - rewrite (at_none j (g x)); [apply IH; try assumption; intros y Hy; apply H; now right|].
    apply H; [now left|]. intros ->. contradiction.
Qed.
Lemma in_all : forall ncx ncz k l, In (k, l) (all_cells ncx ncz) <-> k < ncx /\ l < ncz.
Proof.
  intros ncx ncz k l. unfold all_cells. rewrite in_flat_map. split.
  - intros [l' [L1 L2]]. apply in_map_iff in L2. destruct L2 as [k' [K1 K2]]. injection K1; intros; subst. apply in_seq in L1, K2. lia.
  - intros [H1 H2]. exists l. split; [apply in_seq; lia|]. apply in_map_iff. exists k. split; [reflexivity|apply in_seq; lia].
Qed.
Lemma nodup_all : forall ncx ncz, NoDup (all_cells ncx ncz).
Proof.
  intros ncx ncz. unfold all_cells. generalize 0 at 2. induction ncz as [|n IH]; intros a; cbn [seq flat_map]; [constructor|].
  assert (G : forall (A : Type) (l1 l2 : list A), NoDup l1 -> NoDup l2 -> (forall x, In x l1 -> In x l2 -> False) -> NoDup (l1 ++ l2)).
  { intros A l1 l2 N1 N2 D. induction l1 as [|x l1 IH1]; [exact N2|]. apply NoDup_cons_iff in N1. destruct N1 as [M1 M2]. cbn [app]. constructor.
    - intros I. apply in_app_or in I. destruct I as [I|I]; [contradiction|]. apply (D x); [now left|exact I].
    - apply IH1; [exact M2|]. intros y Y1 Y2. apply (D y); [now right|exact Y2]. }
  apply G.
  - apply Injective_map_NoDup; [intros x y E; now injection E|apply seq_NoDup].
  - apply IH.
  - intros [k l] H1 H2. apply in_map_iff in H1. destruct H1 as [k' [E1 _]]. injection E1; intros; subst.
    apply in_flat_map in H2. destruct H2 as [l' [L1 L2]]. apply in_map_iff in L2. destruct L2 as [k2 [E2 _]]. injection E2; intros; subst.
    apply in_seq in L1. lia.
Qed.

(** Cell (k, l) writes at the extended position (K, L). *)
Definition touches (ncx ncz k l K L : nat) : Prop :=
  (K = k + 1 /\ L = l + 1) \/ (K = 0 /\ k = 0 /\ L = l + 1) \/ (K = ncx + 1 /\ k = ncx - 1 /\ L = l + 1) \/
  (L = 0 /\ l = 0 /\ K = k + 1) \/ (L = ncz + 1 /\ l = ncz - 1 /\ K = k + 1).
Lemma ext_inj : forall n a b a' b', a < n -> a' < n -> a + b * n = a' + b' * n -> a = a' /\ b = b'.
Proof.
  intros n a b a' b' H H' E. assert (b = b').
  { rewrite (Nat.mul_comm b), (Nat.mul_comm b') in E.
    apply (Nat.div_mod_unique n b b' a a'); lia. }
  subst. lia.
Qed.
Lemma ask_tgt : forall user i s k l T w, In w (ask user i s k l T) -> tgt w = i.
Proof. intros [f|] i s k l T w H; cbn in H; [destruct H as [<-|[]]; reflexivity|destruct H]. Qed.

Section Field.
Variables (ncx ncz : nat) (inner : nat -> Z) (op : nat -> bool) (t : nat -> Z) (T : nat -> R) (user : option bc_fun).
Hypothesis Hx : 1 <= ncx.
Hypothesis Hz : 1 <= ncz.
Let cw := cell_writes ncx ncz inner op t T user.

Lemma targets : forall k l w K L, k < ncx -> l < ncz -> K < ncx + 2 -> L < ncz + 2 -> In w (cw k l) -> tgt w = K + L * (ncx + 2) -> touches ncx ncz k l K L.
Proof.
  intros k l w K L Hk Hl HK HL I E. unfold cw, cell_writes in I. unfold touches.
  assert (G : forall K' L', K' < ncx + 2 -> tgt w = K' + L' * (ncx + 2) -> K = K' /\ L = L').
  { intros K' L' H1 H2. rewrite E in H2. apply (ext_inj (ncx + 2)); assumption. }
  assert (Ir : (In w (if Nat.eqb k 0 then ask user (k + 1 + (l + 1) * (ncx + 2) - 1) West k l (T (k + l * ncx)) else []) \/
    In w (if Nat.eqb k (ncx - 1) then ask user (k + 1 + (l + 1) * (ncx + 2) + 1) East k l (T (k + l * ncx)) else []) \/
    In w (if Nat.eqb l 0 then ask user (k + 1 + (l + 1) * (ncx + 2) - (ncx + 2)) South k l (T (k + l * ncx)) else []) \/
    In w (if Nat.eqb l (ncz - 1) then ask user (k + 1 + (l + 1) * (ncx + 2) + (ncx + 2)) North k l (T (k + l * ncx)) else [])) \/
    tgt w = (k + 1) + (l + 1) * (ncx + 2)).
  { destruct I as [<-|I]; [right; reflexivity|]. destruct (Z.eqb (inner _) 30); [destruct I|].
    repeat (apply in_app_or in I; destruct I as [I|I]); auto.
    right. destruct (Nat.ltb l (ncz - 1)); [|destruct I]. destruct (_ && _); [|destruct I]. now apply ask_tgt in I. }
  destruct Ir as [[I1|[I1|[I1|I1]]]|I1].
  - destruct (Nat.eqb_spec k 0) as [e|e]; [|destruct I1]. apply ask_tgt in I1. destruct (G 0 (l + 1)); [lia|rewrite I1; lia|]. lia.
  - destruct (Nat.eqb_spec k (ncx - 1)) as [e|e]; [|destruct I1]. apply ask_tgt in I1. destruct (G (ncx + 1) (l + 1)); [lia|rewrite I1; lia|]. lia.
  - destruct (Nat.eqb_spec l 0) as [e|e]; [|destruct I1]. apply ask_tgt in I1. destruct (G (k + 1) 0); [lia|rewrite I1; subst l; lia|]. lia.
  - destruct (Nat.eqb_spec l (ncz - 1)) as [e|e]; [|destruct I1]. apply ask_tgt in I1. destruct (G (k + 1) (l + 2)); [lia|rewrite I1; lia|]. lia.
  - destruct (G (k + 1) (l + 1)); [lia|exact I1|]. lia.
Qed.

Lemma final_owner : forall f K L k l, K < ncx + 2 -> L < ncz + 2 -> k < ncx -> l < ncz ->
  (forall k' l', k' < ncx -> l' < ncz -> touches ncx ncz k' l' K L -> k' = k /\ l' = l) ->
  set_field ncx ncz inner op t T user f (K + L * (ncx + 2)) = at_ (K + L * (ncx + 2)) (cw k l) (f (K + L * (ncx + 2))).
Proof.
  intros f K L k l HK HL Hk Hl H. unfold set_field. rewrite fold_store.
  apply (at_owner _ (fun kl => cell_writes ncx ncz inner op t T user (fst kl) (snd kl)) (K + L * (ncx + 2)) (k, l)).
  - apply nodup_all.
  - now apply in_all.
  - intros [k' l'] I N w Hw E. apply in_all in I. destruct I as [I1 I2]. apply N.
    destruct (H k' l' I1 I2) as [-> ->]; [|reflexivity]. now apply (targets k' l' w).
Qed.

Lemma ask_at : forall j i s k l x e, at_ j (ask user i s k l x) e = match user with Some g => if Nat.eqb j i then g s k l x else e | None => e end.
Proof. intros. destruct user; reflexivity. Qed.
Lemma at_if : forall j (b : bool) ws e, at_ j (if b then ws else []) e = if b then at_ j ws e else e.
Proof. intros j [|] ws e; reflexivity. Qed.

Ltac owner k l := rewrite (final_owner _ _ _ k l) by (try lia; unfold touches; intros; lia).
Ltac idx := repeat match goal with |- context [Nat.eqb ?a ?b] => destruct (Nat.eqb_spec a b); try lia end.

Lemma inside : forall f k l, k < ncx -> l < ncz ->
  let c := k + l * ncx in let i := (k + 1) + (l + 1) * (ncx + 2) in
  set_field ncx ncz inner op t T user f i =
    match user with
    | Some g => if negb (Z.eqb (inner c) 30) && (Nat.ltb l (ncz - 1) && (op c && Z.eqb (t (c + ncx)) 30)) then g Surface k l (T c) else (inner c, snd (f i))
    | None => (inner c, snd (f i))
    end.
Proof.
  intros f k l Hk Hl c i. unfold i. owner k l. unfold cw, cell_writes. fold c.

  match goal with |- at_ ?j (?a :: ?b) ?e = _ => change (a :: b) with ([a] ++ b) end. rewrite at_app.
  match goal with |- at_ ?j _ (at_ ?j [?a] ?e) = _ => assert (E1 : at_ j [a] e = (inner c, snd e)) by (unfold at_; cbn [fold_left tgt eff]; rewrite Nat.eqb_refl; reflexivity) end.
  rewrite E1. destruct (Z.eqb (inner c) 30) eqn:Ei; cbn [negb andb]; [destruct user; reflexivity|].
  rewrite !at_app, !at_if, !ask_at. 
  assert (Q : (l + 1) * (ncx + 2) = l * (ncx + 2) + (ncx + 2)) by lia. rewrite !Q. clear E1 Q. set (q := l * (ncx + 2)) in *.
  destruct user as [g|]; [|repeat match goal with |- context [if ?b then _ else _] => destruct b end; reflexivity].
  assert (N1 : Nat.eqb (k + 1 + (q + (ncx + 2))) (k + 1 + (q + (ncx + 2)) - 1) = false) by (apply Nat.eqb_neq; lia).
  assert (N2 : Nat.eqb (k + 1 + (q + (ncx + 2))) (k + 1 + (q + (ncx + 2)) + 1) = false) by (apply Nat.eqb_neq; lia).
  assert (N3 : Nat.eqb (k + 1 + (q + (ncx + 2))) (k + 1 + (q + (ncx + 2)) - (ncx + 2)) = false) by (apply Nat.eqb_neq; lia).
  assert (N4 : Nat.eqb (k + 1 + (q + (ncx + 2))) (k + 1 + (q + (ncx + 2)) + (ncx + 2)) = false) by (apply Nat.eqb_neq; lia).
  rewrite N1, N2, N3, N4, Nat.eqb_refl.
  destruct (Nat.eqb k 0), (Nat.eqb k (ncx - 1)), (Nat.eqb l 0), (Nat.eqb l (ncz - 1)), (Nat.ltb l (ncz - 1)), (op c && Z.eqb (t (c + ncx)) 30); reflexivity.
Qed.

Lemma frame : forall f s k l i, k < ncx -> l < ncz -> s <> Surface ->
  match s with
  | West => k = 0 /\ i = (l + 1) * (ncx + 2) | East => k = ncx - 1 /\ i = ncx + 1 + (l + 1) * (ncx + 2)
  | South => l = 0 /\ i = k + 1 | North => l = ncz - 1 /\ i = k + 1 + (ncz + 1) * (ncx + 2) | Surface => True end ->
  let c := k + l * ncx in
  set_field ncx ncz inner op t T user f i =
    match user with Some g => if Z.eqb (inner c) 30 then f i else g s k l (T c) | None => f i end.
Proof.
  intros f s k l i Hk Hl Hs Hi c.
  assert (Q : (l + 1) * (ncx + 2) = l * (ncx + 2) + (ncx + 2)) by lia.
  assert (R1 : exists K L, i = K + L * (ncx + 2) /\ K < ncx + 2 /\ L < ncz + 2 /\
    (forall k' l', k' < ncx -> l' < ncz -> touches ncx ncz k' l' K L -> k' = k /\ l' = l)).
  { unfold touches. destruct s; try (exfalso; now apply Hs); destruct Hi as [H1 H2].
    - exists 0, (l + 1). repeat split; try lia.
    - exists (ncx + 1), (l + 1). repeat split; try lia.
    - exists (k + 1), 0. repeat split; try lia.
    - exists (k + 1), (ncz + 1). repeat split; try lia. }
  destruct R1 as [K [L [E1 [E2 [E3 E4]]]]].
  assert (F : set_field ncx ncz inner op t T user f i = at_ i (cw k l) (f i)).
  { rewrite E1. now apply final_owner. }
  rewrite F. unfold cw, cell_writes. fold c.
  match goal with |- at_ ?j (?a :: ?b) ?e = _ => change (a :: b) with ([a] ++ b) end. rewrite at_app.
  assert (NZ : l = ncz - 1 -> (ncz + 1) * (ncx + 2) = l * (ncx + 2) + (ncx + 2) + (ncx + 2)) by (intros ->; nia).
  set (q := l * (ncx + 2)) in *. rewrite !Q.
  assert (L0 : l = 0 -> q = 0) by (intros ->; reflexivity).
  match goal with |- at_ ?j _ (at_ ?j [?a] ?e) = _ => assert (Ee : at_ j [a] e = e) end.
  { unfold at_. cbn [fold_left tgt]. destruct (Nat.eqb_spec i (k + 1 + (q + (ncx + 2)))) as [e|e]; [|reflexivity]. exfalso.
    destruct s; try (now apply Hs); lia. }
  rewrite Ee. destruct (Z.eqb (inner c) 30); [destruct user; reflexivity|].
  rewrite !at_app, !at_if, !ask_at. destruct user as [g|]; [|repeat match goal with |- context [if ?b then _ else _] => destruct b end; reflexivity].
  assert (NC : Nat.eqb i (k + 1 + (q + (ncx + 2))) = false) by (apply Nat.eqb_neq; destruct s; try (exfalso; now apply Hs); lia).
  rewrite NC.
  assert (Z5 : forall x : entry, (if Nat.ltb l (ncz - 1) then if op c && Z.eqb (t (c + ncx)) 30 then x else x else x) = x).
  { intros x. destruct (Nat.ltb l (ncz - 1)), (op c && Z.eqb (t (c + ncx)) 30); reflexivity. }
  rewrite ?Z5.
  destruct s; try (exfalso; now apply Hs); destruct Hi as [H1 H2].
  - replace (Nat.eqb k 0) with true by (symmetry; apply Nat.eqb_eq; lia).
    replace (Nat.eqb i (k + 1 + (q + (ncx + 2)) - 1)) with true by (symmetry; apply Nat.eqb_eq; lia).
    replace (Nat.eqb i (k + 1 + (q + (ncx + 2)) + 1)) with false by (symmetry; apply Nat.eqb_neq; lia).
    replace (Nat.eqb i (k + 1 + (q + (ncx + 2)) - (ncx + 2))) with false by (symmetry; apply Nat.eqb_neq; lia).
    replace (Nat.eqb i (k + 1 + (q + (ncx + 2)) + (ncx + 2))) with false by (symmetry; apply Nat.eqb_neq; lia).
    repeat match goal with |- context [if ?b then _ else _] => destruct b end; reflexivity.
  - replace (Nat.eqb k (ncx - 1)) with true by (symmetry; apply Nat.eqb_eq; lia).
    replace (Nat.eqb i (k + 1 + (q + (ncx + 2)) - 1)) with false by (symmetry; apply Nat.eqb_neq; lia).
    replace (Nat.eqb i (k + 1 + (q + (ncx + 2)) + 1)) with true by (symmetry; apply Nat.eqb_eq; lia).
    replace (Nat.eqb i (k + 1 + (q + (ncx + 2)) - (ncx + 2))) with false by (symmetry; apply Nat.eqb_neq; lia).
    replace (Nat.eqb i (k + 1 + (q + (ncx + 2)) + (ncx + 2))) with false by (symmetry; apply Nat.eqb_neq; lia).
    repeat match goal with |- context [if ?b then _ else _] => destruct b end; reflexivity.
  - specialize (L0 H1). replace (Nat.eqb l 0) with true by (symmetry; apply Nat.eqb_eq; lia).
    replace (Nat.eqb i (k + 1 + (q + (ncx + 2)) - 1)) with false by (symmetry; apply Nat.eqb_neq; lia).
    replace (Nat.eqb i (k + 1 + (q + (ncx + 2)) + 1)) with false by (symmetry; apply Nat.eqb_neq; lia).
    replace (Nat.eqb i (k + 1 + (q + (ncx + 2)) - (ncx + 2))) with true by (symmetry; apply Nat.eqb_eq; lia).
    replace (Nat.eqb i (k + 1 + (q + (ncx + 2)) + (ncx + 2))) with false by (symmetry; apply Nat.eqb_neq; lia).
    repeat match goal with |- context [if ?b then _ else _] => destruct b end; reflexivity.
  - specialize (NZ H1). replace (Nat.eqb l (ncz - 1)) with true by (symmetry; apply Nat.eqb_eq; lia).
    replace (Nat.eqb i (k + 1 + (q + (ncx + 2)) - 1)) with false by (symmetry; apply Nat.eqb_neq; lia).
    replace (Nat.eqb i (k + 1 + (q + (ncx + 2)) + 1)) with false by (symmetry; apply Nat.eqb_neq; lia).
    replace (Nat.eqb i (k + 1 + (q + (ncx + 2)) - (ncx + 2))) with false by (symmetry; apply Nat.eqb_neq; lia).
    replace (Nat.eqb i (k + 1 + (q + (ncx + 2)) + (ncx + 2))) with true by (symmetry; apply Nat.eqb_eq; lia).
    repeat match goal with |- context [if ?b then _ else _] => destruct b end; reflexivity.
Qed.

Lemma outside : forall f i, (i = 0 \/ i = ncx + 1 \/ i = (ncz + 1) * (ncx + 2) \/ i = ncx + 1 + (ncz + 1) * (ncx + 2) \/ (ncx + 2) * (ncz + 2) <= i) ->
  set_field ncx ncz inner op t T user f i = f i.
Proof.
  intros f i Hi. unfold set_field. rewrite fold_store. apply at_none. intros w Hw E. apply in_flat_map in Hw.
  destruct Hw as [[k l] [I1 I2]]. apply in_all in I1. destruct I1 as [I1 I3]. cbn [fst snd] in I2.
  destruct (Nat.lt_ge_cases i ((ncx + 2) * (ncz + 2))) as [Lt|Ge].
  - assert (KL : exists K L, K < ncx + 2 /\ L < ncz + 2 /\ i = K + L * (ncx + 2) /\ (K = 0 \/ K = ncx + 1) /\ (L = 0 \/ L = ncz + 1)).
    { destruct Hi as [H|[H|[H|[H|H]]]]; [exists 0, 0|exists (ncx + 1), 0|exists 0, (ncz + 1)|exists (ncx + 1), (ncz + 1)|]; lia. }
    destruct KL as [K [L [H1 [H2 [H3 [H4 H5]]]]]]. rewrite H3 in E.
    pose proof (targets k l w K L I1 I3 H1 H2 I2 E) as X. unfold touches in X. lia.
  - assert (B : tgt w < (ncx + 2) * (ncz + 2)); [|lia].
    assert (A : (l + 1) * (ncx + 2) <= ncz * (ncx + 2)) by (apply Nat.mul_le_mono_r; lia).
    assert (A2 : (ncx + 2) * (ncz + 2) = ncz * (ncx + 2) + (ncx + 2) + (ncx + 2)) by lia.
    assert (A3 : 1 <= (l + 1) * (ncx + 2)) by lia.
    unfold cell_writes in I2. destruct I2 as [<-|I2]; [cbn [tgt]; lia|]. destruct (Z.eqb (inner _) 30); [destruct I2|].
    repeat (apply in_app_or in I2; destruct I2 as [I2|I2]).
    + destruct (Nat.eqb k 0); [apply ask_tgt in I2; lia|destruct I2].
    + destruct (Nat.eqb k (ncx - 1)); [apply ask_tgt in I2; lia|destruct I2].
    + destruct (Nat.eqb l 0); [apply ask_tgt in I2; lia|destruct I2].
    + destruct (Nat.eqb l (ncz - 1)); [apply ask_tgt in I2; lia|destruct I2].
    + destruct (Nat.ltb l (ncz - 1)); [|destruct I2]. destruct (_ && _); [apply ask_tgt in I2; lia|destruct I2].
Qed.
End Field.

(** Temperature: the ghost point beside a rock cell of a side holds what the user's function returned for that side,
    cell and temperature; beside an air cell it is left alone. A rock cell with air above holds the user's answer for
    the surface, every other cell its own type. Corners and everything beyond the arrays are not written. *)
Theorem C120_temperature : forall ncx ncz t T g f, 1 <= ncx -> 1 <= ncz ->
  let r := set_T ncx ncz t T (Some g) f in
  (forall k l, k < ncx -> l < ncz -> let c := k + l * ncx in
     (t c <> 30%Z ->
       (k = 0 -> r ((l + 1) * (ncx + 2)) = g West k l (T c)) /\ (k = ncx - 1 -> r (ncx + 1 + (l + 1) * (ncx + 2)) = g East k l (T c)) /\
       (l = 0 -> r (k + 1) = g South k l (T c)) /\ (l = ncz - 1 -> r (k + 1 + (ncz + 1) * (ncx + 2)) = g North k l (T c)) /\
       (l + 1 < ncz -> t (c + ncx) = 30%Z -> (-1 <= t c <= 1)%Z -> r (k + 1 + (l + 1) * (ncx + 2)) = g Surface k l (T c)) /\
       (l + 1 = ncz \/ t (c + ncx) <> 30%Z -> fst (r (k + 1 + (l + 1) * (ncx + 2))) = t c)) /\
     (t c = 30%Z -> fst (r (k + 1 + (l + 1) * (ncx + 2))) = 30%Z /\
       (k = 0 -> r ((l + 1) * (ncx + 2)) = f ((l + 1) * (ncx + 2))))) /\
  (forall i, i = 0 \/ i = ncx + 1 \/ i = (ncz + 1) * (ncx + 2) \/ i = ncx + 1 + (ncz + 1) * (ncx + 2) \/ (ncx + 2) * (ncz + 2) <= i -> r i = f i).
Proof.
  intros ncx ncz t T g f Hx Hz r. split; [|intros i Hi; unfold r, set_T; now apply outside].
  intros k l Hk Hl c. unfold r, set_T. split.
  - intros R0. assert (Rb : Z.eqb (t c) 30 = false) by now apply Z.eqb_neq.
    assert (Fr : forall s i, s <> Surface -> match s with
      | West => k = 0 /\ i = (l + 1) * (ncx + 2) | East => k = ncx - 1 /\ i = ncx + 1 + (l + 1) * (ncx + 2)
      | South => l = 0 /\ i = k + 1 | North => l = ncz - 1 /\ i = k + 1 + (ncz + 1) * (ncx + 2) | Surface => True end ->
      set_field ncx ncz t (open_T t) t T (Some g) f i = g s k l (T c)).
    { intros s i H1 H2. rewrite (frame ncx ncz t (open_T t) t T (Some g) Hx Hz f s k l i Hk Hl H1 H2). fold c. rewrite Rb. reflexivity. }
    split; [intros; apply Fr; [discriminate|now split]|]. split; [intros; apply Fr; [discriminate|now split]|].
    split; [intros; apply Fr; [discriminate|now split]|]. split; [intros; apply Fr; [discriminate|now split]|].
    rewrite (inside ncx ncz t (open_T t) t T (Some g) Hx Hz f k l Hk Hl). fold c. rewrite Rb. cbn [negb andb]. split.
    + intros L1 A1 A2. replace (Nat.ltb l (ncz - 1)) with true by (symmetry; apply Nat.ltb_lt; lia).
      rewrite A1. cbn [andb]. replace (open_T t c) with true; [reflexivity|]. symmetry. unfold open_T.
      destruct (Z.eqb_spec (t c) (-1)); [reflexivity|]. destruct (Z.eqb_spec (t c) 1); [reflexivity|]. destruct (Z.eqb_spec (t c) 0); [reflexivity|lia].
    + intros [L1|A1].
      * replace (Nat.ltb l (ncz - 1)) with false by (symmetry; apply Nat.ltb_ge; lia). reflexivity.
      * apply Z.eqb_neq in A1. rewrite A1, !andb_false_r. reflexivity.
  - intros R0. assert (Rb : Z.eqb (t c) 30 = true) by now apply Z.eqb_eq. split.
    + rewrite (inside ncx ncz t (open_T t) t T (Some g) Hx Hz f k l Hk Hl). fold c. rewrite Rb. cbn [negb andb fst]. exact R0.
    + intros K0. rewrite (frame ncx ncz t (open_T t) t T (Some g) Hx Hz f West k l _ Hk Hl); [fold c; rewrite Rb; reflexivity|discriminate|now split].
Qed.
Print Assumptions C120_temperature.

(** Without a function for the temperature nothing outside the cells is written: the frame keeps type 0 and value 0 of
    its allocation, which the diffusion solver takes as insulating, also in a thermal run. *)
Theorem C120_no_function : forall ncx ncz t T f k l, 1 <= ncx -> 1 <= ncz -> k < ncx -> l < ncz ->
  let r := set_T ncx ncz t T None f in
  r ((l + 1) * (ncx + 2)) = f ((l + 1) * (ncx + 2)) /\ r (ncx + 1 + (l + 1) * (ncx + 2)) = f (ncx + 1 + (l + 1) * (ncx + 2)) /\
  r (k + 1) = f (k + 1) /\ r (k + 1 + (ncz + 1) * (ncx + 2)) = f (k + 1 + (ncz + 1) * (ncx + 2)).
Proof.
  intros ncx ncz t T f k l Hx Hz Hk Hl r. unfold r, set_T. repeat split.
  - apply (frame ncx ncz t (open_T t) t T None Hx Hz f West 0 l); [lia|lia|discriminate|now split].
  - apply (frame ncx ncz t (open_T t) t T None Hx Hz f East (ncx - 1) l); [lia|lia|discriminate|now split].
  - apply (frame ncx ncz t (open_T t) t T None Hx Hz f South k 0); [lia|lia|discriminate|now split].
  - apply (frame ncx ncz t (open_T t) t T None Hx Hz f North k (ncz - 1)); [lia|lia|discriminate|now split].
Qed.
Print Assumptions C120_no_function.

(** Refuted: air cells are left out of the composition problem. Every cell has an equation, and the flag of an air cell
    is that of rock; under a free surface (types other than 0) the user's function is not asked for the surface. *)
Theorem C120_composition_air_refuted : forall ncx ncz t T g f, 1 <= ncx -> 1 <= ncz ->
  chem_equations ncx ncz = ncx * ncz /\
  forall k l, k < ncx -> l < ncz -> t (k + l * ncx) <> 0%Z ->
    fst (set_C ncx ncz t T (Some g) f (k + 1 + (l + 1) * (ncx + 2))) = 0%Z.
Proof.
  intros ncx ncz t T g f Hx Hz. split.
  - unfold chem_equations, bcc_type. cbn [Z.eqb].
    assert (G : forall (A : Type) (l : list A) n, fold_left (fun n _ => S n) l n = n + length l).
    { intros A. induction l as [|a l IH]; intros n; cbn [fold_left length]; [lia|rewrite IH; lia]. }
    rewrite G. unfold all_cells. rewrite Nat.add_0_l. generalize 0 at 2. clear. induction ncz as [|n IH]; intros a; cbn [seq flat_map]; [cbn [length]; lia|].
    rewrite app_length, map_length, seq_length. specialize (IH (S a)). lia.
  - intros k l Hk Hl Ht. unfold set_C. rewrite (inside ncx ncz bcc_type (open_C bcc_type t) t T (Some g) Hx Hz f k l Hk Hl).
    unfold open_C, bcc_type. apply Z.eqb_neq in Ht. rewrite Ht. cbn [Z.eqb orb andb negb]. rewrite andb_false_r. reflexivity.
Qed.
Print Assumptions C120_composition_air_refuted.

(** The sides of the composition problem do get the user's answers; the function is given the temperature of the cell
    (not its composition), also for air cells. *)
Theorem C120_composition_sides : forall ncx ncz t T g f k l, 1 <= ncx -> 1 <= ncz -> k < ncx -> l < ncz ->
  let r := set_C ncx ncz t T (Some g) f in let c := k + l * ncx in
  (k = 0 -> r ((l + 1) * (ncx + 2)) = g West k l (T c)) /\ (k = ncx - 1 -> r (ncx + 1 + (l + 1) * (ncx + 2)) = g East k l (T c)) /\
  (l = 0 -> r (k + 1) = g South k l (T c)) /\ (l = ncz - 1 -> r (k + 1 + (ncz + 1) * (ncx + 2)) = g North k l (T c)).
Proof.
  intros ncx ncz t T g f k l Hx Hz Hk Hl r c. unfold r, set_C. repeat split; intros H.
  - apply (frame ncx ncz bcc_type (open_C bcc_type t) t T (Some g) Hx Hz f West k l); [lia|lia|discriminate|now split].
  - apply (frame ncx ncz bcc_type (open_C bcc_type t) t T (Some g) Hx Hz f East k l); [lia|lia|discriminate|now split].
  - apply (frame ncx ncz bcc_type (open_C bcc_type t) t T (Some g) Hx Hz f South k l); [lia|lia|discriminate|now split].
  - apply (frame ncx ncz bcc_type (open_C bcc_type t) t T (Some g) Hx Hz f North k l); [lia|lia|discriminate|now split].
Qed.
Print Assumptions C120_composition_sides.

(** Refuted: a prescribed temperature follows the pressure of the cell. All cells get the temperature of the pressure of
    the first cell. *)
Theorem C120_fixed_refuted : (forall f p T c c', fix_temperature true f p T c = fix_temperature true f p T c') /\
  exists f p T c, fix_temperature true f p T c <> f (p c).
Proof.
  split; [reflexivity|]. exists (fun x => x), (fun c => INR c), (fun _ => 0%R), 1. unfold fix_temperature. cbn. lra.
Qed.
Print Assumptions C120_fixed_refuted.

(** Two columns, two rows, air in the upper right cell; the function returns type 1 with the temperature on the surface
    and type 0 elsewhere. *)
Example C120_ex :
  let t := fun c => if Nat.eqb c 3 then 30%Z else (-1)%Z in
  let g : bc_fun := fun s k l T => match s with Surface => (1%Z, T) | _ => (0%Z, 0%R) end in
  let f : field := fun _ => (7%Z, 5%R) in
  let r := set_T 2 2 t (fun c => INR c) (Some g) f in
  r 6 = (1%Z, 1%R) /\ r 5 = ((-1)%Z, 5%R) /\ r 10 = (30%Z, 5%R) /\ r 11 = (7%Z, 5%R) /\ r 4 = (0%Z, 0%R) /\ r 0 = (7%Z, 5%R) /\
  fst (set_C 2 2 t (fun c => INR c) (Some g) f 10) = 0%Z /\ chem_equations 2 2 = 4.
Proof. cbn. repeat split; reflexivity. Qed.
