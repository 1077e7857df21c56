(** * C125: deformation maps *)
From Coq Require Import List ZArith Reals Bool Arith Lia Lra FinFun.
Import ListNotations.
From Verif Require Import GridModel GridProofs RheoModel P2GModel P2GProofs DefMapModel.
Local Open Scope R_scope.

(** Specification. The five viscous mechanisms with their codes; the one that is faster
    than all others. *)
Definition rate_of (r : rates) (code : Z) : option R :=
  if (code =? 1)%Z then Some (rt_pwl r) else if (code =? 2)%Z then Some (rt_lin r) else if (code =? 3)%Z then Some (rt_gbs r)
  else if (code =? 4)%Z then Some (rt_exp r) else if (code =? 6)%Z then Some (rt_cst r) else None.
Definition dominant (r : rates) (code : Z) : Prop :=
  exists x, rate_of r code = Some x /\ 0 < x /\ forall c y, c <> code -> rate_of r c = Some y -> y < x.
Definition even (n : nat) (lo hi : R) (i : nat) : R := lo + INR i * ((hi - lo) / (INR n - 1)).

(** ** Loops *)
Lemma fold_flat_map {S A B} (g : S -> A -> S) (h : B -> list A) : forall l s,
  fold_left g (flat_map h l) s = fold_left (fun s x => fold_left g (h x) s) l s.
Proof. induction l as [|x l IH]; intros s; [reflexivity|]. cbn [flat_map fold_left]. now rewrite fold_left_app, IH. Qed.
Lemma fold_map {S A B} (g : S -> A -> S) (h : B -> A) : forall l s, fold_left g (map h l) s = fold_left (fun s x => g s (h x)) l s.
Proof. induction l as [|x l IH]; intros s; [reflexivity|]. cbn. apply IH. Qed.
Definition pts (nT nE nd : nat) : list (nat * nat * nat) :=
  flat_map (fun iz => flat_map (fun ix => map (fun iy => (ix, iy, iz)) (seq 0 nE)) (seq 0 nT)) (seq 0 nd).
Lemma fold_pts {S} (g : S -> nat * nat * nat -> S) nT nE nd s :
  loop 0 nd (fun s iz => loop 0 nT (fun s ix => loop 0 nE (fun s iy => g s (ix, iy, iz)) s) s) s = fold_left g (pts nT nE nd) s.
Proof.
  unfold pts, loop. rewrite fold_flat_map. revert s. induction (seq 0 nd) as [|z l IH]; intros s; [reflexivity|]. cbn [fold_left].
  rewrite <- IH. f_equal. rewrite fold_flat_map. clear IH. revert s. induction (seq 0 nT) as [|x lx IHx]; intros s; [reflexivity|]. cbn [fold_left].
  rewrite <- IHx. f_equal. now rewrite fold_map.
Qed.
Lemma in_pts nT nE nd ix iy iz : In (ix, iy, iz) (pts nT nE nd) <-> (ix < nT)%nat /\ (iy < nE)%nat /\ (iz < nd)%nat.
Proof.
  unfold pts. rewrite in_flat_map. split.
  - intros (z & Hz & H). apply in_flat_map in H. destruct H as (x & Hx & H). apply in_map_iff in H. destruct H as (y & H & Hy).
    injection H as -> -> ->. apply in_seq in Hz, Hx, Hy. lia.
  - intros (A & B & C). exists iz. split; [apply in_seq; lia|]. apply in_flat_map. exists ix. split; [apply in_seq; lia|].
    apply in_map_iff. exists iy. split; [reflexivity|]. apply in_seq. lia.
Qed.
Definition ind (nT nE : nat) (p : nat * nat * nat) : nat := let '(ix, iy, iz) := p in (ix + iy * nT + iz * nE * nT)%nat.
Lemma ind_inj nT nE nd p q : In p (pts nT nE nd) -> In q (pts nT nE nd) -> ind nT nE p = ind nT nE q -> p = q.
Proof.
  destruct p as [[a b] c], q as [[a' b'] c']. intros P Q E. apply in_pts in P, Q. cbn [ind] in E.
  assert (E1 : (a + (b + c * nE) * nT = a' + (b' + c' * nE) * nT)%nat) by nia.
  assert (a = a' /\ b + c * nE = b' + c' * nE)%nat as [-> E2].
  { destruct (Nat.lt_trichotomy (b + c * nE) (b' + c' * nE)) as [L|[L|L]]; [exfalso; nia|split; nia|exfalso; nia]. }
  assert (b = b' /\ c = c')%nat as [-> ->]; [|reflexivity].
  destruct (Nat.lt_trichotomy c c') as [L|[L|L]]; [exfalso; nia|split; nia|exfalso; nia].
Qed.
Lemma nodup_flat {A B} (h : A -> list B) : forall l, NoDup l -> (forall x, In x l -> NoDup (h x)) ->
  (forall x y b, In x l -> In y l -> In b (h x) -> In b (h y) -> x = y) -> NoDup (flat_map h l).
Proof.
  induction l as [|x l IH]; intros N H D; [constructor|]. cbn [flat_map]. apply NoDup_cons_iff in N. destruct N as [N1 N2].
  assert (G : NoDup (flat_map h l)) by (apply IH; [exact N2|intros y Y; apply H; now right|intros y z b Y Z; apply D; now right]).
  assert (K : forall b, In b (h x) -> ~ In b (flat_map h l)).
  { intros b B1 B2. apply in_flat_map in B2. destruct B2 as (y & Y & B2). rewrite (D x y b (or_introl eq_refl) (or_intror Y) B1 B2) in N1. contradiction. }
  specialize (H x (or_introl eq_refl)). revert H K. induction (h x) as [|b m IHm]; intros H K; [exact G|]. cbn [app]. apply NoDup_cons_iff in H. destruct H as [H1 H2].
  constructor; [|apply IHm; [exact H2|intros b' Hb; apply K; now right]]. intros I. apply in_app_or in I. destruct I as [I|I]; [contradiction|]. apply (K b (or_introl eq_refl) I).
Qed.
Lemma pts_nodup nT nE nd : NoDup (pts nT nE nd).
Proof.
  unfold pts. apply nodup_flat; [apply seq_NoDup| |].
  - intros z _. apply nodup_flat; [apply seq_NoDup| |].
    + intros x _. apply FinFun.Injective_map_NoDup; [|apply seq_NoDup]. intros y y' E. now injection E.
    + intros x y b _ _ B1 B2. apply in_map_iff in B1, B2. destruct B1 as (? & <- & _), B2 as (? & E & _). now injection E.
  - intros x y b _ _ B1 B2. apply in_flat_map in B1, B2. destruct B1 as (? & _ & B1), B2 as (? & _ & B2).
    apply in_map_iff in B1, B2. destruct B1 as (? & <- & _), B2 as (? & E & _). now injection E.
Qed.

Lemma axis_spec x0 st a : forall n i, (i < n)%nat -> axis n x0 st a i = x0 + INR i * st.
Proof.
  unfold axis. induction n as [|n IH]; intros i L; [lia|].
  change (Datatypes.S n) with (1 + n)%nat. rewrite loop_S. cbn [Nat.add].
  set (b := loop 0 n _ a) in *. clearbody b.
  destruct (Nat.eq_dec i n) as [->|Q].
  - destruct n as [|n]; cbn [Nat.eqb]; rewrite upd_same; [cbn; ring|].
    replace (S n - 1)%nat with n by lia. rewrite IH by lia. rewrite S_INR. ring.
  - destruct (n =? 0)%nat; rewrite upd_other by exact Q; apply IH; lia.
Qed.
Lemma scale_back_spec s a : forall n, (forall i, (i < n)%nat -> scale_back n s a i = a i * s) /\ (forall i, (n <= i)%nat -> scale_back n s a i = a i).
Proof.
  unfold scale_back. induction n as [|n [IH1 IH2]]; [split; intros i L; [lia|reflexivity]|].
  change (Datatypes.S n) with (1 + n)%nat. rewrite loop_S. cbn [Nat.add]. set (b := loop 0 n _ a) in *. clearbody b.
  split; intros i L.
  - destruct (Nat.eq_dec i n) as [->|Q]; [rewrite upd_same, IH2 by lia; reflexivity|]. rewrite upd_other by exact Q. apply IH1. lia.
  - rewrite upd_other by lia. apply IH2. lia.
Qed.

(** ** Selection *)
Lemma Rltb_spec a b : reflect (a < b) (Rltb a b).
Proof. unfold Rltb. destruct (Rlt_dec a b); constructor; assumption. Qed.
Lemma select_viscous r mech :
  let s := select r 0 0 mech in
  (forall c, dominant r c -> s = Some c) /\ ((forall c, ~ dominant r c) -> s = mech) /\
  (s = mech \/ exists c, dominant r c /\ s = Some c).
Proof.
  destruct r as [a b c d e].
  assert (D : forall code, dominant (Rates a b c d e) code ->
    (code = 1%Z /\ 0 < a /\ b < a /\ c < a /\ d < a /\ e < a \/ code = 2%Z /\ 0 < b /\ a < b /\ c < b /\ d < b /\ e < b \/
     code = 3%Z /\ 0 < c /\ a < c /\ b < c /\ d < c /\ e < c \/ code = 4%Z /\ 0 < d /\ a < d /\ b < d /\ c < d /\ e < d \/
     code = 6%Z /\ 0 < e /\ a < e /\ b < e /\ c < e /\ d < e)).
  { intros code (x & E & P & M). unfold rate_of in E.
    pose proof (M 1%Z a) as M1. pose proof (M 2%Z b) as M2. pose proof (M 3%Z c) as M3. pose proof (M 4%Z d) as M4. pose proof (M 6%Z e) as M6. clear M.
    destruct (Z.eqb_spec code 1) as [->|]; [left|]. { injection E as <-. repeat split; first [exact P|apply M1; (discriminate || reflexivity)|apply M2; (discriminate || reflexivity)|apply M3; (discriminate || reflexivity)|apply M4; (discriminate || reflexivity)|apply M6; (discriminate || reflexivity)]. }
    destruct (Z.eqb_spec code 2) as [->|]; [right; left|]. { injection E as <-. repeat split; first [exact P|apply M1; (discriminate || reflexivity)|apply M2; (discriminate || reflexivity)|apply M3; (discriminate || reflexivity)|apply M4; (discriminate || reflexivity)|apply M6; (discriminate || reflexivity)]. }
    destruct (Z.eqb_spec code 3) as [->|]; [right; right; left|]. { injection E as <-. repeat split; first [exact P|apply M1; (discriminate || reflexivity)|apply M2; (discriminate || reflexivity)|apply M3; (discriminate || reflexivity)|apply M4; (discriminate || reflexivity)|apply M6; (discriminate || reflexivity)]. }
    destruct (Z.eqb_spec code 4) as [->|]; [right; right; right; left|]. { injection E as <-. repeat split; first [exact P|apply M1; (discriminate || reflexivity)|apply M2; (discriminate || reflexivity)|apply M3; (discriminate || reflexivity)|apply M4; (discriminate || reflexivity)|apply M6; (discriminate || reflexivity)]. }
    destruct (Z.eqb_spec code 6) as [->|]; [right; right; right; right|discriminate]. injection E as <-. repeat split; first [exact P|apply M1; (discriminate || reflexivity)|apply M2; (discriminate || reflexivity)|apply M3; (discriminate || reflexivity)|apply M4; (discriminate || reflexivity)|apply M6; (discriminate || reflexivity)]. }
  assert (DD : forall code x, rate_of (Rates a b c d e) code = Some x -> 0 < x ->
      (code <> 1%Z -> a < x) -> (code <> 2%Z -> b < x) -> (code <> 3%Z -> c < x) -> (code <> 4%Z -> d < x) -> (code <> 6%Z -> e < x) -> dominant (Rates a b c d e) code).
  { intros code x E P Q1 Q2 Q3 Q4 Q6. exists x. split; [exact E|]. split; [exact P|]. intros c0 y N Y. unfold rate_of in Y. cbn [rt_pwl rt_lin rt_gbs rt_exp rt_cst] in Y.
    destruct (Z.eqb_spec c0 1) as [->|]; [injection Y as <-; auto|]. destruct (Z.eqb_spec c0 2) as [->|]; [injection Y as <-; auto|].
    destruct (Z.eqb_spec c0 3) as [->|]; [injection Y as <-; auto|]. destruct (Z.eqb_spec c0 4) as [->|]; [injection Y as <-; auto|].
    destruct (Z.eqb_spec c0 6) as [->|]; [injection Y as <-; auto|discriminate]. }
  assert (S : forall x l, beats x l = true <-> Forall (fun y => y < x) l).
  { intros x l. unfold beats. rewrite forallb_forall, Forall_forall. split; intros H y Y; specialize (H y Y); destruct (Rltb_spec y x); congruence || auto. }
  assert (I5 : beats 0 [0; a; d; b; c; e] = false). { destruct (beats 0 _) eqn:B; [|reflexivity]. apply S in B. apply Forall_inv in B. lra. }
  assert (I7 : beats 0 [0; a; d; b; c; e] = false) by exact I5.
  cbv zeta. unfold select. rewrite I5.
  destruct (beats a [0; 0; d; b; c; e]) eqn:B1; destruct (beats b [0; 0; d; a; c; e]) eqn:B2; destruct (beats c [0; 0; b; a; d; e]) eqn:B3;
  destruct (beats d [0; 0; b; a; c; e]) eqn:B4; destruct (beats e [0; a; d; b; c; 0]) eqn:B6;
  repeat match goal with H : beats _ _ = true |- _ => apply S in H; rewrite ?Forall_cons_iff in H end; try (exfalso; lra).
  all: split; [|split].
  all: try (intros code Hc; apply D in Hc; destruct Hc as [(-> & Hc)|[(-> & Hc)|[(-> & Hc)|[(-> & Hc)|(-> & Hc)]]]]; try reflexivity; exfalso;
    try lra; repeat match goal with H : beats ?x ?l = false |- _ => assert (beats x l = true) by (apply S; repeat (apply Forall_cons; [lra|]); apply Forall_nil); congruence end).
  all: try (intros N; reflexivity).
  all: try (left; reflexivity).
  all: try (intros N; exfalso; first [solve [apply (N 1%Z), (DD 1%Z a); (reflexivity || lra || (intros; (lra || congruence)))]|solve [apply (N 2%Z), (DD 2%Z b); (reflexivity || lra || (intros; (lra || congruence)))]|solve [apply (N 3%Z), (DD 3%Z c); (reflexivity || lra || (intros; (lra || congruence)))]|solve [apply (N 4%Z), (DD 4%Z d); (reflexivity || lra || (intros; (lra || congruence)))]|solve [apply (N 6%Z), (DD 6%Z e); (reflexivity || lra || (intros; (lra || congruence)))]]).
  all: right; first [exists 1%Z; split; [|reflexivity]; apply (DD 1%Z a); (reflexivity || lra || (intros; (lra || congruence)))
                    |exists 2%Z; split; [|reflexivity]; apply (DD 2%Z b); (reflexivity || lra || (intros; (lra || congruence)))
                    |exists 3%Z; split; [|reflexivity]; apply (DD 3%Z c); (reflexivity || lra || (intros; (lra || congruence)))
                    |exists 4%Z; split; [|reflexivity]; apply (DD 4%Z d); (reflexivity || lra || (intros; (lra || congruence)))
                    |exists 6%Z; split; [|reflexivity]; apply (DD 6%Z e); (reflexivity || lra || (intros; (lra || congruence)))].
Qed.

(** ** One phase *)
Section Phase.
  Variables (f : law) (k nT nE nd : nat) (T E d : nat -> R).
  (** What the law gives at a point, without correction factors. *)
  Definition at_point (p : nat * nat * nat) : R * R * rates := let '(ix, iy, iz) := p in f 1 1 1 0 (d iz) k (T ix) (d iz) (E iy).
  Definition visit (s : maps) (p : nat * nat * nat) : maps :=
    let '(eta, txx, r) := at_point p in
    let mech := select r 0 0 (mp_mech s) in
    MkMaps mech (upd (mp_dom s) (ind nT nE p) mech) (upd (mp_stress s) (ind nT nE p) txx) (upd (mp_visco s) (ind nT nE p) eta).

  Lemma fold_visit : forall l s0, NoDup l -> (forall p, In p l -> In p (pts nT nE nd)) ->
    let s := fold_left visit l s0 in
    forall l1 p l2, l = l1 ++ p :: l2 ->
      mp_dom s (ind nT nE p) = select (snd (at_point p)) 0 0 (mp_mech (fold_left visit l1 s0)) /\
      mp_stress s (ind nT nE p) = snd (fst (at_point p)) /\ mp_visco s (ind nT nE p) = fst (fst (at_point p)) /\
      mp_mech (fold_left visit (l1 ++ [p]) s0) = mp_dom s (ind nT nE p).
  Proof.
    induction l as [|q l IH] using rev_ind; intros s0 N H; cbv zeta; intros l1 p l2 L; [destruct l1; discriminate|].
    rewrite fold_left_app. cbn [fold_left]. set (s := fold_left visit l s0) in *.
    apply NoDup_remove in N as N'. rewrite app_nil_r in N'. destruct N' as [N1 N2].
    assert (M : forall u, visit u q = MkMaps (select (snd (at_point q)) 0 0 (mp_mech u)) (upd (mp_dom u) (ind nT nE q) (select (snd (at_point q)) 0 0 (mp_mech u)))
        (upd (mp_stress u) (ind nT nE q) (snd (fst (at_point q)))) (upd (mp_visco u) (ind nT nE q) (fst (fst (at_point q))))).
    { intros u. unfold visit. destruct (at_point q) as [[eta txx] r]. reflexivity. }
    destruct l2 as [|x l2 _] using rev_ind.
    - apply app_inj_tail in L. destruct L as [-> ->]. rewrite M. cbn [mp_dom mp_stress mp_visco]. rewrite !upd_same.
      rewrite fold_left_app. cbn [fold_left]. rewrite M. repeat split.
    - rewrite app_comm_cons, app_assoc in L. apply app_inj_tail in L. destruct L as [L ->].
      assert (P : In p l) by (rewrite L; apply in_or_app; right; now left).
      assert (Q : ind nT nE p <> ind nT nE x).
      { intros A. apply (ind_inj nT nE nd) in A; [subst; contradiction|apply H, in_or_app; now left|apply H, in_or_app; right; now left]. }
      rewrite M. cbn [mp_dom mp_stress mp_visco]. rewrite !upd_other by exact Q.
      apply (IH s0 N1 (fun p' P' => H p' (in_or_app _ _ _ (or_introl P'))) l1 p l2 L).
  Qed.

  (** The loops with the changed materials. *)
  Lemma outer m s : mt_lin m k = 1 -> mt_gbs m k = 1 -> mt_pwl m k = 1 -> mt_texp m k = 0 ->
    let r := loop 0 nd (fun ms iz =>
      let '(m, s) := ms in
      let m := Mats (mt_lin m) (mt_gbs m) (mt_pwl m) (mt_texp m) (upd (mt_gs m) k (d iz)) in
      (m, loop 0 nT (fun s ix => loop 0 nE (fun s iy => point f k nT nE m T E d ix iy iz s) s) s)) (m, s) in
    snd r = fold_left visit (pts nT nE nd) s /\
    mt_lin (fst r) = mt_lin m /\ mt_gbs (fst r) = mt_gbs m /\ mt_pwl (fst r) = mt_pwl m /\ mt_texp (fst r) = mt_texp m /\
    (forall j, j <> k -> mt_gs (fst r) j = mt_gs m j).
  Proof.
    intros A1 A2 A3 A4. cbv zeta. rewrite <- fold_pts. induction nd as [|n IH].
    - cbn. repeat split.
    - change (Datatypes.S n) with (1 + n)%nat. rewrite !loop_S. cbn [Nat.add].
      set (r := loop 0 n _ (m, s)) in *. set (t := loop 0 n _ s) in *. clearbody r t. destruct r as [m1 s1]. cbn [fst snd] in *.
      destruct IH as (-> & B1 & B2 & B3 & B4 & B5). split; [|repeat split; try assumption].
      + assert (G : forall u ix iy, point f k nT nE (Mats (mt_lin m1) (mt_gbs m1) (mt_pwl m1) (mt_texp m1) (upd (mt_gs m1) k (d n))) T E d ix iy n u = visit u (ix, iy, n)).
        { intros u ix iy. unfold point, visit, at_point. cbn [mt_lin mt_gbs mt_pwl mt_texp mt_gs]. rewrite B1, B2, B3, B4, A1, A2, A3, A4, upd_same. reflexivity. }
        unfold loop. clear -G. generalize t as u. induction (seq 0 nT) as [|x lx IHx]; intros u; [reflexivity|]. cbn [fold_left].
        rewrite IHx. f_equal. clear IHx. revert u. induction (seq 0 nE) as [|y ly IHy]; intros u; [reflexivity|]. cbn [fold_left]. now rewrite IHy, G.
      + intros j J. cbn [mt_gs]. rewrite upd_other by exact J. now apply B5.
  Qed.

  Lemma phase_map_spec sc mem m mech :
    let '(o, (m', mech')) := phase_map f sc nT nE nd k T E d mem (m, mech) in
    let s := fold_left visit (pts nT nE nd) (MkMaps mech (fun _ => None) mem mem) in
    o = File (scale_back nT (sc_T sc) T) (scale_back nE (sc_E sc) E) (scale_back nd (sc_L sc) d)
      (scale_back (nT * nE * nd) (sc_S sc) (mp_stress s)) (scale_back (nT * nE * nd) (sc_eta sc) (mp_visco s)) (mp_dom s) /\
    (forall j, mt_lin m' j = mt_lin m j /\ mt_gbs m' j = mt_gbs m j /\ mt_pwl m' j = mt_pwl m j /\ mt_texp m' j = mt_texp m j /\ mt_gs m' j = mt_gs m j).
  Proof.
    unfold phase_map. cbv zeta.
    set (m0 := Mats (upd (mt_lin m) k 1) (upd (mt_gbs m) k 1) (upd (mt_pwl m) k 1) (upd (mt_texp m) k 0) (mt_gs m)).
    destruct (outer m0 (MkMaps mech (fun _ => None) mem mem)) as (O1 & O2 & O3 & O4 & O5 & O6); try (unfold m0; cbn; apply upd_same).
    cbv zeta in *. set (r := loop 0 nd _ (m0, _)) in *. clearbody r. destruct r as [m1 s1]. cbn [fst snd] in *. rewrite O1. split; [reflexivity|].
    intros j. cbn [mt_lin mt_gbs mt_pwl mt_texp mt_gs]. rewrite O2, O3, O4, O5. unfold m0. cbn [mt_lin mt_gbs mt_pwl mt_texp].
    destruct (Nat.eq_dec j k) as [->|J]; [rewrite !upd_same; repeat split|]. rewrite !upd_other by exact J. repeat split. now apply O6.
  Qed.
End Phase.

(** ** All phases *)
Section Maps.
  Variables (f : law) (sc : scales) (nph : nat) (bT bE bd : bounds) (mem : nat -> R) (m : mats).
  Let out := deformation_maps f sc nph bT bE bd mem m.
  Definition temp (i : nat) : R := even (bd_n bT) (bd_lo bT) (bd_hi bT) i.
  Definition rate (i : nat) : R := Rpower 10 (even (bd_n bE) (bd_lo bE) (bd_hi bE) i).
  Definition grain (i : nat) : R := Rpower 10 (even (bd_n bd) (bd_lo bd) (bd_hi bd) i).
  (** The law of phase k, all corrections off, at the physical strain rate and grain size. *)
  Definition expected (k ix iy iz : nat) : R * R * rates :=
    f 1 1 1 0 (grain iz / sc_L sc) k (temp ix) (grain iz / sc_L sc) (rate iy / sc_E sc).
  Definition pos (ix iy iz : nat) : nat := (ix + bd_n bT * (iy + bd_n bE * iz))%nat.

  Let T := axis (bd_n bT) (bd_lo bT) (step_of (bd_n bT) (bd_lo bT) (bd_hi bT)) mem.
  Let E i := decade (axis (bd_n bE) (bd_lo bE) (step_of (bd_n bE) (bd_lo bE) (bd_hi bE)) mem i) (sc_E sc).
  Let d i := decade (axis (bd_n bd) (bd_lo bd) (step_of (bd_n bd) (bd_lo bd) (bd_hi bd)) mem i) (sc_L sc).

  Lemma phases : forall n,
    let r := loop 0 n (fun fs k =>
      let '(files, st) := fs in
      let '(o, st) := phase_map f sc (bd_n bT) (bd_n bE) (bd_n bd) k T E d mem st in
      (fun j => if (j =? k)%nat then o else files j, st)) (fun _ => File mem mem mem mem mem (fun _ => None), (m, None)) in
    (forall k, (k < n)%nat -> exists mech, (k = 0%nat -> mech = None) /\
       let s := fold_left (visit f k (bd_n bT) (bd_n bE) T E d) (pts (bd_n bT) (bd_n bE) (bd_n bd)) (MkMaps mech (fun _ => None) mem mem) in
       let n := (bd_n bT * bd_n bE * bd_n bd)%nat in
       fst r k = File (scale_back (bd_n bT) (sc_T sc) T) (scale_back (bd_n bE) (sc_E sc) E) (scale_back (bd_n bd) (sc_L sc) d)
         (scale_back n (sc_S sc) (mp_stress s)) (scale_back n (sc_eta sc) (mp_visco s)) (mp_dom s)) /\
    (forall j, mt_lin (fst (snd r)) j = mt_lin m j /\ mt_gbs (fst (snd r)) j = mt_gbs m j /\ mt_pwl (fst (snd r)) j = mt_pwl m j /\
       mt_texp (fst (snd r)) j = mt_texp m j /\ mt_gs (fst (snd r)) j = mt_gs m j) /\
    (n = 0%nat -> snd (snd r) = None).
  Proof.
    cbv zeta. induction n as [|n IH].
    - cbn. split; [intros k K; lia|]. split; [repeat split|reflexivity].
    - change (Datatypes.S n) with (1 + n)%nat. rewrite loop_S. cbn [Nat.add].
      set (r := loop 0 n _ _) in *. clearbody r. destruct r as [files [m1 mech1]]. cbn [fst snd] in IH. destruct IH as (A & B & C).
      pose proof (phase_map_spec f n (bd_n bT) (bd_n bE) (bd_n bd) T E d sc mem m1 mech1) as P.
      destruct (phase_map f sc (bd_n bT) (bd_n bE) (bd_n bd) n T E d mem (m1, mech1)) as [o [m2 mech2]]. cbn zeta in P. destruct P as [P1 P2].
      cbn [fst snd]. split; [|split; [|discriminate]].
      + intros k K. destruct (Nat.eqb_spec k n) as [->|Q].
        * exists mech1. split; [exact C|]. exact P1.
        * apply A. lia.
      + intros j. destruct (P2 j) as (-> & -> & -> & -> & ->). apply B.
  Qed.

  Lemma axes : (forall i, (i < bd_n bT)%nat -> T i = temp i) /\ (forall i, (i < bd_n bE)%nat -> E i = rate i / sc_E sc) /\ (forall i, (i < bd_n bd)%nat -> d i = grain i / sc_L sc).
  Proof.
    repeat split; intros i L; [unfold T|unfold E, decade|unfold d, decade]; rewrite axis_spec by exact L; reflexivity.
  Qed.
  Lemma at_expected k ix iy iz : (ix < bd_n bT)%nat -> (iy < bd_n bE)%nat -> (iz < bd_n bd)%nat -> at_point f k T E d (ix, iy, iz) = expected k ix iy iz.
  Proof. intros A B C. unfold at_point, expected. destruct axes as (X & Y & Z). now rewrite X, Y, Z. Qed.

  (** The file of every phase holds the three axes in physical units, evenly spaced (in the
      logarithm for strain rate and grain size), and at every point of the map the stress
      and viscosity of that phase there, in physical units, and the number of the mechanism
      that is faster than all others, if there is one. *)
  Theorem C125_maps : 0 < sc_E sc -> 0 < sc_L sc -> forall k, (k < nph)%nat -> let fl := fst out k in
    (forall ix, (ix < bd_n bT)%nat -> fl_T fl ix = temp ix * sc_T sc) /\
    (forall iy, (iy < bd_n bE)%nat -> fl_E fl iy = rate iy) /\
    (forall iz, (iz < bd_n bd)%nat -> fl_d fl iz = grain iz) /\
    (forall ix iy iz, (ix < bd_n bT)%nat -> (iy < bd_n bE)%nat -> (iz < bd_n bd)%nat -> let '(eta, txx, r) := expected k ix iy iz in
       fl_stress fl (pos ix iy iz) = txx * sc_S sc /\ fl_visco fl (pos ix iy iz) = eta * sc_eta sc /\
       (forall c, dominant r c -> fl_map fl (pos ix iy iz) = Some c)).
  Proof.
    intros PE PL k K. cbv zeta. destruct (phases nph) as [P _]. cbv zeta in P. destruct (P k K) as (mech & _ & Q). clear P.
    change (fst out k) with (fst (deformation_maps f sc nph bT bE bd mem m) k). unfold deformation_maps. cbv zeta. fold T. fold E. fold d. rewrite Q. clear Q.
    cbn [fl_T fl_E fl_d fl_stress fl_visco fl_map]. destruct axes as (X & Y & Z).
    split; [|split; [|split]].
    - intros i L. rewrite (proj1 (scale_back_spec _ _ _)) by exact L. now rewrite X.
    - intros i L. rewrite (proj1 (scale_back_spec _ _ _)) by exact L. rewrite Y by exact L. field. lra.
    - intros i L. rewrite (proj1 (scale_back_spec _ _ _)) by exact L. rewrite Z by exact L. field. lra.
    - intros ix iy iz A B C.
      assert (I : In (ix, iy, iz) (pts (bd_n bT) (bd_n bE) (bd_n bd))) by (apply in_pts; auto).
      apply in_split in I. destruct I as (l1 & l2 & L).
      pose proof (fold_visit f k (bd_n bT) (bd_n bE) (bd_n bd) T E d (pts (bd_n bT) (bd_n bE) (bd_n bd)) (MkMaps mech (fun _ => None) mem mem)
        (pts_nodup _ _ _) (fun p H => H) l1 (ix, iy, iz) l2 L) as V. cbv zeta in V.
      rewrite (at_expected k ix iy iz A B C) in V. destruct V as (V1 & V2 & V3 & _).
      replace (ind (bd_n bT) (bd_n bE) (ix, iy, iz)) with (pos ix iy iz) in * by (unfold ind, pos; nia).
      assert (PN : (pos ix iy iz < bd_n bT * bd_n bE * bd_n bd)%nat).
      { unfold pos. assert (iy + bd_n bE * iz + 1 <= bd_n bE * bd_n bd)%nat by nia. nia. }
      destruct (expected k ix iy iz) as [[eta txx] r]. cbn [fst snd] in *.
      rewrite !(proj1 (scale_back_spec _ _ _)) by exact PN. rewrite V1, V2, V3. split; [reflexivity|]. split; [reflexivity|].
      intros c D. now apply select_viscous.
  Qed.

  (** The materials are as before afterwards. *)
  Theorem C125_restores : forall j, let m' := fst (snd out) in
    mt_lin m' j = mt_lin m j /\ mt_gbs m' j = mt_gbs m j /\ mt_pwl m' j = mt_pwl m j /\ mt_texp m' j = mt_texp m j /\ mt_gs m' j = mt_gs m j.
  Proof. intros j. cbv zeta. exact (proj1 (proj2 (phases nph)) j). Qed.

  (** Refuted: the map is a function of the point. Where two mechanisms are equally fast, or
      all rates are zero, a point repeats the mechanism of the previous strain rate; at the
      very first point of the first map the value is indeterminate. *)
  Theorem C125_tie_refuted : forall k ix iy iz, (k < nph)%nat -> (ix < bd_n bT)%nat -> (iy < bd_n bE)%nat -> (iz < bd_n bd)%nat ->
    (forall c, ~ dominant (snd (expected k ix iy iz)) c) ->
    ((0 < iy)%nat -> fl_map (fst out k) (pos ix iy iz) = fl_map (fst out k) (pos ix (iy - 1) iz)) /\
    (k = 0%nat -> ix = 0%nat -> iy = 0%nat -> iz = 0%nat -> fl_map (fst out k) (pos ix iy iz) = None).
  Proof.
    intros k ix iy iz K A B C N. destruct (phases nph) as [P _]. cbv zeta in P. destruct (P k K) as (mech & M0 & Q). clear P.
    change (fst out k) with (fst (deformation_maps f sc nph bT bE bd mem m) k). unfold deformation_maps. cbv zeta. fold T. fold E. fold d. rewrite Q. clear Q.
    cbn [fl_map].
    pose proof (fold_visit f k (bd_n bT) (bd_n bE) (bd_n bd) T E d (pts (bd_n bT) (bd_n bE) (bd_n bd)) (MkMaps mech (fun _ => None) mem mem)
        (pts_nodup _ _ _) (fun p H => H)) as V. cbv zeta in V.
    assert (R : forall x y z, ind (bd_n bT) (bd_n bE) (x, y, z) = pos x y z) by (intros x y z; unfold ind, pos; nia).
    split.
    - intros Y. set (l := pts (bd_n bT) (bd_n bE) (bd_n bd)) in *.
      assert (S : exists l1 l2, l = (l1 ++ [(ix, (iy - 1)%nat, iz)]) ++ (ix, iy, iz) :: l2).
      { unfold l, pts. assert (SZ : seq 0 (bd_n bd) = seq 0 iz ++ iz :: seq (S iz) (bd_n bd - S iz)).
        { replace (bd_n bd) with (iz + S (bd_n bd - S iz))%nat at 1 by lia. rewrite seq_app. reflexivity. }
        assert (SX : seq 0 (bd_n bT) = seq 0 ix ++ ix :: seq (S ix) (bd_n bT - S ix)).
        { replace (bd_n bT) with (ix + S (bd_n bT - S ix))%nat at 1 by lia. rewrite seq_app. reflexivity. }
        assert (SY : seq 0 (bd_n bE) = seq 0 (iy - 1) ++ (iy - 1)%nat :: iy :: seq (S iy) (bd_n bE - S iy)).
        { replace (bd_n bE) with ((iy - 1) + S (S (bd_n bE - S iy)))%nat at 1 by lia. rewrite seq_app. cbn [seq Nat.add]. replace (S (iy - 1)) with iy by lia. reflexivity. }
        rewrite SZ, flat_map_app. cbn [flat_map]. rewrite SX, flat_map_app. cbn [flat_map]. rewrite SY, map_app. cbn [map].
        match goal with |- exists l1 l2, ?a ++ (?b ++ (?c ++ ?p :: ?q :: ?e) ++ ?g) ++ ?h = _ => exists (a ++ b ++ c), (e ++ g ++ h) end.
        repeat (rewrite <- ?app_assoc; cbn [app]). reflexivity. }
      destruct S as (l1 & l2 & L).
      destruct (V (l1 ++ [(ix, (iy - 1)%nat, iz)]) (ix, iy, iz) l2 L) as (V1 & _).
      rewrite <- app_assoc in L. cbn [app] in L. destruct (V l1 (ix, (iy - 1)%nat, iz) ((ix, iy, iz) :: l2) L) as (_ & _ & _ & V4).
      rewrite V4 in V1. rewrite at_expected in V1 by assumption. rewrite !R in V1. rewrite V1. now apply select_viscous.
    - intros -> -> -> ->. rewrite (M0 eq_refl) in *.
      assert (S : exists l2, pts (bd_n bT) (bd_n bE) (bd_n bd) = [] ++ (0%nat, 0%nat, 0%nat) :: l2).
      { unfold pts. destruct (bd_n bd) as [|nd]; [lia|]. destruct (bd_n bT) as [|nT]; [lia|]. destruct (bd_n bE) as [|nE]; [lia|]. cbn. eexists. reflexivity. }
      destruct S as (l2 & L). destruct (V [] (0, 0, 0)%nat l2 L) as (V1 & _). rewrite at_expected in V1 by assumption. rewrite R in V1. rewrite V1.
      apply select_viscous. exact N.
  Qed.

  (** Refuted: the map shows plastic (5) and elastic (7) deformation. It never does, whatever
      the material: the two rates are only computed when post-processing is requested. *)
  Theorem C125_no_plasticity_refuted : forall k ix iy iz, (k < nph)%nat -> (ix < bd_n bT)%nat -> (iy < bd_n bE)%nat -> (iz < bd_n bd)%nat ->
    fl_map (fst out k) (pos ix iy iz) <> Some 5%Z /\ fl_map (fst out k) (pos ix iy iz) <> Some 7%Z.
  Proof.
    assert (D : forall r c, dominant r c -> c <> 5%Z /\ c <> 7%Z).
    { intros r c (x & X & _). split; intros ->; discriminate. }
    set (ok := fun o : option Z => o <> Some 5%Z /\ o <> Some 7%Z).
    assert (Sel : forall r o, ok o -> ok (select r 0 0 o)).
    { intros r o O. destruct (proj2 (proj2 (select_viscous r o))) as [-> |(c & Dc & ->)]; [exact O|]. apply D in Dc. destruct Dc. split; intros X; injection X; auto. }
    assert (Fold : forall k l s, ok (mp_mech s) -> ok (mp_mech (fold_left (visit f k (bd_n bT) (bd_n bE) T E d) l s))).
    { intros k. induction l as [|p l IH]; intros s O; [exact O|]. cbn [fold_left]. apply IH. unfold visit. destruct (at_point f k T E d p) as [[eta txx] r]. cbn [mp_mech]. now apply Sel. }
    (* the mechanism carried from phase to phase *)
    assert (Run : forall n, let r := loop 0 n (fun fs k =>
        let '(files, st) := fs in
        let '(o, st) := phase_map f sc (bd_n bT) (bd_n bE) (bd_n bd) k T E d mem st in
        (fun j => if (j =? k)%nat then o else files j, st)) (fun _ => File mem mem mem mem mem (fun _ => None), (m, None)) in
      ok (snd (snd r)) /\ forall k, (k < n)%nat -> forall ix iy iz, (ix < bd_n bT)%nat -> (iy < bd_n bE)%nat -> (iz < bd_n bd)%nat -> ok (fl_map (fst r k) (pos ix iy iz))).
    { cbv zeta. induction n as [|n IH].
      - cbn. split; [split; discriminate|intros k K; lia].
      - change (Datatypes.S n) with (1 + n)%nat. rewrite loop_S. cbn [Nat.add].
        set (r := loop 0 n _ _) in *. clearbody r. destruct r as [files [m1 mech1]]. cbn [fst snd] in IH. destruct IH as (A & B).
        unfold phase_map. cbv zeta.
        set (m0 := Mats (upd (mt_lin m1) n 1) (upd (mt_gbs m1) n 1) (upd (mt_pwl m1) n 1) (upd (mt_texp m1) n 0) (mt_gs m1)).
        destruct (outer f n (bd_n bT) (bd_n bE) (bd_n bd) T E d m0 (MkMaps mech1 (fun _ => None) mem mem)) as (O1 & _); try (unfold m0; cbn; apply upd_same).
        cbv zeta in *. set (r := loop 0 (bd_n bd) _ (m0, _)) in *. clearbody r. destruct r as [m2 s2]. cbn [fst snd] in *. rewrite O1. clear O1.
        split; [apply Fold; exact A|]. intros k K ix iy iz X Y Z. destruct (Nat.eqb_spec k n) as [->|Q]; [|apply B; auto; lia]. cbn [fl_map].
        assert (I : In (ix, iy, iz) (pts (bd_n bT) (bd_n bE) (bd_n bd))) by (apply in_pts; auto).
        apply in_split in I. destruct I as (l1 & l2 & L).
        destruct (fold_visit f n (bd_n bT) (bd_n bE) (bd_n bd) T E d (pts (bd_n bT) (bd_n bE) (bd_n bd)) (MkMaps mech1 (fun _ => None) mem mem)
          (pts_nodup _ _ _) (fun p H => H) l1 (ix, iy, iz) l2 L) as (V1 & _). cbv zeta in V1.
        replace (ind (bd_n bT) (bd_n bE) (ix, iy, iz)) with (pos ix iy iz) in * by (unfold ind, pos; nia). rewrite V1. apply Sel, Fold. exact A. }
    intros k ix iy iz K X Y Z. exact (proj2 (Run nph) k K ix iy iz X Y Z).
  Qed.
End Maps.
Print Assumptions C125_maps.
Print Assumptions C125_restores.
Print Assumptions C125_tie_refuted.
Print Assumptions C125_no_plasticity_refuted.

(** One phase, three temperatures, two strain rates, one grain size; power-law creep is
    faster above temperature 1: the map of the hottest point shows dislocation creep, the
    axis ends at Tmax. *)
Example C125_ex :
  let f : law := fun _ _ _ _ _ _ T _ e => (2, 4 * e, if Rlt_dec 1 T then Rates 3 1 0 0 0 else Rates 1 3 0 0 0) in
  let out := deformation_maps f (Scales 100 1 1 10 1) 1 (Bounds 3 0 2) (Bounds 2 0 1) (Bounds 1 0 0) (fun _ => 0) (Mats (fun _ => 5) (fun _ => 5) (fun _ => 5) (fun _ => 5) (fun _ => 5)) in
  fl_map (fst out 0%nat) 5 = Some 1%Z /\ fl_map (fst out 0%nat) 0 = Some 2%Z /\ fl_stress (fst out 0%nat) 3 = 400 /\ fl_T (fst out 0%nat) 2 = 200 /\ mt_gs (fst (snd out)) 0%nat = 5.
Proof.
  cbv zeta.
  set (f := fun _ _ _ _ _ _ T _ e => (2, 4 * e, if Rlt_dec 1 T then Rates 3 1 0 0 0 else Rates 1 3 0 0 0)).
  destruct (C125_maps f (Scales 100 1 1 10 1) 1 (Bounds 3 0 2) (Bounds 2 0 1) (Bounds 1 0 0) (fun _ => 0) (Mats (fun _ => 5) (fun _ => 5) (fun _ => 5) (fun _ => 5) (fun _ => 5)) ltac:(cbn; lra) ltac:(cbn; lra) 0%nat ltac:(lia)) as (A & _ & _ & D).
  split; [|split; [|split; [|split]]].
  - specialize (D 2%nat 1%nat 0%nat ltac:(cbn; lia) ltac:(cbn; lia) ltac:(cbn; lia)). cbn [pos bd_n] in D. unfold expected, f in D.
    destruct (Rlt_dec 1 _) as [_|N].
    + destruct D as (_ & _ & D). apply D. exists 3. split; [reflexivity|]. split; [lra|]. intros c y N Y. unfold rate_of in Y. cbn in Y.
      destruct (Z.eqb_spec c 1); [contradiction|]. destruct (Z.eqb_spec c 2); [injection Y as <-; lra|]. destruct (Z.eqb_spec c 3); [injection Y as <-; lra|].
      destruct (Z.eqb_spec c 4); [injection Y as <-; lra|]. destruct (Z.eqb_spec c 6); [injection Y as <-; lra|discriminate].
    + exfalso. apply N. unfold temp, even. cbn. lra.
  - specialize (D 0%nat 0%nat 0%nat ltac:(cbn; lia) ltac:(cbn; lia) ltac:(cbn; lia)). cbn [pos bd_n] in D. unfold expected, f in D.
    destruct (Rlt_dec 1 _) as [N|_].
    + exfalso. revert N. unfold temp, even. cbn. lra.
    + destruct D as (_ & _ & D). apply D. exists 3. split; [reflexivity|]. split; [lra|]. intros c y N Y. unfold rate_of in Y. cbn in Y.
      destruct (Z.eqb_spec c 1); [injection Y as <-; lra|]. destruct (Z.eqb_spec c 2); [contradiction|]. destruct (Z.eqb_spec c 3); [injection Y as <-; lra|].
      destruct (Z.eqb_spec c 4); [injection Y as <-; lra|]. destruct (Z.eqb_spec c 6); [injection Y as <-; lra|discriminate].
  - specialize (D 0%nat 1%nat 0%nat ltac:(cbn; lia) ltac:(cbn; lia) ltac:(cbn; lia)). cbn [pos bd_n] in D. unfold expected, f in D.
    destruct D as (D & _). replace 3%nat with (0 + 3 * (1 + 2 * 0))%nat by reflexivity. etransitivity; [exact D|]. unfold rate, even. cbn [bd_n bd_lo bd_hi sc_E sc_S].
    replace (0 + INR 1 * ((1 - 0) / (INR 2 - 1))) with 1 by (cbn; lra). rewrite Rpower_1 by lra. lra.
  - rewrite A by (cbn; lia). unfold temp, even. cbn. lra.
  - apply C125_restores.
Qed.
