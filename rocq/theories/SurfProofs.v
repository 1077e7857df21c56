(** * The surface chain: specification and lemmas *)
From Coq Require Import ZArith Reals List Bool Arith Lia Lra.
Import ListNotations.
From Verif Require Import GridModel GridProofs TimeStepModel P2GModel P2GProofs AdvModel FlagModel FlagProps SurfModel.
Local Open Scope R_scope.

(** ** Specification *)

(** [z] is the height at [x] of the broken line through the heights of the vertices
    [xmin + k dx], [k = 0 .. ncx]. *)
Definition polyline (ncx : nat) (xmin dx : R) (height : nat -> R) (x z : R) : Prop :=
  exists k w, (k < ncx)%nat /\ 0 <= w <= 1 /\ x = xmin + (INR k + w) * dx /\
              z = (1 - w) * height k + w * height (k + 1)%nat.

Lemma polyline_unique ncx xmin dx h x z z' : dx > 0 ->
  polyline ncx xmin dx h x z -> polyline ncx xmin dx h x z' -> z = z'.
Proof.
  intros D (k & w & K & W & X & HZ) (k' & w' & K' & W' & X' & HZ').
  assert (E : INR k + w = INR k' + w').
  { apply Rmult_eq_reg_r with dx; [|lra]. lra. }
  destruct (Nat.lt_trichotomy k k') as [L|[->|L]].
  - apply le_INR in L as L2. rewrite S_INR in L2.
    assert (w = 1) by lra. assert (w' = 0) by lra.
    assert (k' = (k + 1)%nat). { apply INR_eq. rewrite plus_INR. cbn [INR]. lra. }
    subst w w' k'. rewrite HZ, HZ'. lra.
  - assert (w = w') by lra. subst w'. rewrite HZ, HZ'. reflexivity.
  - apply le_INR in L as L2. rewrite S_INR in L2.
    assert (w' = 1) by lra. assert (w = 0) by lra.
    assert (k = (k' + 1)%nat). { apply INR_eq. rewrite plus_INR. cbn [INR]. lra. }
    subst w w' k. rewrite HZ, HZ'. lra.
Qed.

(** ** Columns *)
Lemma column_raw_spec x0 dx x : dx > 0 ->
  let c := column_raw x0 dx x in
  x0 - dx / 2 + IZR c * dx < x <= x0 - dx / 2 + (IZR c + 1) * dx.
Proof.
  intros D c. unfold c, column_raw. rewrite minus_IZR.
  destruct (Zceil_spec ((x - x0) / dx + 1 / 2)) as [A B].
  set (z := IZR (Zceil ((x - x0) / dx + 1 / 2))) in *.
  assert (E : x = x0 + ((x - x0) / dx) * dx) by (field; lra).
  set (q := (x - x0) / dx) in *. rewrite E. split; nra.
Qed.

Lemma clampz_range n c : (0 < n)%Z -> (0 <= clampz n c < n)%Z.
Proof.
  intro N. unfold clampz. destruct (Z.ltb_spec c 0); [destruct (Z.ltb_spec (n - 1) 0)|destruct (Z.ltb_spec (n - 1) c)]; lia.
Qed.
Lemma clampz_id n c : (0 <= c < n)%Z -> clampz n c = c.
Proof. intro N. unfold clampz. destruct (Z.ltb_spec c 0); [lia|]. destruct (Z.ltb_spec (n - 1) c); lia. Qed.

Lemma column_lt ncx x0 dx x : (1 <= ncx)%nat -> (column ncx x0 dx x < ncx)%nat.
Proof. intro N. unfold column. pose proof (clampz_range (Z.of_nat ncx) (column_raw x0 dx x) ltac:(lia)). lia. Qed.

Lemma IZR_le_lt_1 a b : IZR a < IZR b + 1 -> (a <= b)%Z.
Proof. intro H. replace 1 with (IZR 1) in H by reflexivity. rewrite <- plus_IZR in H. apply lt_IZR in H. lia. Qed.

Lemma column_inside ncx xmin dx x : (1 <= ncx)%nat -> dx > 0 -> xmin <= x <= xmin + INR ncx * dx ->
  let k := column ncx (xmin + dx / 2) dx x in
  (k < ncx)%nat /\ xmin + INR k * dx <= x <= xmin + (INR k + 1) * dx.
Proof.
  intros N D X k. split; [apply column_lt, N|].
  pose proof (column_raw_spec (xmin + dx / 2) dx x D) as S. cbv zeta in S.
  unfold k, column. set (c := column_raw (xmin + dx / 2) dx x) in *.
  replace (xmin + dx / 2 - dx / 2) with xmin in S by lra.
  assert (c < Z.of_nat ncx)%Z.
  { apply lt_IZR. rewrite <- INR_IZR_INZ. apply Rmult_lt_reg_r with dx; lra. }
  assert (-1 <= c)%Z.
  { apply IZR_le_lt_1. apply Rmult_lt_reg_r with dx; [lra|]. 
    replace (IZR (-1)) with (-1) by reflexivity.
    assert (0 <= (IZR c + 1) * dx) by lra. nra. }
  destruct (Z.eq_dec c (-1)) as [E|E].
  - rewrite E in *. replace (clampz (Z.of_nat ncx) (-1)) with 0%Z.
    + cbn [Z.to_nat INR]. split; [lra|]. lra.
    + unfold clampz. cbn. destruct (Z.ltb_spec (Z.of_nat ncx - 1) 0); lia.
  - rewrite clampz_id by lia. rewrite INR_IZR_INZ, Z2Nat.id by lia. lra.
Qed.

(** The coefficients of a column describe the polyline. *)
Lemma fit_on_column ncx xmin dx xg h k x : dx > 0 -> (k < ncx)%nat ->
  (forall i, xg i = xmin + INR i * dx) -> xmin + INR k * dx <= x <= xmin + (INR k + 1) * dx ->
  polyline ncx xmin dx h x (fit_b dx xg h k + fit_a dx h k * x).
Proof.
  intros D K G X. exists k, ((x - xmin) / dx - INR k). split; [exact K|].
  assert (E : x = xmin + (x - xmin) / dx * dx) by (field; lra).
  set (q := (x - xmin) / dx) in *.
  split; [|split].
  - split; apply Rmult_le_reg_r with dx; nra.
  - rewrite E. ring.
  - unfold fit_b, fit_a. rewrite G, E. field. lra.
Qed.

Lemma grid_topo_polyline ncx xmin dx xg h x : (1 <= ncx)%nat -> dx > 0 ->
  (forall i, xg i = xmin + INR i * dx) -> xmin <= x <= xmin + INR ncx * dx ->
  polyline ncx xmin dx h x (grid_topo ncx xmin dx (fit_a dx h) (fit_b dx xg h) x).
Proof.
  intros N D G X. unfold grid_topo. cbv zeta.
  destruct (column_inside ncx xmin dx x N D X) as [K B].
  apply fit_on_column; auto.
Qed.

Lemma cleanup_column_inside ncx xmin dx x : (1 <= ncx)%nat -> dx > 0 -> xmin <= x <= xmin + INR ncx * dx ->
  cleanup_column ncx (xmin + dx / 2) dx x = column ncx (xmin + dx / 2) dx x.
Proof.
  intros N D X. unfold cleanup_column, column, column_raw.
  destruct (Rle_dec (xmin + dx / 2) x) as [L|L].
  - rewrite Rabs_pos_eq by lra. reflexivity.
  - rewrite Rabs_left by lra.
    set (u := (xmin + dx / 2 - x) / dx).
    assert (U : x = xmin + dx / 2 - u * dx) by (unfold u; field; lra).
    assert (0 < u <= 1 / 2) by (split; apply Rmult_lt_reg_r with dx || apply Rmult_le_reg_r with dx; nra).
    replace (- (x - (xmin + dx / 2)) / dx) with u by (unfold u; field; lra).
    replace ((x - (xmin + dx / 2)) / dx) with (- u) by (unfold u; field; lra).
    assert (A : Zceil (u + 1 / 2) = 1%Z).
    { destruct (Zceil_spec (u + 1 / 2)). assert (1 <= Zceil (u + 1 / 2))%Z.
      { apply (IZR_le_lt_1 1). lra. }
      assert (Zceil (u + 1 / 2) <= 1)%Z by (apply IZR_le_lt_1; lra). lia. }
    assert (B : (0 <= Zceil (- u + 1 / 2) <= 1)%Z).
    { destruct (Zceil_spec (- u + 1 / 2)). split; apply IZR_le_lt_1; lra. }
    rewrite A. f_equal. change (1 - 1)%Z with 0%Z.
    unfold clampz. cbn [Z.ltb Z.compare]. destruct (Z.ltb_spec (Zceil (- u + 1 / 2) - 1) 0).
    + destruct (Z.ltb_spec (Z.of_nat ncx - 1) 0); lia.
    + replace (Zceil (- u + 1 / 2) - 1)%Z with 0%Z by lia. reflexivity.
Qed.

(** ** Sums *)
Lemma sum_nonneg l : (forall r, In r l -> 0 <= r) -> 0 <= sum l.
Proof. induction l as [|a l IH]; intro H; [cbn; lra|]. change (sum (a :: l)) with (a + sum l). pose proof (H a (or_introl eq_refl)). pose proof (IH (fun r Q => H r (or_intror Q))). lra. Qed.

Lemma weighted_bounds {A} (v w : A -> R) lo hi l :
  (forall m, In m l -> 0 <= w m) -> (forall m, In m l -> w m <> 0 -> lo <= v m <= hi) ->
  lo * sum (map w l) <= sum (map (fun m => v m * w m) l) <= hi * sum (map w l).
Proof.
  intros P B. induction l as [|a l IH]; [cbn; lra|]. cbn [map].
  change (sum (w a :: map w l)) with (w a + sum (map w l)).
  change (sum (v a * w a :: map (fun m => v m * w m) l)) with (v a * w a + sum (map (fun m => v m * w m) l)).
  pose proof (P a (or_introl eq_refl)) as Pa. pose proof (B a (or_introl eq_refl)) as Ba.
  assert (IH' := IH (fun m Q => P m (or_intror Q)) (fun m Q => B m (or_intror Q))). clear IH.
  destruct (Req_dec (w a) 0) as [E|E].
  - rewrite E. lra.
  - specialize (Ba E). nra.
Qed.

Lemma weight_range xmin dx k m : dx > 0 -> 0 <= weight (xmin + dx / 2) dx k m <= 1.
Proof.
  intro D. unfold weight. destruct (on_chain m); cbn [andb]; [|lra].
  destruct (Z.eqb_spec (column_raw (xmin + dx / 2) dx (cx m)) (Z.of_nat k)) as [E|E]; [|lra].
  pose proof (column_raw_spec (xmin + dx / 2) dx (cx m) D) as S. cbv zeta in S. rewrite E, <- INR_IZR_INZ in S.
  assert (Rabs (xmin + dx / 2 + INR k * dx - cx m) <= dx / 2) by (apply Rabs_le; lra).
  pose proof (Rabs_pos (xmin + dx / 2 + INR k * dx - cx m)).
  set (r := Rabs _) in *.
  assert (0 <= 2 * r / dx <= 1); [|lra].
  split; [apply Rmult_le_pos; [lra|left; apply Rinv_0_lt_compat; lra]|].
  apply Rmult_le_reg_r with dx; [lra|]. replace (2 * r / dx * dx) with (2 * r) by (field; lra). lra.
Qed.

Lemma tiny_pos : 0 < tiny.
Proof. unfold tiny. apply Rinv_0_lt_compat, pow_lt. lra. Qed.

Lemma delta_bounds update xmin dx l k lo hi : dx > 0 ->
  tiny <= Wm (xmin + dx / 2) dx l k ->
  (forall m, In m l -> on_chain m = true -> lo <= mark_val update m <= hi) ->
  lo <= delta update (xmin + dx / 2) dx l k <= hi.
Proof.
  intros D T B. pose proof tiny_pos as P. unfold delta.
  replace (Rltb (Wm (xmin + dx / 2) dx l k) tiny) with false by (symmetry; apply Rltb_false; exact T).
  pose proof (weighted_bounds (mark_val update) (weight (xmin + dx / 2) dx k) lo hi l) as W.
  unfold BmWm. fold (Wm (xmin + dx / 2) dx l k) in W.
  destruct W as [W1 W2].
  - intros m _. apply weight_range, D.
  - intros m I N. apply B; [exact I|]. unfold weight in N. destruct (on_chain m); [reflexivity|]. cbn in N. contradiction.
  - set (S := Wm (xmin + dx / 2) dx l k) in *. set (V := sum (map (fun m => mark_val update m * weight (xmin + dx / 2) dx k m) l)) in *.
    split; apply Rmult_le_reg_r with S; try lra; unfold Rdiv; rewrite Rmult_assoc, Rinv_l, Rmult_1_r; lra.
Qed.

(** ** Remeshing *)
Definition good (s : chain * list nat) : Prop := NoDup (snd s) /\ forall k, In k (snd s) -> (k < nb (fst s))%nat.

Lemma add_one_spec surf surf0 x c r : good (c, r) ->
  exists k, let s := add_one surf surf0 x (c, r) in let c' := fst s in let r' := snd s in
  good s /\ (k < nb c')%nat /\ ~ In k r' /\ (In k r \/ k = nb c) /\ (forall q, In q r' -> In q r) /\
  (nb c <= nb c' <= nb c + 1)%nat /\ chp c' = chp c /\
  chx c' k = x /\ chz c' k = surf x /\ chz0 c' k = surf0 x /\
  (forall q, q <> k -> chx c' q = chx c q /\ chz c' q = chz c q /\ chz0 c' q = chz0 c q) /\
  ((r <> [] -> In k r) /\ nb c' = if r then (nb c + 1)%nat else nb c).
Proof.
  intros [ND LT]. destruct r as [|k r]; cbn [fst snd] in *.
  - exists (nb c). cbn. unfold upd. rewrite Nat.eqb_refl. split; [split; [constructor|intros ? []]|].
    repeat split; auto; try lia; try (intros []); try congruence.
    all: try (destruct (Nat.eqb_spec q (nb c)); [contradiction|reflexivity]).
    all: try (intros; destruct (Nat.eqb_spec q (nb c)); [contradiction|reflexivity]).
  - exists k. cbn. unfold upd. rewrite Nat.eqb_refl. inversion ND; subst.
    assert (k < nb c)%nat by (apply LT; left; reflexivity).
    split; [split; [assumption|intros q Q; apply LT; right; exact Q]|].
    repeat split; auto; try lia.
    all: try (destruct (Nat.eqb_spec q k); [contradiction|reflexivity]).
Qed.

(** What is known after treating the fine columns below [f]. *)
Definition filled (xmin dx : R) (surf surf0 : R -> R) (num : nat -> nat) (nmax : nat) (c1 : chain) (f : nat) (s : chain * list nat) : Prop :=
  let c := fst s in let r := snd s in
  good s /\ (forall q, In q r -> (q < nb c1)%nat /\ chp c1 q = (-1)%Z) /\
  (nb c1 <= nb c)%nat /\ (nb c = nb c1 \/ nb c < nmax)%nat /\ chp c = chp c1 /\
  (forall q, (q < nb c1)%nat -> chp c1 q <> (-1)%Z -> chx c q = chx c1 q /\ chz c q = chz c1 q /\ chz0 c q = chz0 c1 q) /\
  (forall g, (g < f)%nat -> (num g < 4)%nat ->
     exists k1 k2, k1 <> k2 /\ (k1 < nb c)%nat /\ (k2 < nb c)%nat /\ ~ In k1 r /\ ~ In k2 r /\
       chx c k1 = xmin + INR g * dx / 2 + dx / 4 / 2 /\ chz c k1 = surf (chx c k1) /\ chz0 c k1 = surf0 (chx c k1) /\
       chx c k2 = xmin + INR g * dx / 2 + 3 * dx / 4 / 2 /\ chz c k2 = surf (chx c k2) /\ chz0 c k2 = surf0 (chx c k2)).

Lemma fill_step xmin dx surf surf0 num nmax c1 f s s' :
  filled xmin dx surf surf0 num nmax c1 f s ->
  fill_column nmax xmin dx surf surf0 num (Some s) f = Some s' ->
  filled xmin dx surf surf0 num nmax c1 (1 + f) s'.
Proof.
  destruct s as [c r]. intros (G & R1 & N1 & N2 & PH & KP & DN) E. cbn [fst snd] in *.
  unfold fill_column in E. destruct (Nat.ltb_spec (num f) 4) as [L|L].
  - destruct ((nb c + 1 <? nmax)%nat && (nb c + 2 <? nmax)%nat) eqn:C; [|discriminate].
    apply andb_prop in C. destruct C as [_ C]. apply Nat.ltb_lt in C.
    cbv zeta in E.
    match type of E with Some ?a = Some ?b => assert (E2 : b = a) by congruence end. clear E. subst s'.
    destruct (add_one_spec surf surf0 (xmin + INR f * dx / 2 + dx / 4 / 2) c r G) as (k1 & A). cbv zeta in A.
    destruct (add_one surf surf0 (xmin + INR f * dx / 2 + dx / 4 / 2) (c, r)) as [ca ra]. cbn [fst snd] in A.
    destruct A as (Ga & Ka & Na & Wa & Sa & NBa & Pa & Xa & Za & Z0a & Oa & _).
    destruct (add_one_spec surf surf0 (xmin + INR f * dx / 2 + 3 * dx / 4 / 2) ca ra Ga) as (k2 & B). cbv zeta in B.
    destruct (add_one surf surf0 (xmin + INR f * dx / 2 + 3 * dx / 4 / 2) (ca, ra)) as [cb rb]. cbn [fst snd] in B.
    destruct B as (Gb & Kb & Nb & Wb & Sb & NBb & Pb & Xb & Zb & Z0b & Ob & _).
    assert (D12 : k1 <> k2).
    { intro; subst k2. destruct Wb as [Wb|Wb]; [contradiction|]. subst k1. lia. }
    unfold filled; cbn [fst snd].
    split; [exact Gb|]. split; [intros q Q; apply R1, Sa, Sb, Q|]. split; [lia|]. split; [lia|].
    split; [congruence|]. split.
    + intros q Q1 Q2.
      assert (q <> k1). { intro; subst q. destruct Wa as [Wa|Wa]; [apply R1 in Wa; tauto|lia]. }
      assert (q <> k2). { intro; subst q. destruct Wb as [Wb|Wb]; [apply Sa, R1 in Wb; tauto|lia]. }
      destruct (Oa q H) as (O1 & O2 & O3). destruct (Ob q H0) as (P1 & P2 & P3).
      rewrite P1, P2, P3, O1, O2, O3. apply KP; assumption.
    + intros g Gl Gn. destruct (Nat.eq_dec g f) as [->|Ne].
      * exists k1, k2. destruct (Ob k1 D12) as (P1 & P2 & P3). rewrite P1, P2, P3, Xa, Za, Z0a, Xb, Zb, Z0b.
        repeat split; auto; lia.
      * destruct (DN g ltac:(lia) Gn) as (j1 & j2 & J12 & J1 & J2 & I1 & I2 & V).
        exists j1, j2.
        assert (j1 <> k1 /\ j2 <> k1).
        { split; intro; subst; destruct Wa as [Wa|Wa]; try contradiction; lia. }
        assert (j1 <> k2 /\ j2 <> k2).
        { split; intro; subst; (destruct Wb as [Wb|Wb]; [apply Sa in Wb; contradiction|lia]). }
        destruct (Oa j1 (proj1 H)) as (O1 & O2 & O3). destruct (Ob j1 (proj1 H0)) as (P1 & P2 & P3).
        destruct (Oa j2 (proj2 H)) as (O1' & O2' & O3'). destruct (Ob j2 (proj2 H0)) as (P1' & P2' & P3').
        rewrite P1, P2, P3, O1, O2, O3, P1', P2', P3', O1', O2', O3'.
        split; [exact J12|]. split; [lia|]. split; [lia|].
        split; [intro Q; apply I1, Sa, Sb, Q|]. split; [intro Q; apply I2, Sa, Sb, Q|]. exact V.
  - injection E as E. subst s'. unfold filled; cbn [fst snd].
    split; [exact G|]. split; [exact R1|]. split; [exact N1|]. split; [exact N2|]. split; [exact PH|]. split; [exact KP|].
    intros g Gl Gn. apply DN; [|exact Gn]. destruct (Nat.eq_dec g f); [subst; lia|lia].
Qed.

Lemma fill_none nmax xmin dx surf surf0 num n a :
  loop a n (fill_column nmax xmin dx surf surf0 num) None = None.
Proof. unfold loop. generalize (seq a n). induction l as [|q l IH]; [reflexivity|exact IH]. Qed.

Lemma fill_all nmax xmin dx surf surf0 num c1 n s s' :
  filled xmin dx surf surf0 num nmax c1 0 s ->
  loop 0 n (fill_column nmax xmin dx surf surf0 num) (Some s) = Some s' ->
  filled xmin dx surf surf0 num nmax c1 n s'.
Proof.
  intros F0. revert s'. induction n as [|n IH]; intros s' E.
  - cbn in E. injection E as <-. exact F0.
  - change (S n) with (1 + n)%nat in E. rewrite loop_S in E. cbn [Nat.add] in E.
    destruct (loop 0 n (fill_column nmax xmin dx surf surf0 num) (Some s)) as [u|] eqn:L; [|discriminate].
    apply (fill_step _ _ _ _ _ _ _ n u); [apply IH; reflexivity|exact E].
Qed.

Lemma reusable_in c q : In q (reusable c) <-> (q < nb c)%nat /\ chp c q = (-1)%Z.
Proof. unfold reusable. rewrite filter_In, in_seq. rewrite Z.eqb_eq. intuition lia. Qed.

Lemma start_filled xmin dx surf surf0 num nmax c1 : filled xmin dx surf surf0 num nmax c1 0 (c1, reusable c1).
Proof.
  unfold filled; cbn [fst snd]. split.
  - split; [apply NoDup_filter, seq_NoDup|]. intros k K. apply reusable_in in K. tauto.
  - split; [intros q Q; apply reusable_in in Q; tauto|]. repeat split; auto. lia.
Qed.

(** ** Diffusion *)
Lemma n_sub_spec p dx T : sp_diff p > 0 -> dx > 0 -> T > 0 ->
  let n := n_sub p dx T in (1 <= n)%Z /\ T < IZR n * dt_expl p dx /\ IZR n * dt_expl p dx <= T + dt_expl p dx.
Proof.
  intros D X P n.
  assert (E : dt_expl p dx > 0).
  { unfold dt_expl. apply Rmult_gt_0_compat; [nra|]. apply Rinv_0_lt_compat, D. }
  unfold n, n_sub. destruct (base_Int_part (T / dt_expl p dx + 1)) as [A B].
  assert (Q : T = T / dt_expl p dx * dt_expl p dx) by (field; lra).
  assert (0 < T / dt_expl p dx) by (apply Rmult_gt_0_compat; [lra|apply Rinv_0_lt_compat; lra]).
  set (q := T / dt_expl p dx) in *. set (i := Int_part (q + 1)) in *.
  split; [|split; rewrite Q; nra].
  apply (IZR_le_lt_1 1). lra.
Qed.

Lemma dt_sub_spec p dx T : sp_diff p > 0 -> dx > 0 -> T > 0 ->
  IZR (n_sub p dx T) * dt_sub p dx T = T /\ 0 < dt_sub p dx T <= dt_expl p dx.
Proof.
  intros D X P. destruct (n_sub_spec p dx T D X P) as (A & B & C).
  assert (E : dt_expl p dx > 0).
  { unfold dt_expl. apply Rmult_gt_0_compat; [nra|]. apply Rinv_0_lt_compat, D. }
  set (n := n_sub p dx T) in *. set (d := dt_expl p dx) in *.
  assert (A' : 1 <= IZR n) by (apply IZR_le in A; exact A).
  unfold dt_sub. fold d n. unfold Rltb. destruct (Rlt_dec T d) as [L|L].
  - assert (n = 1%Z). { assert (n < 2)%Z; [|lia]. apply lt_IZR. nra. }
    rewrite H. lra.
  - split; [field; lra|]. split; [apply Rmult_lt_0_compat; [lra|apply Rinv_0_lt_compat; lra]|].
    apply Rmult_le_reg_r with (IZR n); [lra|]. replace (T / IZR n * IZR n) with T by (field; lra). lra.
Qed.

Lemma diff_number p dx dtr : sp_diff p > 0 -> dx > 0 -> 0 < dtr <= dt_expl p dx ->
  0 < 1 / 2 * dtr / dx / dx * sp_diff p <= 1 / 5.
Proof.
  intros D X [L U]. unfold dt_expl in U.
  set (r := 1 / 2 * dtr / dx / dx * sp_diff p).
  assert (E : r * (2 * dx * dx) = dtr * sp_diff p) by (unfold r; field; lra).
  assert (U2 : dtr * sp_diff p <= 4 / 10 * dx * dx).
  { apply Rmult_le_compat_r with (r := sp_diff p) in U; [|lra].
    replace (4 / 10 * dx * dx / sp_diff p * sp_diff p) with (4 / 10 * dx * dx) in U by (field; lra). exact U. }
  assert (0 < dtr * sp_diff p) by nra. assert (0 < dx * dx) by nra.
  split; [apply Rmult_lt_reg_r with (2 * dx * dx)|apply Rmult_le_reg_r with (2 * dx * dx)]; lra.
Qed.

Lemma iter_inv {A} (P : A -> Prop) (f : A -> A) n x : P x -> (forall y, P y -> P (f y)) -> P (Nat.iter n f x).
Proof. intros H S. induction n as [|n IH]; [exact H|]. cbn. apply S, IH. Qed.
