(** * C89: saving does not disturb the run *)
From Coq Require Import ZArith Reals Lra Lia Psatz.
From Flocq Require Import Core Relative.
From Verif Require Import OutModel OutProps SaveModel.
Local Open Scope R_scope.

(** ** Specification *)
(** A binary64 number (no upper bound on the exponent). *)
Definition double (x : R) : Prop := exists m e : Z, x = IZR m * bpow radix2 e /\ (Z.abs m < 2 ^ 53)%Z /\ (-1074 <= e)%Z.
(** Sizes for which nothing underflows. *)
Definition moderate (x : R) : Prop := bpow radix2 (-500) <= x <= bpow radix2 500.

(** ** Lemmas *)
Notation fexp := (FLT_exp (-1074) 53).
#[local] Instance prec53 : Prec_gt_0 53. Proof. unfold Prec_gt_0. lia. Qed.
Lemma double_format : forall x, double x <-> generic_format radix2 fexp x.
Proof.
  intros x. split.
  - intros (m & e & -> & H1 & H2). apply generic_format_FLT. exists (Float radix2 m e); [reflexivity|cbn [Fnum]; exact H1|exact H2].
  - intros H. apply FLT_format_generic in H; [|exact prec53]. destruct H as [g E1 E2 E3]. exists (Fnum g), (Fexp g). split; [exact E1|]. split; [exact E2|exact E3].
Qed.
Lemma dbl_double : forall x, double (dbl x). Proof. intros x. apply double_format. unfold dbl. apply generic_format_round; [apply FLT_exp_valid; exact prec53|apply valid_rnd_N]. Qed.
Lemma dbl_id : forall x, double x -> dbl x = x. Proof. intros x H. apply round_generic; [apply valid_rnd_N|now apply double_format]. Qed.
Lemma dbl_opp : forall x, dbl (- x) = - dbl x. Proof. intros x. unfold dbl. apply round_NE_opp. Qed.
Lemma dbl_0 : dbl 0 = 0. Proof. unfold dbl. apply round_0, valid_rnd_N. Qed.
Lemma dbl_nearest : forall x g, double g -> Rabs (dbl x - x) <= Rabs (g - x).
Proof. intros x g H. apply double_format in H. unfold dbl. apply (round_N_pt radix2 fexp (fun z => negb (Z.even z)) x). exact H. Qed.
(** value of a rounding *)
Lemma dbl_val : forall x e n, (-1074 <= e)%Z -> bpow radix2 (e + 52) <= Rabs x < bpow radix2 (e + 53) ->
  ZnearestE (x * bpow radix2 (- e)) = n -> dbl x = IZR n * bpow radix2 e.
Proof.
  intros x e n He Hx Hn. assert (M : mag radix2 x = (e + 53)%Z :> Z).
  { apply mag_unique. replace (e + 53 - 1)%Z with (e + 52)%Z by ring. exact Hx. }
  unfold dbl, round, scaled_mantissa, cexp. rewrite M. unfold FLT_exp. rewrite Z.max_l by lia. replace (e + 53 - 53)%Z with e by ring.
  rewrite Hn. reflexivity.
Qed.

Section Trip.
Variable s : R.
Hypothesis (Hs : double s) (Ms : moderate s).
Lemma s_pos : 0 < s. Proof. destruct Ms as [H _]. pose proof (bpow_gt_0 radix2 (-500)). lra. Qed.

(** s times a power of two is exact *)
Lemma scaled_s : forall k, (-500 <= k)%Z -> double (bpow radix2 k * s).
Proof.
  intros k Hk. pose proof s_pos as Ps. pose proof Hs as F. apply double_format in F. apply double_format.
  unfold generic_format in F. set (e := cexp radix2 fexp s) in *. set (m := Ztrunc (scaled_mantissa radix2 fexp s)) in *.
  assert (MG : (-499 <= mag radix2 s)%Z).
  { apply mag_ge_bpow. replace (-499 - 1)%Z with (-500)%Z by ring. rewrite Rabs_pos_eq by lra. exact (proj1 Ms). }
  assert (E : e = (mag radix2 s - 53)%Z) by (unfold e, cexp, FLT_exp; apply Z.max_l; lia).
  assert (B : (Z.abs m < 2 ^ 53)%Z).
  { apply lt_IZR. rewrite abs_IZR. unfold m. rewrite <- (scaled_mantissa_generic radix2 fexp) by (apply double_format; exact Hs).
    unfold scaled_mantissa. rewrite Rabs_mult, (Rabs_pos_eq (bpow _ _)) by apply bpow_ge_0.
    apply Rlt_le_trans with (bpow radix2 (mag radix2 s) * bpow radix2 (- e)).
    - apply Rmult_lt_compat_r; [apply bpow_gt_0|]. apply bpow_mag_gt.
    - fold e. rewrite <- bpow_plus, E. replace (mag radix2 s + - (mag radix2 s - 53))%Z with 53%Z by ring. right. reflexivity. }
  apply generic_format_FLT. exists (Float radix2 m (e + k)).
  - rewrite F at 1. unfold F2R. cbn [Fnum Fexp]. rewrite bpow_plus. ring.
  - exact B.
  - cbn [Fexp]. lia.
Qed.
(** The trip is monotone and keeps powers of two. *)
Lemma trip_pow2 : forall k, (-500 <= k)%Z -> checkpoint_trip s (bpow radix2 k) = bpow radix2 k.
Proof.
  intros k Hk. unfold checkpoint_trip. rewrite (dbl_id _ (scaled_s k Hk)). pose proof s_pos.
  replace (bpow radix2 k * s / s) with (bpow radix2 k) by (field; lra). apply dbl_id.
  exists 1%Z, k. split; [ring|]. split; [reflexivity|lia].
Qed.
Lemma trip_mono : forall x y, x <= y -> checkpoint_trip s x <= checkpoint_trip s y.
Proof.
  intros x y H. pose proof s_pos. unfold checkpoint_trip. apply dbl_le. apply Rmult_le_compat_r; [left; now apply Rinv_0_lt_compat|].
  apply dbl_le. apply Rmult_le_compat_r; lra.
Qed.
Lemma trip_ge : forall x, bpow radix2 (-500) <= x -> bpow radix2 (-500) <= checkpoint_trip s x.
Proof. intros x H. rewrite <- (trip_pow2 (-500)) at 1 by lia. now apply trip_mono. Qed.
Lemma trip_opp : forall x, checkpoint_trip s (- x) = - checkpoint_trip s x.
Proof.
  intros x. unfold checkpoint_trip. rewrite Ropp_mult_distr_l_reverse, dbl_opp. unfold Rdiv. rewrite Ropp_mult_distr_l_reverse. apply dbl_opp.
Qed.

(** Rounding b to x when x is the rounding of a, b no farther, and x not a power of two. *)
Lemma reround : forall a b m e, (-1074 <= e)%Z -> (2 ^ 52 < m < 2 ^ 53)%Z -> dbl a = IZR m * bpow radix2 e ->
  Rabs (b - IZR m * bpow radix2 e) <= Rabs (a - IZR m * bpow radix2 e) -> dbl b = IZR m * bpow radix2 e.
Proof.
  intros a b m e He Hm Ha Hb. set (x := IZR m * bpow radix2 e) in *. set (w := bpow radix2 e) in *.
  assert (W : 0 < w) by apply bpow_gt_0.
  assert (MR : IZR (2 ^ 52) + 1 <= IZR m <= IZR (2 ^ 53) - 1).
  { split; [rewrite <- (plus_IZR _ 1)|rewrite <- (minus_IZR _ 1)]; apply IZR_le; lia. }
  change (IZR (2 ^ 52)) with (bpow radix2 52) in MR. change (IZR (2 ^ 53)) with (bpow radix2 53) in MR.
  assert (MX : mag radix2 x = (e + 53)%Z :> Z).
  { apply mag_unique. assert (XP : 0 <= x) by (unfold x; apply Rmult_le_pos; [pose proof (bpow_gt_0 radix2 52); lra|lra]).
    rewrite Rabs_pos_eq by exact XP. replace (e + 53 - 1)%Z with (52 + e)%Z by ring. replace (e + 53)%Z with (53 + e)%Z by ring. rewrite !bpow_plus. unfold x. fold w. split; [apply Rmult_le_compat_r; lra|apply Rmult_lt_compat_r; lra]. }
  assert (NZ : x <> 0). { unfold x. apply Rmult_integral_contrapositive. split; [pose proof (bpow_gt_0 radix2 52); lra|lra]. }
  assert (HU : Rabs (a - x) <= / 2 * w).
  { rewrite <- Ha, Rabs_minus_sym. unfold dbl. 
    pose proof (error_le_half_ulp_round radix2 fexp (fun z => negb (Z.even z)) a) as EU. 
    fold (dbl a) in *. rewrite Ha in *. fold x in EU. rewrite ulp_neq_0 in EU by exact NZ. unfold cexp in EU. rewrite MX in EU.
    unfold FLT_exp in EU. rewrite Z.max_l in EU by lia. replace (e + 53 - 53)%Z with e in EU by ring. exact EU. }
  set (t := (a - x) / w). set (r := (b - x) / w).
  assert (Ea : a = (IZR m + t) * w) by (unfold t, x; field; lra). assert (Eb : b = (IZR m + r) * w) by (unfold r, x; field; lra).
  assert (Tt : Rabs t <= / 2). { unfold t, Rdiv. rewrite Rabs_mult, (Rabs_pos_eq (/ w)) by (left; now apply Rinv_0_lt_compat). apply Rmult_le_reg_r with w; [exact W|]. rewrite Rmult_assoc, Rinv_l by lra. lra. }
  assert (Tr : Rabs r <= Rabs t). { unfold r, t, Rdiv. rewrite !Rabs_mult. apply Rmult_le_compat_r; [apply Rabs_pos|exact Hb]. }
  assert (VAL : forall c q, c = (IZR m + q) * w -> Rabs q <= / 2 -> dbl c = IZR (ZnearestE (IZR m + q)) * w).
  { intros c q -> Hq. pose proof (Rle_abs q) as Q1. pose proof (Rle_abs (- q)) as Q2. rewrite Rabs_Ropp in Q2. unfold w. apply dbl_val; [exact He| |].
    - replace (e + 52)%Z with (52 + e)%Z by ring. replace (e + 53)%Z with (53 + e)%Z by ring. rewrite !bpow_plus. fold w.
      rewrite Rabs_pos_eq by (apply Rmult_le_pos; [pose proof (bpow_gt_0 radix2 52); lra|lra]).
      split; [apply Rmult_le_compat_r; lra|apply Rmult_lt_compat_r; lra].
    - f_equal. fold w. rewrite Rmult_assoc. unfold w. rewrite <- bpow_plus. replace (e + - e)%Z with 0%Z by ring. cbn [bpow]. ring. }
  rewrite (VAL b r Eb) by lra. rewrite (VAL a t Ea Tt) in Ha. unfold x. fold w.
  assert (NA : ZnearestE (IZR m + t) = m). { apply eq_IZR. apply Rmult_eq_reg_r with w; [|lra]. exact Ha. }
  f_equal. f_equal. destruct (Rlt_le_dec (Rabs r) (/ 2)) as [L|L].
  - apply Znearest_imp. replace (IZR m + r - IZR m) with r by ring. lra.
  - assert (Rabs r = / 2) by lra. assert (Rabs t = / 2) by lra. clear Tt Tr L HU Hb Ea Eb VAL Ha.
    assert (FL1 : Zfloor (IZR m + / 2) = m) by (apply Zfloor_imp; rewrite plus_IZR; lra).
    assert (FL2 : Zfloor (IZR m - / 2) = (m - 1)%Z) by (apply Zfloor_imp; rewrite plus_IZR, minus_IZR; lra).
    assert (CE1 : Zceil (IZR m + / 2) = (m + 1)%Z) by (apply Zceil_imp; rewrite minus_IZR, plus_IZR; lra).
    assert (CE2 : Zceil (IZR m - / 2) = m) by (apply Zceil_imp; rewrite minus_IZR; lra).
    assert (N1 : ZnearestE (IZR m + / 2) = if Z.even m then m else (m + 1)%Z).
    { unfold Znearest. rewrite FL1, CE1. replace (IZR m + / 2 - IZR m) with (/ 2) by ring. rewrite Rcompare_Eq by reflexivity. destruct (Z.even m); reflexivity. }
    assert (N2 : ZnearestE (IZR m - / 2) = if Z.even m then m else (m - 1)%Z).
    { unfold Znearest. rewrite FL2, CE2, minus_IZR. replace (IZR m - / 2 - (IZR m - 1)) with (/ 2) by lra. rewrite Rcompare_Eq by reflexivity.
      rewrite Z.even_sub. cbn [Z.even]. destruct (Z.even m); reflexivity. }
    assert (EV : Z.even m = true).
    { destruct (Rcase_abs t) as [S1|S1]; [rewrite Rabs_left in H0 by exact S1|rewrite Rabs_right in H0 by exact S1].
      - replace (IZR m + t) with (IZR m - / 2) in NA by lra. rewrite N2 in NA. destruct (Z.even m); [reflexivity|lia].
      - replace (IZR m + t) with (IZR m + / 2) in NA by lra. rewrite N1 in NA. destruct (Z.even m); [reflexivity|lia]. }
    destruct (Rcase_abs r) as [S1|S1]; [rewrite Rabs_left in H by exact S1|rewrite Rabs_right in H by exact S1].
    + replace (IZR m + r) with (IZR m - / 2) by lra. rewrite N2, EV. reflexivity.
    + replace (IZR m + r) with (IZR m + / 2) by lra. rewrite N1, EV. reflexivity.
Qed.

Lemma trip_twice_pos : forall x, bpow radix2 (-500) <= x -> checkpoint_trip s (checkpoint_trip s x) = checkpoint_trip s x.
Proof.
  intros x Hx. pose proof s_pos as Ps. set (x1 := checkpoint_trip s x). pose proof (trip_ge x Hx) as G. fold x1 in G.
  assert (P1 : 0 < x1) by (pose proof (bpow_gt_0 radix2 (-500)); lra).
  assert (F : double x1) by apply dbl_double. apply double_format in F. unfold generic_format in F.
  set (e := cexp radix2 fexp x1) in *. set (m := Ztrunc (scaled_mantissa radix2 fexp x1)) in *.
  assert (MG : (-499 <= mag radix2 x1)%Z).
  { apply mag_ge_bpow. replace (-499 - 1)%Z with (-500)%Z by ring. rewrite Rabs_pos_eq by lra. exact G. }
  assert (E : e = (mag radix2 x1 - 53)%Z) by (unfold e, cexp, FLT_exp; apply Z.max_l; lia).
  unfold F2R in F. cbn [Fnum Fexp] in F.
  assert (W : 0 < bpow radix2 e) by apply bpow_gt_0.
  assert (B : (2 ^ 52 <= m < 2 ^ 53)%Z).
  { clearbody e m. destruct (mag radix2 x1) as [g Hg]. cbn in E. pose proof (Hg ltac:(lra)) as Hg'. clear MG. rename Hg into Hg0. rename Hg' into Hg. rewrite (Rabs_pos_eq x1) in Hg by lra. rewrite F in Hg.
    replace (g - 1)%Z with (52 + e)%Z in Hg by lia. replace g with (53 + e)%Z in Hg by lia. rewrite !bpow_plus in Hg. destruct Hg as [G1 G2].
    apply Rmult_le_reg_r in G1; [|exact W]. apply Rmult_lt_reg_r in G2; [|exact W].
    change (bpow radix2 52) with (IZR (2 ^ 52)) in G1. change (bpow radix2 53) with (IZR (2 ^ 53)) in G2. split; [apply le_IZR; exact G1|apply lt_IZR; exact G2]. }
  destruct (Z.eq_dec m (2 ^ 52)) as [EM|EM].
  - (* power of two *)
    assert (X : x1 = bpow radix2 (52 + e)) by (rewrite F, EM, bpow_plus; reflexivity). rewrite X. apply trip_pow2. lia.
  - unfold x1 at 1. unfold checkpoint_trip at 1. fold x1.
    rewrite F at 2. set (y := dbl (x * s)). set (y1 := dbl (x1 * s)).
    apply (reround (y / s)); [lia|lia| |].
    + rewrite <- F. reflexivity.
    + rewrite <- F. assert (N : Rabs (y1 - x1 * s) <= Rabs (y - x1 * s)) by (apply dbl_nearest, dbl_double).
      replace (y1 / s - x1) with ((y1 - x1 * s) / s) by (field; lra). replace (y / s - x1) with ((y - x1 * s) / s) by (field; lra).
      unfold Rdiv. rewrite !Rabs_mult. apply Rmult_le_compat_r; [apply Rabs_pos|exact N].
Qed.
End Trip.

(** ** C89 *)
(** A number is changed at most by the first checkpoint; all later ones leave it alone. *)
Theorem C89_changed_at_most_once : forall s x n, double s -> moderate s -> x = 0 \/ bpow radix2 (-500) <= Rabs x ->
  after (S n) (checkpoint_trip s) x = checkpoint_trip s x.
Proof.
  intros s x n Hs Ms Hx.
  assert (T : checkpoint_trip s (checkpoint_trip s x) = checkpoint_trip s x).
  { destruct Hx as [->|Hx].
    - assert (Z0 : checkpoint_trip s 0 = 0) by (unfold checkpoint_trip; rewrite Rmult_0_l, dbl_0; unfold Rdiv; rewrite Rmult_0_l; apply dbl_0). now rewrite !Z0.
    - destruct (Rcase_abs x) as [N|N].
      + rewrite Rabs_left in Hx by exact N. replace x with (- - x) by ring. rewrite (trip_opp s (- x)), trip_opp. f_equal. now apply trip_twice_pos.
      + rewrite Rabs_right in Hx by exact N. now apply trip_twice_pos. }
  unfold after. induction n as [|n IH]; [reflexivity|].
  replace (Nat.iter (S (S n)) (checkpoint_trip s) x) with (checkpoint_trip s (Nat.iter (S n) (checkpoint_trip s) x)) by reflexivity. rewrite IH. exact T.
Qed.
Print Assumptions C89_changed_at_most_once.

(** That change is two roundings: in relative terms at most 2^-52 + 2^-106. *)
Theorem C89_change_bound : forall s x, double s -> moderate s -> bpow radix2 (-500) <= Rabs x ->
  Rabs (checkpoint_trip s x - x) <= (2 * bpow radix2 (-53) + bpow radix2 (-106)) * Rabs x.
Proof.
  intros s x Hs Ms Hx. pose proof (s_pos s Ms) as Ps. set (u := bpow radix2 (-53)).
  assert (U : 0 <= u) by apply bpow_ge_0. replace (bpow radix2 (-106)) with (u * u) by (unfold u; rewrite <- bpow_plus; reflexivity).
  assert (E1 : Rabs (dbl (x * s) - x * s) <= u * Rabs (x * s)).
  { pose proof (dbl_rel (x * s)) as D. unfold rel in D. apply D. rewrite Rabs_mult, (Rabs_pos_eq s) by lra.
    apply Rle_trans with (bpow radix2 (-500) * bpow radix2 (-500)); [rewrite <- bpow_plus; apply bpow_le; lia|].
    apply Rmult_le_compat; [apply bpow_ge_0|apply bpow_ge_0|exact Hx|exact (proj1 Ms)]. }
  set (y := dbl (x * s)) in *. set (q := y / s).
  assert (E2 : Rabs (q - x) <= u * Rabs x).
  { unfold q. replace (y / s - x) with ((y - x * s) / s) by (field; lra). unfold Rdiv. rewrite Rabs_mult, (Rabs_pos_eq (/ s)) by (left; now apply Rinv_0_lt_compat).
    apply Rmult_le_reg_r with s; [exact Ps|]. rewrite Rmult_assoc, Rinv_l by lra. rewrite Rabs_mult, (Rabs_pos_eq s) in E1 by lra. lra. }
  assert (Q : Rabs q <= (1 + u) * Rabs x). { replace q with ((q - x) + x) by ring. eapply Rle_trans; [apply Rabs_triang|]. lra. }
  assert (E3 : Rabs (dbl q - q) <= u * Rabs q).
  { pose proof (dbl_rel q) as D. unfold rel in D. apply D.
    assert (Rabs x <= Rabs q + Rabs (q - x)). { replace x with (q - (q - x)) at 1 by ring. unfold Rminus at 1. eapply Rle_trans; [apply Rabs_triang|]. rewrite Rabs_Ropp. lra. }
    assert (HU : u <= / 2). { unfold u. change (/ 2) with (bpow radix2 (-1)). apply bpow_le. lia. }
    assert (u * Rabs x <= / 2 * Rabs x) by (apply Rmult_le_compat_r; [apply Rabs_pos|exact HU]).
    assert (bpow radix2 (-1022) <= / 2 * bpow radix2 (-500)). { change (/ 2) with (bpow radix2 (-1)). rewrite <- bpow_plus. apply bpow_le. lia. }
    lra. }
  unfold checkpoint_trip. fold y. fold q. replace (dbl q - x) with ((dbl q - q) + (q - x)) by ring.
  eapply Rle_trans; [apply Rabs_triang|]. assert (u * Rabs q <= u * ((1 + u) * Rabs x)) by (apply Rmult_le_compat_l; assumption). lra.
Qed.
Print Assumptions C89_change_bound.

(** Nothing changes at all when the unit is a power of two. *)
Theorem C89_power_of_two_units : forall k x, (-500 <= k <= 500)%Z -> double x -> bpow radix2 (-500) <= Rabs x ->
  checkpoint_trip (bpow radix2 k) x = x /\ residual_trip (bpow radix2 k) x = x.
Proof.
  intros k x Hk Hx Bx. pose proof (bpow_gt_0 radix2 k) as P.
  assert (D : double (x * bpow radix2 k)).
  { destruct (Rcase_abs x) as [N|N].
    - rewrite Rabs_left in Bx by exact N. assert (DN : double (- x)) by (destruct Hx as (m & e & -> & A & B); exists (- m)%Z, e; rewrite opp_IZR; split; [ring|split; [lia|exact B]]).
      (* any size above 2^-500 suffices *)
      apply double_format. replace (x * bpow radix2 k) with (- (bpow radix2 k * - x)) by ring. apply generic_format_opp. apply double_format.
      clear Hx. revert DN Bx. generalize (- x). intros z DN Bx.
      apply double_format in DN. apply double_format. pose proof DN as F. unfold generic_format in F. set (e := cexp radix2 fexp z) in *. set (m := Ztrunc (scaled_mantissa radix2 fexp z)) in *.
      assert (ZP : 0 < z) by (pose proof (bpow_gt_0 radix2 (-500)); lra).
      assert (MG : (-499 <= mag radix2 z)%Z) by (apply mag_ge_bpow; replace (-499 - 1)%Z with (-500)%Z by ring; rewrite Rabs_pos_eq by lra; exact Bx).
      rewrite F. unfold F2R. cbn [Fnum Fexp]. replace (bpow radix2 k * (IZR m * bpow radix2 e)) with (IZR m * bpow radix2 (e + k)) by (rewrite bpow_plus; ring).
      apply generic_format_FLT. exists (Float radix2 m (e + k)); [reflexivity| |cbn [Fexp]; unfold e, cexp, FLT_exp; lia].
      cbn [Fnum]. apply lt_IZR. rewrite abs_IZR. unfold m. rewrite <- (scaled_mantissa_generic radix2 fexp z DN).
      unfold scaled_mantissa. rewrite Rabs_mult, (Rabs_pos_eq (bpow _ _)) by apply bpow_ge_0.
      apply Rlt_le_trans with (bpow radix2 (mag radix2 z) * bpow radix2 (- e)); [apply Rmult_lt_compat_r; [apply bpow_gt_0|apply bpow_mag_gt]|].
      fold e. rewrite <- bpow_plus. change (IZR (radix2 ^ 53)) with (bpow radix2 53). apply bpow_le. unfold e, cexp, FLT_exp. lia.
    - rewrite Rabs_right in Bx by exact N. pose proof Hx as DN. revert DN Bx. generalize x. intros z DN Bx.
      apply double_format in DN. apply double_format. pose proof DN as F. unfold generic_format in F. set (e := cexp radix2 fexp z) in *. set (m := Ztrunc (scaled_mantissa radix2 fexp z)) in *.
      assert (ZP : 0 < z) by (pose proof (bpow_gt_0 radix2 (-500)); lra).
      assert (MG : (-499 <= mag radix2 z)%Z) by (apply mag_ge_bpow; replace (-499 - 1)%Z with (-500)%Z by ring; rewrite Rabs_pos_eq by lra; exact Bx).
      rewrite F. unfold F2R. cbn [Fnum Fexp]. replace (IZR m * bpow radix2 e * bpow radix2 k) with (IZR m * bpow radix2 (e + k)) by (rewrite bpow_plus; ring).
      apply generic_format_FLT. exists (Float radix2 m (e + k)); [reflexivity| |cbn [Fexp]; unfold e, cexp, FLT_exp; lia].
      cbn [Fnum]. apply lt_IZR. rewrite abs_IZR. unfold m. rewrite <- (scaled_mantissa_generic radix2 fexp z DN).
      unfold scaled_mantissa. rewrite Rabs_mult, (Rabs_pos_eq (bpow _ _)) by apply bpow_ge_0.
      apply Rlt_le_trans with (bpow radix2 (mag radix2 z) * bpow radix2 (- e)); [apply Rmult_lt_compat_r; [apply bpow_gt_0|apply bpow_mag_gt]|].
      fold e. rewrite <- bpow_plus. change (IZR (radix2 ^ 53)) with (bpow radix2 53). apply bpow_le. unfold e, cexp, FLT_exp. lia. }
  unfold checkpoint_trip, residual_trip. rewrite (dbl_id _ D). split.
  - replace (x * bpow radix2 k / bpow radix2 k) with x by (field; lra). now apply dbl_id.
  - rewrite (dbl_id (1 / bpow radix2 k)).
    + replace (x * bpow radix2 k * (1 / bpow radix2 k)) with x by (field; lra). now apply dbl_id.
    + exists 1%Z, (- k)%Z. split; [rewrite bpow_opp; field; lra|]. split; [reflexivity|lia].
Qed.
Print Assumptions C89_power_of_two_units.

Example C89_ex : double 49 /\ moderate 49 /\ bpow radix2 (-500) <= Rabs 3.
Proof.
  split; [exists 49%Z, 0%Z; split; [cbn; ring|split; [reflexivity|lia]]|]. split.
  - split; [apply Rle_trans with (bpow radix2 0); [apply bpow_le; lia|cbn; lra]|apply Rle_trans with (bpow radix2 10); [cbn; lra|apply bpow_le; lia]].
  - rewrite Rabs_pos_eq by lra. apply Rle_trans with (bpow radix2 0); [apply bpow_le; lia|cbn; lra].
Qed.

(** In general the first checkpoint does change numbers. *)
Theorem C89_unchanged_refuted : exists s x, double s /\ moderate s /\ double x /\ bpow radix2 (-500) <= Rabs x /\ checkpoint_trip s x <> x.
Proof.
  exists 19, 9007199254740991. split; [exists 19%Z, 0%Z; split; [cbn; ring|split; [reflexivity|lia]]|]. split.
  { split; [apply Rle_trans with (bpow radix2 0); [apply bpow_le; lia|cbn; lra]|apply Rle_trans with (bpow radix2 10); [cbn; lra|apply bpow_le; lia]]. }
  split; [exists 9007199254740991%Z, 0%Z; split; [cbn; ring|split; [reflexivity|lia]]|]. split.
  { rewrite Rabs_pos_eq by lra. apply Rle_trans with (bpow radix2 0); [apply bpow_le; lia|cbn; lra]. }
  unfold checkpoint_trip.
  rewrite (dbl_val (9007199254740991 * 19) 5 5348024557502463); [|lia| |].
  2:{ rewrite Rabs_pos_eq by lra. cbn. lra. }
  2:{ apply Znearest_imp. apply Rabs_lt. cbn. lra. }
  rewrite (dbl_val _ 0 9007199254740990); [|lia| |].
  2:{ cbn. rewrite Rabs_pos_eq by lra. lra. }
  2:{ apply Znearest_imp. apply Rabs_lt. cbn. lra. }
  cbn. lra.
Qed.
Print Assumptions C89_unchanged_refuted.

(** The residual files do worse: a number can be changed again and again. *)
Theorem C89_residual_drift_refuted : exists s x, double s /\ moderate s /\ double x /\ bpow radix2 (-500) <= Rabs x /\
  residual_trip s x < x /\ residual_trip s (residual_trip s x) < residual_trip s x.
Proof.
  exists 49, 1. split; [exists 49%Z, 0%Z; split; [cbn; ring|split; [reflexivity|lia]]|]. split.
  { split; [apply Rle_trans with (bpow radix2 0); [apply bpow_le; lia|cbn; lra]|apply Rle_trans with (bpow radix2 10); [cbn; lra|apply bpow_le; lia]]. }
  split; [exists 1%Z, 0%Z; split; [cbn; ring|split; [reflexivity|lia]]|]. split.
  { rewrite Rabs_pos_eq by lra. apply Rle_trans with (bpow radix2 0); [apply bpow_le; lia|cbn; lra]. }
  assert (I0 : dbl (1 / 49) = 5882252574524729 * bpow radix2 (-58)).
  { apply dbl_val; [lia| |]; [rewrite Rabs_pos_eq by lra; cbn; lra|]. apply Znearest_imp. apply Rabs_lt. cbn. lra. }
  assert (S1 : residual_trip 49 1 = 9007199254740991 * bpow radix2 (-53)).
  { unfold residual_trip. rewrite I0, (dbl_id (1 * 49)) by (exists 49%Z, 0%Z; split; [cbn; ring|split; [reflexivity|lia]]).
    apply dbl_val; [lia| |]; [cbn; rewrite Rabs_pos_eq by lra; lra|]. apply Znearest_imp. apply Rabs_lt. cbn. lra. }
  assert (S2 : residual_trip 49 (9007199254740991 * bpow radix2 (-53)) = 9007199254740990 * bpow radix2 (-53)).
  { unfold residual_trip. rewrite I0, (dbl_val (9007199254740991 * bpow radix2 (-53) * 49) (-47) 6896136929411071).
    - apply dbl_val; [lia| |]; [cbn; rewrite Rabs_pos_eq by lra; lra|]. apply Znearest_imp. apply Rabs_lt. cbn. lra.
    - lia.
    - cbn. rewrite Rabs_pos_eq by lra. lra.
    - apply Znearest_imp. apply Rabs_lt. cbn. lra. }
  rewrite S1, S2. cbn. lra.
Qed.
Print Assumptions C89_residual_drift_refuted.

(** Order and sign are kept. *)
Theorem C89_order : forall s x y, moderate s -> (x <= y -> checkpoint_trip s x <= checkpoint_trip s y) /\ checkpoint_trip s (- x) = - checkpoint_trip s x.
Proof. intros s x y Ms. split; [now apply trip_mono|apply trip_opp]. Qed.
Print Assumptions C89_order.
Example C89_order_ex : moderate 49. Proof. exact (proj1 (proj2 C89_ex)). Qed.
