(** * C71: the initial cooling takes exactly ten steps

    ThermalRoutines.c 500-511 (ThermalSteps): [double dt = total_time/10.0; int nit = floor(total_time/dt);].
    Here doubles are IEEE binary64 numbers with rounding to nearest even (Flocq), because the claim is about
    rounding: [total_time/10.0] is not exact and the quotient is truncated. *)
From Coq Require Import Reals ZArith Lra Lia Bool.
From Flocq Require Import Core.
Local Open Scope R_scope.

Definition b64 : Z -> Z := FLT_exp (-1074) 53.
Definition rnd : R -> R := round radix2 b64 ZnearestE.
(** ThermalRoutines.c 502-503 *)
Definition cooling_dt (total : R) : R := rnd (total / 10).
Definition cooling_steps (total : R) : Z := Zfloor (rnd (total / cooling_dt total)).

Lemma b64_normal : forall m, (-1021 <= m)%Z -> b64 m = (m - 53)%Z.
Proof. intros m H. unfold b64, FLT_exp. lia. Qed.
Lemma bp : forall e, 0 < bpow radix2 e. Proof. intros. apply bpow_gt_0. Qed.

(** the tie just below ten goes up *)
Lemma tie_at_ten : rnd (10 - bpow radix2 (-50)) = 10.
Proof.
  unfold rnd, round, F2R, scaled_mantissa. cbn [Fnum Fexp].
  assert (M : mag radix2 (10 - bpow radix2 (-50)) = 4%Z :> Z).
  { apply mag_unique. assert (B : 0 < bpow radix2 (-50) < 1) by (split; [apply bp|change 1 with (bpow radix2 0); apply bpow_lt; lia]).
    rewrite Rabs_pos_eq by lra. change (bpow radix2 (4 - 1)) with 8. change (bpow radix2 4) with 16. lra. }
  assert (C : cexp radix2 b64 (10 - bpow radix2 (-50)) = (-49)%Z) by (unfold cexp; rewrite M, b64_normal; lia).
  rewrite C. assert (E : (10 - bpow radix2 (-50)) * bpow radix2 (- -49) = IZR (10 * 2 ^ 49) - / 2).
  { rewrite Rmult_minus_distr_r, <- bpow_plus. change (bpow radix2 (-50 + - -49)) with (/ 2). change (bpow radix2 (- -49)) with (IZR (2 ^ 49)). rewrite mult_IZR. ring. }
  rewrite E. assert (Z1 : ZnearestE (IZR (10 * 2 ^ 49) - / 2) = (10 * 2 ^ 49)%Z).
  { unfold Znearest. assert (F : Zfloor (IZR (10 * 2 ^ 49) - / 2) = (10 * 2 ^ 49 - 1)%Z) by (apply Zfloor_imp; rewrite plus_IZR, minus_IZR; lra).
    rewrite F. replace (IZR (10 * 2 ^ 49) - / 2 - IZR (10 * 2 ^ 49 - 1)) with (/ 2) by (rewrite minus_IZR; lra).
    rewrite Rcompare_Eq by reflexivity. change (negb (Z.even (10 * 2 ^ 49 - 1))) with true. cbv iota.
    apply Zceil_imp. rewrite minus_IZR. lra. }
  rewrite Z1. rewrite mult_IZR. change (IZR (2 ^ 49)) with (bpow radix2 49). rewrite Rmult_assoc, <- bpow_plus. change (bpow radix2 (49 + -49)) with 1. ring.
Qed.

Theorem C71_ten_cooling_steps : forall total, generic_format radix2 b64 total -> bpow radix2 (-1017) <= total -> cooling_steps total = 10%Z.
Proof.
  intros x Fx Hx. assert (Px : 0 < x) by (eapply Rlt_le_trans; [apply bp|exact Hx]).
  set (m := mag radix2 (x / 10) : Z).
  assert (Hm : bpow radix2 (m - 1) <= x / 10 < bpow radix2 m).
  { pose proof (bpow_mag_le radix2 (x / 10) ltac:(lra)) as H1. pose proof (bpow_mag_gt radix2 (x / 10)) as H2. rewrite Rabs_pos_eq in H1, H2 by lra. split; assumption. }
  assert (m1 : (-1021 <= m)%Z).
  { assert (bpow radix2 (-1021) < bpow radix2 m).
    { eapply Rle_lt_trans; [|apply Hm]. apply Rmult_le_reg_r with 10; [lra|]. replace (x / 10 * 10) with x by field. eapply Rle_trans; [|exact Hx].
      replace (bpow radix2 (-1017)) with (bpow radix2 (-1021) * 16) by (change 16 with (bpow radix2 4); rewrite <- bpow_plus; reflexivity).
      apply Rmult_le_compat_l; [left; apply bp|lra]. }
    apply lt_bpow in H. lia. }
  assert (mx : (m + 3 <= mag radix2 x)%Z).
  { apply mag_ge_bpow. rewrite Rabs_pos_eq by lra. apply Rle_trans with (10 * bpow radix2 (m - 1)); [|lra].
    replace (m + 3 - 1)%Z with (3 + (m - 1))%Z by lia. rewrite bpow_plus. change (bpow radix2 3) with 8. pose proof (bp (m - 1)). lra. }
  set (e := (m - 53)%Z). set (d := cooling_dt x).
  assert (Ce : cexp radix2 b64 (x / 10) = e) by (unfold cexp; fold m; now apply b64_normal).
  set (D := ZnearestE (x / 10 * bpow radix2 (- e))).
  assert (Ed : d = IZR D * bpow radix2 e) by (unfold d, cooling_dt, rnd, round, F2R, scaled_mantissa; rewrite Ce; reflexivity).
  (* x/10 in units of 2^e is a multiple of one fifth *)
  assert (EN : exists N, x = 2 * IZR N * bpow radix2 e).
  { set (cx := cexp radix2 b64 x). exists (Ztrunc (scaled_mantissa radix2 b64 x) * 2 ^ (cx - e - 1))%Z.
    assert (Hc : (3 <= cx - e)%Z) by (unfold cx, cexp; rewrite b64_normal by lia; unfold e; lia).
    rewrite Fx at 1. unfold F2R. cbn [Fnum Fexp]. fold cx. rewrite mult_IZR, (IZR_Zpower radix2) by lia.
    replace cx with (1 + ((cx - e - 1) + e))%Z at 1 by lia. rewrite !bpow_plus. change (bpow radix2 1) with 2. ring. }
  destruct EN as [N EN].
  assert (HD : (Z.abs (5 * D - N) <= 2)%Z).
  { assert (Hn : Rabs (IZR D - x / 10 * bpow radix2 (- e)) <= / 2) by (unfold D; rewrite Rabs_minus_sym; apply Znearest_half).
    assert (E5 : x / 10 * bpow radix2 (- e) = IZR N / 5) by (rewrite EN; replace (2 * IZR N * bpow radix2 e / 10 * bpow radix2 (- e)) with (IZR N / 5 * (bpow radix2 e * bpow radix2 (- e))) by field; rewrite <- bpow_plus, Z.add_opp_diag_r; cbn; ring).
    rewrite E5 in Hn. assert (Hb : Rabs (IZR (5 * D - N)) < 3).
    { rewrite minus_IZR, mult_IZR. replace (5 * IZR D - IZR N) with (5 * (IZR D - IZR N / 5)) by field. rewrite Rabs_mult, (Rabs_pos_eq 5) by lra. lra. }
    rewrite <- abs_IZR in Hb. apply lt_IZR in Hb. lia. }
  assert (Hd : bpow radix2 (52 + e) <= d).
  { unfold d, cooling_dt, rnd. apply round_ge_generic; [apply FLT_exp_valid; red; lia|apply valid_rnd_N| |].
    - apply generic_format_bpow. unfold b64, FLT_exp, e. lia.
    - replace (52 + e)%Z with (m - 1)%Z by (unfold e; lia). apply Hm. }
  assert (Pd : 0 < d) by (eapply Rlt_le_trans; [apply bp|exact Hd]).
  assert (E4 : 4 * bpow radix2 e <= d * bpow radix2 (-50)).
  { apply Rle_trans with (bpow radix2 (52 + e) * bpow radix2 (-50)); [|apply Rmult_le_compat_r; [left; apply bp|exact Hd]].
    rewrite <- bpow_plus. replace (52 + e + -50)%Z with (2 + e)%Z by lia. rewrite bpow_plus. change (bpow radix2 2) with 4. lra. }
  assert (Edx : 10 * d - x = 2 * bpow radix2 e * IZR (5 * D - N)) by (rewrite Ed, EN, minus_IZR, mult_IZR; ring).
  assert (Hdx : Rabs (10 * d - x) <= d * bpow radix2 (-50)).
  { rewrite Edx, Rabs_mult, (Rabs_pos_eq (2 * bpow radix2 e)) by (pose proof (bp e); lra). rewrite <- abs_IZR. apply IZR_le in HD. change (IZR 2) with 2 in HD. pose proof (bp e).
    apply Rle_trans with (2 * bpow radix2 e * 2); [apply Rmult_le_compat_l; lra|lra]. }
  assert (Hq : 10 - bpow radix2 (-50) <= x / d <= 10 + / 2).
  { assert (B : 0 < bpow radix2 (-50) <= / 2) by (split; [apply bp|change (/ 2) with (bpow radix2 (-1)); apply bpow_le; lia]).
    apply Rabs_le_inv in Hdx. split.
    - apply Rmult_le_reg_r with d; [exact Pd|]. unfold Rdiv. rewrite Rmult_assoc, Rinv_l, Rmult_1_r by lra. lra.
    - apply Rmult_le_reg_r with d; [exact Pd|]. unfold Rdiv. rewrite Rmult_assoc, Rinv_l, Rmult_1_r by lra. assert (d * bpow radix2 (-50) <= d * / 2) by (apply Rmult_le_compat_l; lra). lra. }
  assert (V : Valid_exp b64) by (apply FLT_exp_valid; red; lia).
  assert (L : 10 <= rnd (x / d)) by (rewrite <- tie_at_ten; unfold rnd; apply round_le; [exact V|apply valid_rnd_N|apply Hq]).
  assert (U : rnd (x / d) <= 10 + / 2).
  { unfold rnd. apply round_le_generic; [exact V|apply valid_rnd_N| |apply Hq].
    replace (10 + / 2) with (F2R (Float radix2 21 (-1))) by (unfold F2R; cbn; field). apply generic_format_F2R. intros _. unfold cexp, b64, FLT_exp.
    assert (M : mag radix2 (F2R (Float radix2 21 (-1))) = 4%Z :> Z) by (apply mag_unique; unfold F2R; cbn; rewrite Rabs_pos_eq; lra). rewrite M. lia. }
  unfold cooling_steps. apply Zfloor_imp. change (IZR (10 + 1)) with 11. change (IZR 10) with 10. unfold d in L, U. lra.
Qed.
Print Assumptions C71_ten_cooling_steps.

(** A total that is not a multiple of ten: seven seconds. *)
Example C71_ex : generic_format radix2 b64 7 /\ bpow radix2 (-1017) <= 7.
Proof.
  split.
  - replace 7 with (F2R (Float radix2 7 0)) by (unfold F2R; cbn; ring). apply generic_format_F2R. intros _. unfold cexp, b64, FLT_exp.
    assert (M : mag radix2 (F2R (Float radix2 7 0)) = 3%Z :> Z) by (apply mag_unique; unfold F2R; cbn; rewrite Rabs_pos_eq; lra). rewrite M. lia.
  - apply Rle_trans with (bpow radix2 0); [apply bpow_le; lia|cbn; lra].
Qed.
