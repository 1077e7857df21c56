(** Lemmas about marker velocities, domain check and mesh deformation. *)
From Coq Require Import ZArith Reals List Bool Lia Lra Psatz Permutation.
Import ListNotations.
From Verif Require Import P2GModel P2GProofs AdvModel.
Local Open Scope R_scope.

Lemma Rltb_spec : forall a b, reflect (a < b) (Rltb a b).
Proof. intros. unfold Rltb. destruct (Rlt_dec a b); constructor; assumption. Qed.
Lemma Rgeb_spec : forall a b, reflect (a >= b) (Rgeb a b).
Proof. intros. unfold Rgeb. destruct (Rge_dec a b); constructor; assumption. Qed.

(** ** Cells *)
Lemma cell_range : forall x x0 d n, (2 <= n)%Z -> (0 <= cell_of x x0 d n <= n - 2)%Z.
Proof.
  intros. unfold cell_of. set (c := (Zceil _ - 1)%Z). clearbody c.
  destruct (Z.ltb_spec c 0); destruct (Z.ltb_spec (n - 2) (if (c <? 0)%Z then 0%Z else c));
  destruct (Z.ltb_spec c 0); try lia; destruct (Z.ltb_spec (n - 2) c); destruct (Z.ltb_spec (n - 2) 0); lia.
Qed.

(** The marker lies in the cell found, if it lies on the grid. *)
Lemma cell_brackets : forall x x0 d n, (2 <= n)%Z -> 0 < d -> x0 <= x <= x0 + IZR (n - 1) * d ->
  let c := cell_of x x0 d n in
  x0 + IZR c * d <= x <= x0 + IZR (c + 1) * d.
Proof.
  intros x x0 d n Hn Hd Hx. unfold cell_of.
  destruct (Zceil_spec ((x - x0) / d)) as (C1 & C2). set (k := Zceil ((x - x0) / d)) in *. clearbody k.
  set (q := (x - x0) / d) in *. assert (Q : x = x0 + q * d) by (unfold q; field; lra).
  assert (Q1 : 0 <= q) by (unfold q; apply Rmult_le_pos; [lra|left; now apply Rinv_0_lt_compat]).
  assert (Q2 : q <= IZR (n - 1)) by nra. clearbody q. subst x.
  assert (K1 : (k <= n - 1)%Z).
  { apply Z.lt_succ_r. apply lt_IZR. rewrite succ_IZR. lra. }
  assert (K0 : (0 <= k)%Z) by (apply le_IZR; lra).
  cbv zeta. destruct (Z.ltb_spec (k - 1) 0).
  - assert (k = 0)%Z by lia. subst k. assert (q = 0) by lra. subst q.
    destruct (Z.ltb_spec (n - 2) 0); [lia|]. rewrite plus_IZR. cbn. nra.
  - destruct (Z.ltb_spec (n - 2) (k - 1)); [lia|]. replace (k - 1 + 1)%Z with k by lia. rewrite minus_IZR. nra.
Qed.

(** ** Weights *)
Lemma weight_range : forall x X d, 0 < d -> X <= x <= X + d -> 0 <= Rabs (x - X) / d <= 1 /\ x = X + Rabs (x - X) / d * d.
Proof.
  intros x X d Hd H. rewrite Rabs_pos_eq by lra. assert (E : (x - X) / d * d = x - X) by (field; lra).
  set (w := (x - X) / d) in *. clearbody w. split; [split; nra|lra].
Qed.
Lemma convex2 : forall lo hi a b t, 0 <= t <= 1 -> lo <= a <= hi -> lo <= b <= hi -> lo <= a * (1 - t) + b * t <= hi.
Proof. intros. nra. Qed.
Lemma convex3 : forall lo hi a b c t, 1 / 2 <= t <= 1 -> lo <= a <= hi -> lo <= b <= hi -> lo <= c <= hi ->
  lo <= a * (1 - t) + b * t + 1 / 2 * (t - 1 / 2) ^ 2 * (a - 2 * b + c) <= hi.
Proof.
  intros lo hi a b c t Ht Ha Hb Hc.
  assert (E : a * (1 - t) + b * t + 1 / 2 * (t - 1 / 2) ^ 2 * (a - 2 * b + c) =
              a * (1 - t + 1 / 2 * (t - 1 / 2) ^ 2) + b * (t - (t - 1 / 2) ^ 2) + c * (1 / 2 * (t - 1 / 2) ^ 2)) by field.
  rewrite E. set (wa := 1 - t + 1 / 2 * (t - 1 / 2) ^ 2). set (wb := t - (t - 1 / 2) ^ 2). set (wc := 1 / 2 * (t - 1 / 2) ^ 2).
  assert (0 <= wa) by (unfold wa; nra). assert (0 <= wb) by (unfold wb; nra). assert (0 <= wc) by (unfold wc; nra).
  assert (S : wa + wb + wc = 1) by (unfold wa, wb, wc; field). clearbody wa wb wc.
  assert (wc = 1 - wa - wb) by lra. subst wc. split; nra.
Qed.
