(** * Weight: lithostatic pressure (C96), forces and hydrostatic rest (C97), radial gravity (C98),
    density of mixtures (C99) *)
From Coq Require Import List ZArith Reals Bool Arith Lia Lra Psatz.
From Verif Require Import GridModel GridProofs NumProofs DiffModel LinSolve RheoModel StokesModel StokesProofs GravModel GravProofs.
Import ListNotations.
Local Open Scope R_scope.

(** ** C96: the lithostatic pressure *)

(** Cell [c] lies below cell [c + ncx]. The pressure difference is the weight of the material between
    the two centres. *)
Theorem C96_gradient : forall ncx ncz tp gz dz bkg rho c, (c + ncx < ncz * ncx)%nat ->
  rock (tp c) = true -> rock (tp (c + ncx)%nat) = true ->
  let p := lithostatic ncx ncz tp gz dz bkg rho in
  p c - p (c + ncx)%nat = - gz * dz * ((rho c + rho (c + ncx)%nat) / 2).
Proof.
  intros ncx ncz tp gz dz bkg rho c H R R' p. unfold p.
  rewrite !lith_rock by (try assumption; lia).
  rewrite (proj1 (weigh_spec ncx ncz tp gz dz rho) c) by nia. rewrite R. field.
Qed.
Print Assumptions C96_gradient.

(** Under air: confining pressure plus the weight of the rock above, up to the first air cell. *)
Theorem C96_column : forall ncx ncz tp gz dz bkg rho c n, (c + (1 + n) * ncx < ncz * ncx)%nat ->
  (forall i, (i <= n)%nat -> rock (tp (c + i * ncx)%nat) = true) ->
  rock (tp (c + (1 + n) * ncx)%nat) = false ->
  lithostatic ncx ncz tp gz dz bkg rho c =
  bkg - gz * dz * (rho c / 2 + sumn n (fun i => rho (c + (1 + i) * ncx)%nat)).
Proof.
  intros ncx ncz tp gz dz bkg rho c n H R A.
  pose proof (R 0%nat ltac:(lia)) as R0. rewrite Nat.mul_0_l, Nat.add_0_r in R0.
  rewrite lith_rock by (try assumption; lia).
  rewrite (weigh_run ncx ncz tp gz dz rho n c) by assumption.
  assert (Z0 : weigh ncx ncz tp gz dz rho (fun _ => 0) (c + (1 + n) * ncx)%nat = 0).
  { destruct (Nat.lt_ge_cases (c + (1 + n) * ncx) ((ncz - 1) * ncx)) as [L|G].
    - rewrite (proj1 (weigh_spec ncx ncz tp gz dz rho) _ L), A. reflexivity.
    - now apply (proj2 (weigh_spec ncx ncz tp gz dz rho)). }
  rewrite Z0.
  assert (E : forall m, sumn (S m) (fun i => rho (c + i * ncx)%nat) = rho c + sumn m (fun i => rho (c + (1 + i) * ncx)%nat)).
  { induction m as [|m IH].
    - unfold sumn. cbn [seq fold_right]. rewrite Nat.mul_0_l, Nat.add_0_r. reflexivity.
    - rewrite sumn_S, IH, (sumn_S m). change (S m) with (1 + m)%nat. ring. }
  rewrite E. field.
Qed.
Print Assumptions C96_column.

(** Nothing in the air. *)
Theorem C96_air : forall ncx ncz tp gz dz bkg rho c, rock (tp c) = false -> lithostatic ncx ncz tp gz dz bkg rho c = 0.
Proof. intros. apply lith_air; [lia|assumption]. Qed.
Print Assumptions C96_air.

(** Gravity downwards and positive densities: the pressure grows with depth. *)
Theorem C96_deeper : forall ncx ncz tp gz dz bkg rho c, (c + ncx < ncz * ncx)%nat ->
  rock (tp c) = true -> rock (tp (c + ncx)%nat) = true -> gz < 0 -> 0 < dz -> 0 < rho c -> 0 < rho (c + ncx)%nat ->
  lithostatic ncx ncz tp gz dz bkg rho (c + ncx)%nat < lithostatic ncx ncz tp gz dz bkg rho c.
Proof.
  intros ncx ncz tp gz dz bkg rho c H R R' G D A B.
  pose proof (C96_gradient ncx ncz tp gz dz bkg rho c H R R') as E. cbv zeta in E.
  assert (0 < - gz * dz * ((rho c + rho (c + ncx)%nat) / 2)); [|lra].
  apply Rmult_lt_0_compat; [|lra]. nra.
Qed.
Print Assumptions C96_deeper.

(** Two columns of three cells under a row of air; density 2, 1 from below in the first, 3, 1 in the second. *)
Definition tp_ex (c : nat) : Z := if (c <? 4)%nat then (-1)%Z else 31%Z.
Definition rho_ex (c : nat) : R := match c with 0%nat => 2 | 1%nat => 3 | _ => 1 end.
Example C96_ex : (0 + (1 + 1) * 2 < 3 * 2)%nat /\ (forall i, (i <= 1)%nat -> rock (tp_ex (0 + i * 2)%nat) = true) /\
  rock (tp_ex (0 + (1 + 1) * 2)%nat) = false /\
  lithostatic 2 3 tp_ex (-10) (1/2) 7 rho_ex 0 = 17 /\ lithostatic 2 3 tp_ex (-10) (1/2) 7 rho_ex 2 = 7 + 5/2.
Proof.
  assert (Hr : forall i, (i <= 1)%nat -> rock (tp_ex (0 + i * 2)%nat) = true).
  { intros i Hi. destruct i as [|[|i]]; [reflexivity|reflexivity|lia]. }
  split; [cbn; lia|]. split; [exact Hr|]. split; [reflexivity|]. split.
  - rewrite (C96_column 2 3 tp_ex (-10) (1/2) 7 rho_ex 0 1); [|cbn; lia|exact Hr|reflexivity].
    unfold sumn; cbn [seq fold_right]. cbn [Nat.add Nat.mul rho_ex]. lra.
  - rewrite (C96_column 2 3 tp_ex (-10) (1/2) 7 rho_ex 2 0); [|cbn; lia| |reflexivity].
    + unfold sumn; cbn [seq fold_right]. cbn [Nat.add Nat.mul rho_ex]. lra.
    + intros i Hi. destruct i as [|i]; [reflexivity|lia].
Qed.

(** Rock up to the top of the model: the weight of the top row is missing everywhere below it... *)
Theorem C96_closed_top : forall ncx ncz tp gz dz bkg rho k n, (k < ncx)%nat -> (n < ncz)%nat ->
  (forall i, (i <= n)%nat -> rock (tp (k + (ncz - 1 - i) * ncx)%nat) = true) ->
  let p := lithostatic ncx ncz tp gz dz bkg rho in
  let r := fun i => rho (k + (ncz - 1 - i) * ncx)%nat in
  p (k + (ncz - 1 - n) * ncx)%nat = bkg - gz * dz * (r n / 2 + sumn n r - r 0%nat).
Proof.
  intros ncx ncz tp gz dz bkg rho k n Hk Hn R. cbv zeta. induction n as [|n IH].
  - rewrite lith_rock by (try (apply R; lia); nia).
    rewrite (proj2 (weigh_spec ncx ncz tp gz dz rho)) by nia. unfold sumn. cbn [seq fold_right]. field.
  - assert (Hn' : (n < ncz)%nat) by lia.
    assert (IH' := IH Hn' ltac:(intros; apply R; lia)). clear IH.
    assert (E : (k + (ncz - 1 - S n) * ncx + ncx = k + (ncz - 1 - n) * ncx)%nat).
    { replace (ncz - 1 - n)%nat with (1 + (ncz - 1 - S n))%nat by lia. lia. }
    pose proof (C96_gradient ncx ncz tp gz dz bkg rho (k + (ncz - 1 - S n) * ncx)%nat) as G. cbv zeta in G.
    rewrite E in G. rewrite IH' in G. rewrite sumn_S.
    assert (B : (k + (ncz - 1 - n) * ncx < ncz * ncx)%nat) by nia.
    specialize (G B (R (S n) (le_n _)) (R n ltac:(lia))). lra.
Qed.
Print Assumptions C96_closed_top.

(** ... and the pressure in the top row is negative. *)
Theorem C96_closed_top_refuted : exists tp rho gz dz,
  gz < 0 /\ 0 < dz /\ (forall c, 0 < rho c) /\ (forall c, tp c = (-1)%Z) /\
  lithostatic 1 2 tp gz dz 0 rho 1 < 0.
Proof.
  exists (fun _ => (-1)%Z), (fun _ => 1), (-1), 1. repeat split; try lra; intros; try lra.
  rewrite lith_rock by (try reflexivity; lia).
  rewrite (proj2 (weigh_spec _ _ _ _ _ _)) by (cbn; lia). lra.
Qed.
Print Assumptions C96_closed_top_refuted.

(** *** With the density of the surface cells corrected for the position of the surface *)
Lemma loop_ext_in {S} (f g : S -> nat -> S) : forall n a s, (forall s k, (a <= k < a + n)%nat -> f s k = g s k) ->
  loop a n f s = loop a n g s.
Proof.
  induction n as [|n IH]; intros a s H; [reflexivity|]. unfold loop in *. cbn.
  rewrite H by lia. apply IH. intros. apply H. lia.
Qed.

Definition corrected (ncx : nat) (tp : nat -> Z) (h zc : nat -> R) (dz unit : R) (c : nat) (x : R) : R :=
  if (tp c =? -1)%Z && (tp (c + ncx)%nat =? 31)%Z then x * (Rabs (h (c mod ncx)%nat - zc (c / ncx)%nat) / dz)
  else if (tp c =? 30)%Z || (tp c =? 31)%Z then 1 / unit else x.

Lemma surface_density_at ncx ncz tp h zc dz unit rho c : (c < ncz * ncx)%nat ->
  surface_density ncx ncz tp h zc dz unit rho c = corrected ncx tp h zc dz unit c (rho c).
Proof.
  intros Hc. unfold surface_density.
  set (body := fun (rho : nat -> R) c1 =>
    let rho := if (tp c1 =? -1)%Z && (tp (c1 + ncx)%nat =? 31)%Z
               then upd rho c1 (rho c1 * (Rabs (h (c1 mod ncx)%nat - zc (c1 / ncx)%nat) / dz)) else rho in
    if (tp c1 =? 30)%Z || (tp c1 =? 31)%Z then upd rho c1 (1 / unit) else rho).
  rewrite (loop_ext_in _ (fun r l => loop 0 ncx (fun r k => body r (k + l * ncx)%nat) r)).
  2:{ intros s l _. apply loop_ext_in. intros s' k Hk. unfold body.
      rewrite Nat.mod_add, Nat.mod_small, Nat.div_add, Nat.div_small by lia. reflexivity. }
  rewrite loop_nest.
  pose proof (loop_ind (fun m a' => forall c, a' c = if (c <? m)%nat then corrected ncx tp h zc dz unit c (rho c) else rho c)
    body (ncz * ncx)%nat 0%nat rho) as IND. cbv beta in IND. rewrite Nat.add_0_l in IND.
  rewrite IND; clear IND; [now rewrite (proj2 (Nat.ltb_lt _ _) Hc)|reflexivity|].
  intros i s Hi IH c0. unfold body, corrected. destruct (Nat.eq_dec c0 i) as [->|N].
  - rewrite (proj2 (Nat.ltb_lt i (1 + i))) by lia.
    pose proof (IH i) as Ei. rewrite Nat.ltb_irrefl in Ei.
    destruct ((tp i =? -1)%Z && (tp (i + ncx)%nat =? 31)%Z) eqn:A.
    + apply andb_prop in A as [A _]. apply Z.eqb_eq in A. rewrite A. cbn [Z.eqb orb]. now rewrite upd_same, Ei.
    + destruct ((tp i =? 30)%Z || (tp i =? 31)%Z); [now rewrite upd_same|exact Ei].
  - transitivity (s c0).
    { destruct ((tp i =? -1)%Z && (tp (i + ncx)%nat =? 31)%Z), ((tp i =? 30)%Z || (tp i =? 31)%Z); rewrite ?upd_other by exact N; reflexivity. }
    rewrite IH. destruct (Nat.ltb_spec c0 i); destruct (Nat.ltb_spec c0 (1 + i)); try reflexivity; lia.
Qed.

(** Uniform rock of density [r] in column [i] up to row [s], the surface at height [h i] above the centre of
    the cell of row [s], air above. *)
Record uniform_column (ncx ncz : nat) (tp : nat -> Z) (rho h zc : nat -> R) (dz r : R) (i s : nat) : Prop := {
  uc_i : (i < ncx)%nat; uc_s : (s + 1 < ncz)%nat;
  uc_rock : forall l, (l <= s)%nat -> tp (i + l * ncx)%nat = (-1)%Z /\ rho (i + l * ncx)%nat = r;
  uc_air : tp (i + (s + 1) * ncx)%nat = 31%Z;
  uc_zc : forall l, zc (l + 1)%nat = zc l + dz;
  uc_h : zc s <= h i; uc_dz : 0 < dz }.

Lemma zc_diff (zc : nat -> R) dz (H : forall l, zc (l + 1)%nat = zc l + dz) : forall n l, zc (l + n)%nat = zc l + INR n * dz.
Proof.
  induction n as [|n IH]; intros l; [rewrite Nat.add_0_r; cbn; ring|].
  replace (l + S n)%nat with (l + n + 1)%nat by lia. rewrite H, IH, S_INR. ring.
Qed.

(** The pressure under a free surface: exact up to half a cell of rock in every cell below the surface cell, half the
    weight in the surface cell. *)
Theorem C96_overburden : forall ncx ncz tp gz dz bkg rho h zc unit r i s,
  uniform_column ncx ncz tp rho h zc dz r i s ->
  let p := lithostatic ncx ncz tp gz dz bkg (surface_density ncx ncz tp h zc dz unit rho) in
  p (i + s * ncx)%nat = bkg - gz * r * (h i - zc s) / 2 /\
  forall l, (l < s)%nat -> p (i + l * ncx)%nat = bkg - gz * r * (h i - zc l) + gz * r * dz / 2.
Proof.
  intros ncx ncz tp gz dz bkg rho h zc unit r i s U. cbv zeta.
  pose proof (uc_i _ _ _ _ _ _ _ _ _ _ U) as Ui. pose proof (uc_s _ _ _ _ _ _ _ _ _ _ U) as Us.
  pose proof (uc_rock _ _ _ _ _ _ _ _ _ _ U) as Ur. pose proof (uc_air _ _ _ _ _ _ _ _ _ _ U) as Ua.
  pose proof (uc_zc _ _ _ _ _ _ _ _ _ _ U) as Uz. pose proof (uc_h _ _ _ _ _ _ _ _ _ _ U) as Uh. pose proof (uc_dz _ _ _ _ _ _ _ _ _ _ U) as Ud.
  set (q := surface_density ncx ncz tp h zc dz unit rho).
  assert (Qs : q (i + s * ncx)%nat = r * ((h i - zc s) / dz)).
  { unfold q. rewrite surface_density_at by nia. unfold corrected. destruct (Ur s (le_n _)) as [T R]. rewrite T, R.
    replace (i + s * ncx + ncx)%nat with (i + (s + 1) * ncx)%nat by lia. rewrite Ua. cbn [Z.eqb Pos.eqb andb].
    rewrite Nat.mod_add, Nat.mod_small, Nat.div_add, Nat.div_small by lia. rewrite Nat.add_0_l, Rabs_right by lra. reflexivity. }
  assert (Ql : forall l, (l < s)%nat -> q (i + l * ncx)%nat = r).
  { intros l Hl. unfold q. rewrite surface_density_at by nia. unfold corrected.
    destruct (Ur l ltac:(lia)) as [T R]. destruct (Ur (l + 1)%nat ltac:(lia)) as [T' _]. rewrite T, R.
    replace (i + l * ncx + ncx)%nat with (i + (l + 1) * ncx)%nat by lia. rewrite T'. reflexivity. }
  assert (Rk : forall l, (l <= s)%nat -> rock (tp (i + l * ncx)%nat) = true) by (intros l Hl; destruct (Ur l Hl) as [T _]; now rewrite T).
  assert (Ra : rock (tp (i + (s + 1) * ncx)%nat) = false) by now rewrite Ua.
  assert (Ps : lithostatic ncx ncz tp gz dz bkg q (i + s * ncx)%nat = bkg - gz * r * (h i - zc s) / 2).
  { rewrite (C96_column ncx ncz tp gz dz bkg q (i + s * ncx) 0).
    - rewrite Qs. unfold sumn. cbn [seq fold_right]. field. lra.
    - nia.
    - intros j Hj. replace j with 0%nat by lia. rewrite Nat.mul_0_l, Nat.add_0_r. apply Rk. lia.
    - replace (i + s * ncx + (1 + 0) * ncx)%nat with (i + (s + 1) * ncx)%nat by lia. exact Ra. }
  split; [exact Ps|].
  assert (IND : forall n, (n < s)%nat -> lithostatic ncx ncz tp gz dz bkg q (i + (s - 1 - n) * ncx)%nat
                 = bkg - gz * r * (h i - zc (s - 1 - n)%nat) + gz * r * dz / 2).
  { induction n as [|n IH]; intros Hn.
    - pose proof (C96_gradient ncx ncz tp gz dz bkg q (i + (s - 1 - 0) * ncx)%nat) as G. cbv zeta in G.
      replace (i + (s - 1 - 0) * ncx + ncx)%nat with (i + s * ncx)%nat in G by nia.
      specialize (G ltac:(nia) (Rk (s - 1 - 0)%nat ltac:(lia)) (Rk s ltac:(lia))).
      rewrite Ps, Qs, Ql in G by lia.
      pose proof (Uz (s - 1 - 0)%nat) as Z1. replace (s - 1 - 0 + 1)%nat with s in Z1 by lia.
      replace (- gz * dz * ((r + r * ((h i - zc s) / dz)) / 2)) with (- gz * (r * dz + r * (h i - zc s)) / 2) in G by (field; lra).
      rewrite Z1 in G. rewrite Z1 in Ps. lra.
    - specialize (IH ltac:(lia)).
      pose proof (C96_gradient ncx ncz tp gz dz bkg q (i + (s - 1 - S n) * ncx)%nat) as G. cbv zeta in G.
      replace (i + (s - 1 - S n) * ncx + ncx)%nat with (i + (s - 1 - n) * ncx)%nat in G
        by (replace (s - 1 - n)%nat with (s - 1 - S n + 1)%nat by lia; lia).
      specialize (G ltac:(nia) (Rk (s - 1 - S n)%nat ltac:(lia)) (Rk (s - 1 - n)%nat ltac:(lia))).
      rewrite IH, !Ql in G by lia.
      pose proof (Uz (s - 1 - S n)%nat) as Z1. replace (s - 1 - S n + 1)%nat with (s - 1 - n)%nat in Z1 by lia.
      rewrite Z1 in G. lra. }
  intros l Hl. pose proof (IND (s - 1 - l)%nat ltac:(lia)) as E. replace (s - 1 - (s - 1 - l))%nat with l in E by lia. exact E.
Qed.
Print Assumptions C96_overburden.

(** Hence pressure differences between columns are those of the topography. *)
Theorem C96_topography : forall ncx ncz tp gz dz bkg rho h zc unit r i s i' s' l,
  uniform_column ncx ncz tp rho h zc dz r i s -> uniform_column ncx ncz tp rho h zc dz r i' s' -> (l < s)%nat -> (l < s')%nat ->
  let p := lithostatic ncx ncz tp gz dz bkg (surface_density ncx ncz tp h zc dz unit rho) in
  p (i + l * ncx)%nat - p (i' + l * ncx)%nat = - gz * r * (h i - h i').
Proof.
  intros ncx ncz tp gz dz bkg rho h zc unit r i s i' s' l U U' Hl Hl'. cbv zeta.
  destruct (C96_overburden ncx ncz tp gz dz bkg rho h zc unit r i s U) as [_ A].
  destruct (C96_overburden ncx ncz tp gz dz bkg rho h zc unit r i' s' U') as [_ B].
  cbv zeta in A, B. rewrite A, B by assumption. lra.
Qed.
Print Assumptions C96_topography.

(** The true weight of the rock above a centre is not reached. *)
Definition tp_ex2 (c : nat) : Z := if (c <? 2)%nat then (-1)%Z else 31%Z.
Definition zc_ex (j : nat) : R := INR j + 1 / 2.
Example C96_uniform_ex : uniform_column 1 3 tp_ex2 (fun _ => 2) (fun _ => 2) zc_ex 1 2 0 1.
Proof.
  split; try lia; try lra; try reflexivity.
  - intros l Hl. destruct l as [|[|l]]; [now split|now split|lia].
  - intros l. unfold zc_ex. rewrite plus_INR. cbn [INR]. lra.
  - unfold zc_ex. cbn [INR]. lra.
Qed.
Theorem C96_overburden_refuted : exists ncx ncz tp rho h zc dz r i s,
  uniform_column ncx ncz tp rho h zc dz r i s /\
  let p := lithostatic ncx ncz tp (-1) dz 0 (surface_density ncx ncz tp h zc dz 1 rho) in
  p i < r * (h i - zc 0%nat).
Proof.
  exists 1%nat, 3%nat, tp_ex2, (fun _ => 2), (fun _ => 2), zc_ex, 1, 2, 0%nat, 1%nat. split; [exact C96_uniform_ex|]. cbv zeta.
  destruct (C96_overburden 1 3 tp_ex2 (-1) 1 0 (fun _ => 2) (fun _ => 2) zc_ex 1 2 0 1 C96_uniform_ex) as [_ A].
  specialize (A 0%nat ltac:(lia)). cbn [Nat.add Nat.mul] in A. rewrite A. unfold zc_ex. cbn [INR]. lra.
Qed.
Print Assumptions C96_overburden_refuted.

(** The correction looks one row up: within the arrays as long as no rock cell is in the top row. *)
Theorem C96_surface_bounds : forall ncx ncz tp, (forall i, (i < ncx)%nat -> tp (i + (ncz - 1) * ncx)%nat <> (-1)%Z) ->
  forall c, In c (surface_reads ncx ncz tp) -> (c < ncx * ncz)%nat.
Proof.
  intros ncx ncz tp H c Hin. unfold surface_reads in Hin. apply in_flat_map in Hin as (j & Hj & Hin).
  apply in_flat_map in Hin as (i & Hi & Hin). apply in_seq in Hj. apply in_seq in Hi.
  destruct (tp (i + j * ncx)%nat =? -1)%Z eqn:E.
  - apply Z.eqb_eq in E. assert (j <> ncz - 1)%nat by (intros ->; apply (H i); [lia|exact E]).
    assert ((j + 2) * ncx <= ncz * ncx)%nat by (apply Nat.mul_le_mono_r; lia).
    destruct Hin as [<-|[<-|[]]]; nia.
  - destruct Hin as [<-|[]]. nia.
Qed.
Print Assumptions C96_surface_bounds.
(** With rock in the top row it reads past the end. *)
Theorem C96_surface_bounds_refuted : exists ncx ncz tp c, In c (surface_reads ncx ncz tp) /\ (ncx * ncz <= c)%nat.
Proof. exists 1%nat, 1%nat, (fun _ => (-1)%Z), 1%nat. split; [cbn; auto|lia]. Qed.
Print Assumptions C96_surface_bounds_refuted.
Example C96_surface_bounds_ex : (forall i, (i < 1)%nat -> tp_ex2 (i + (3 - 1) * 1)%nat <> (-1)%Z) /\ In 2%nat (surface_reads 1 3 tp_ex2).
Proof. split; [intros i Hi; replace i with 0%nat by lia; discriminate|cbn; auto 10]. Qed.

(** ** C97: forces, and rock at rest *)

(** The force on a Vz node: weight per volume where the velocity is unknown, nothing elsewhere. Away from the air, or
    without surface processes. *)
Theorem C97_force_z : forall Nx gz0 xvz zg tv tp rho sp om Vinc Winc dt dz k l,
  let c := (k + l * (Nx + 1))%Z in
  let iS := (k - 1 + (l - 1) * (Nx - 1))%Z in let iN := (k - 1 + l * (Nx - 1))%Z in
  let f := force_z Nx false gz0 zg xvz tv tp rho sp om Vinc Winc dt dz k l in
  ((0 < k < Nx)%Z -> tv c = (-1)%Z -> (sp < 1)%Z \/ rock (tp iS) = true /\ rock (tp iN) = true ->
     f = gz0 * ((rho iS + rho iN) / 2)) /\
  (~ (0 < k < Nx)%Z \/ tv c <> (-1)%Z -> f = 0).
Proof.
  intros Nx gz0 xvz zg tv tp rho sp om Vinc Winc dt dz k l. cbv zeta. unfold force_z, gravity_z, component.
  replace (k - 1 + (l - 1) * (Nx - 1) + (Nx - 1))%Z with (k - 1 + l * (Nx - 1))%Z by lia. split.
  - intros Hk T Q. rewrite (proj2 (Z.ltb_lt 0 k)), (proj2 (Z.ltb_lt k Nx)), T by lia. cbn [andb Z.eqb Pos.eqb].
    destruct (1 <=? sp)%Z eqn:E.
    + apply Z.leb_le in E. destruct Q as [Q|[-> ->]]; [lia|]. cbn [negb orb andb]. field.
    + cbn [andb]. field.
  - intros Q. assert (E : ((0 <? k) && (k <? Nx) && (tv (k + l * (Nx + 1)) =? -1))%Z = false).
    { destruct (Z.ltb_spec 0 k); destruct (Z.ltb_spec k Nx); cbn [andb]; try reflexivity.
      destruct Q as [Q|Q]; [lia|]. now apply Z.eqb_neq. }
    rewrite E. ring.
Qed.
Print Assumptions C97_force_z.

Theorem C97_force_x : forall Nx Nz gx0 gz0 xg zvx tu rho_n rho_s k l,
  let c := (k + l * Nx)%Z in
  let f := force_x Nx Nz false gx0 gz0 xg zvx tu rho_n rho_s k l in
  ((0 < l < Nz)%Z -> In (tu c) [-1; 2; -2]%Z -> f = gx0 * ((rho_s (c - Nx)%Z + rho_s c) / 2)) /\
  (~ (0 < l < Nz)%Z \/ ~ In (tu c) [-1; 2; -2]%Z -> f = 0).
Proof.
  intros Nx Nz gx0 gz0 xg zvx tu rho_n rho_s k l. cbv zeta. unfold force_x, gravity_x, component. split.
  - intros Hl T. rewrite (proj2 (Z.ltb_lt 0 l)), (proj2 (Z.ltb_lt l Nz)) by lia. cbn [andb].
    destruct T as [T|[T|[T|[]]]]; rewrite <- T; cbn [Z.eqb Pos.eqb orb]; field.
  - intros Q. assert (E : ((0 <? l) && (l <? Nz) && ((tu (k + l * Nx) =? -1) || (tu (k + l * Nx) =? 2) || (tu (k + l * Nx) =? -2)))%Z = false).
    { destruct (Z.ltb_spec 0 l); destruct (Z.ltb_spec l Nz); cbn [andb]; try reflexivity.
      destruct Q as [Q|Q]; [lia|]. cbn [In] in Q.
      destruct (Z.eqb_spec (tu (k + l * Nx)%Z) (-1)) as [E|E]; [exfalso; apply Q; rewrite E; auto|].
      destruct (Z.eqb_spec (tu (k + l * Nx)%Z) 2) as [E2|E2]; [exfalso; apply Q; rewrite E2; auto|].
      destruct (Z.eqb_spec (tu (k + l * Nx)%Z) (-2)) as [E3|E3]; [exfalso; apply Q; rewrite E3; auto|reflexivity]. }
    rewrite E. ring.
Qed.
Print Assumptions C97_force_x.

(** The lithostatic pressure of a Stokes mesh. *)
Definition p_lith (m : mesh) (g bkg : R) (c : Z) : R :=
  lithostatic (Z.to_nat (nx m - 1)) (Z.to_nat (nz m - 1)) (fun c => tp m (Z.of_nat c)) g (dz m) bkg
    (fun c => rho_n m (Z.of_nat c)) (Z.to_nat c).

(** No motion, no stored stress, forces from the weight (gravity vertical), pressure lithostatic. *)
Record at_rest (m : mesh) (g bkg : R) (f : fields) : Prop := {
  rest_u : forall c, fu f c = 0; rest_v : forall c, fv f c = 0;
  rest_s : forall c, exx0 m c = 0 /\ ezz0 m c = 0 /\ exz0 m c = 0;
  rest_p : forall c, fpc f c = p_lith m g bkg c;
  rest_bx : exists xg zvx rho_s, forall i j, (0 <= i < nx m)%Z -> (0 <= j <= nz m)%Z -> bx m (Ui m i j) = force_x (nx m) (nz m) false 0 g xg zvx (tu m) (rho_n m) rho_s i j;
  rest_bz : exists xvz zg om Vinc Winc, forall i j, (0 <= i <= nx m)%Z -> (0 <= j < nz m)%Z -> bz m (Vi m i j) =
      force_z (nx m) false g zg xvz (tv m) (tp m) (rho_n m) 0 om Vinc Winc (dt m) (dz m) i j }.

(** Density and kind of material depend on the row only. *)
Definition layered (m : mesh) : Prop := forall i i' j, (0 <= i < nx m - 1)%Z -> (0 <= i' < nx m - 1)%Z -> (0 <= j < nz m - 1)%Z ->
  tp m (Pi m i j) = tp m (Pi m i' j) /\ rho_n m (Pi m i j) = rho_n m (Pi m i' j).

Section Rest.
Variables (m : mesh) (g bkg : R) (f : fields).
Hypothesis T : tags_ok m.
Hypothesis Q : at_rest m g bkg f.

Ltac still := rewrite ?(rest_u _ _ _ _ Q), ?(rest_v _ _ _ _ Q).
Lemma rest_sxxd c : sxxd m f c = 0.
Proof.
  unfold sxxd. destruct (air (tp m c)) eqn:A; [reflexivity|].
  destruct (rest_s _ _ _ _ Q c) as (-> & _ & _). unfold exxd, div_u, cell_dvx, cell_dvz. rewrite !A. still. unfold Rdiv. ring.
Qed.
Lemma rest_szzd c : szzd m f c = 0.
Proof.
  unfold szzd. destruct (air (tp m c)) eqn:A; [reflexivity|].
  destruct (rest_s _ _ _ _ Q c) as (_ & -> & _). unfold ezzd, div_u, cell_dvx, cell_dvz. rewrite !A. still. unfold Rdiv. ring.
Qed.
Lemma rest_sxz c : sxz m f c = 0.
Proof.
  unfold sxz. destruct (tg m c =? 30)%Z; [reflexivity|].
  destruct (rest_s _ _ _ _ Q c) as (_ & _ & ->). unfold exz. cbv zeta. still. destruct (tg m _ =? 30)%Z; unfold Rdiv; ring.
Qed.

Lemma lith_gap c : (0 <= c)%Z -> (c + (nx m - 1) < (nz m - 1) * (nx m - 1))%Z -> rock (tp m c) = true -> rock (tp m (c + (nx m - 1)))%Z = true ->
  p_lith m g bkg (c + (nx m - 1)) - p_lith m g bkg c = g * dz m * ((rho_n m c + rho_n m (c + (nx m - 1))%Z) / 2).
Proof.
  intros H0 H R R'. pose proof (ok_nx m T) as X. pose proof (ok_nz m T) as Z1.
  pose proof (C96_gradient (Z.to_nat (nx m - 1)) (Z.to_nat (nz m - 1)) (fun c => tp m (Z.of_nat c)) g (dz m) bkg
    (fun c => rho_n m (Z.of_nat c)) (Z.to_nat c)) as G. cbv zeta beta in G. unfold p_lith.
  replace (Z.to_nat (c + (nx m - 1))) with (Z.to_nat c + Z.to_nat (nx m - 1))%nat by lia.
  rewrite Nat2Z.inj_add, !Z2Nat.id in G by lia.
  specialize (G ltac:(nia) R R'). lra.
Qed.

Lemma z_res_rest i j : (0 < i < nx m)%Z -> (0 <= j < nz m)%Z -> tv m (Vi m i j) = (-1)%Z ->
  z_residual m i j f = (- (p_lith m g bkg (Pi m (i - 1) j) - p_lith m g bkg (Pi m (i - 1) (j - 1))) / dz m
     + g * ((rho_n m (Pi m (i - 1) (j - 1)) + rho_n m (Pi m (i - 1) j)) / 2)) * - celvol m.
Proof.
  intros Hi Hj Tv. unfold z_residual. rewrite !(rest_szzd), !(rest_sxz), (rest_v _ _ _ _ Q), !(rest_p _ _ _ _ Q).
  unfold SzzS, SzzN, zPrN, zPrS, zc2, zc3, ncx, nxvz.
  change (i + j * (nx m + 1))%Z with (Vi m i j). rewrite Tv. cbn [Z.eqb Pos.eqb]. rewrite !andb_false_r. cbn [b2R].
  destruct (rest_bz _ _ _ _ Q) as (xvz & zg & om & Vinc & Winc & B). rewrite B by lia.
  pose proof (C97_force_z (nx m) g xvz zg (tv m) (tp m) (rho_n m) 0 om Vinc Winc (dt m) (dz m) i j) as [F _]. cbv zeta in F.
  rewrite F by (try assumption; left; lia).
  replace (i - 1 + (j - 1) * (nx m - 1) + (nx m - 1))%Z with (Pi m (i - 1) j) by (unfold Pi; lia).
  change (i - 1 + (j - 1) * (nx m - 1))%Z with (Pi m (i - 1) (j - 1)).
  change (i - 1 + j * (nx m - 1))%Z with (Pi m (i - 1) j).
  unfold Rdiv. ring.
Qed.

(** Row constancy of the pressure in a layered model. *)
Lemma lith_row (L : layered m) : forall i i' j, (0 <= i < nx m - 1)%Z -> (0 <= i' < nx m - 1)%Z -> (0 <= j < nz m - 1)%Z ->
  p_lith m g bkg (Pi m i j) = p_lith m g bkg (Pi m i' j).
Proof.
  intros i i' j Hi Hi' Hj.
  set (ncx := Z.to_nat (nx m - 1)). set (ncz := Z.to_nat (nz m - 1)).
  set (t := fun c => tp m (Z.of_nat c)). set (r := fun c => rho_n m (Z.of_nat c)).
  assert (E : forall a b, (0 <= a < nx m - 1)%Z -> (0 <= b < nz m - 1)%Z -> Z.to_nat (Pi m a b) = (Z.to_nat a + Z.to_nat b * ncx)%nat).
  { intros a b Ha Hb. unfold Pi, ncx. nia. }
  assert (Lt : forall b, (b < ncz)%nat -> t (Z.to_nat i + b * ncx)%nat = t (Z.to_nat i' + b * ncx)%nat /\ r (Z.to_nat i + b * ncx)%nat = r (Z.to_nat i' + b * ncx)%nat).
  { intros b Hb. unfold ncz in Hb. specialize (L i i' (Z.of_nat b) Hi Hi' ltac:(lia)). unfold t, r.
    replace (Z.of_nat (Z.to_nat i + b * ncx)) with (Pi m i (Z.of_nat b)) by (unfold Pi, ncx; nia).
    replace (Z.of_nat (Z.to_nat i' + b * ncx)) with (Pi m i' (Z.of_nat b)) by (unfold Pi, ncx; nia). exact L. }
  pose proof (ok_nx m T) as X. pose proof (ok_nz m T) as Z1.
  destruct (weigh_spec ncx ncz t g (dz m) r) as [W1 W2].
  assert (W : forall n, (n < ncz)%nat -> weigh ncx ncz t g (dz m) r (fun _ => 0) (Z.to_nat i + (ncz - 1 - n) * ncx)%nat
                                = weigh ncx ncz t g (dz m) r (fun _ => 0) (Z.to_nat i' + (ncz - 1 - n) * ncx)%nat).
  { induction n as [|n IH]; intros Hn.
    - rewrite !W2 by nia. reflexivity.
    - assert (B : forall a, (0 <= a < nx m - 1)%Z -> (Z.to_nat a + (ncz - 1 - S n) * ncx < (ncz - 1) * ncx)%nat).
      { intros a Ha. assert ((ncz - 1 - S n + 1) * ncx <= (ncz - 1) * ncx)%nat by (apply Nat.mul_le_mono_r; lia). unfold ncx in *. lia. }
      rewrite (W1 _ (B i Hi)), (W1 _ (B i' Hi')). destruct (Lt (ncz - 1 - S n)%nat ltac:(lia)) as [-> ->].
      assert (EE : forall a, (a + (ncz - 1 - S n) * ncx + ncx = a + (ncz - 1 - n) * ncx)%nat).
      { intros a. replace (ncz - 1 - n)%nat with (ncz - 1 - S n + 1)%nat by lia. lia. }
      rewrite !EE, IH by lia. reflexivity. }
  unfold p_lith. fold ncx ncz t r. rewrite !E by assumption.
  assert (Hjn : (Z.to_nat j < ncz)%nat) by (unfold ncz; lia).
  destruct (Lt (Z.to_nat j) Hjn) as [Et Er].
  specialize (W (ncz - 1 - Z.to_nat j)%nat ltac:(lia)). replace (ncz - 1 - (ncz - 1 - Z.to_nat j))%nat with (Z.to_nat j) in W by lia.
  destruct (rock (t (Z.to_nat i' + Z.to_nat j * ncx)%nat)) eqn:R.
  - rewrite !lith_rock; [now rewrite W, Er| |exact R| |now rewrite Et]; unfold ncx in *; nia.
  - rewrite !lith_air; [reflexivity|lia|exact R|lia|now rewrite Et].
Qed.
End Rest.

(** Rock at rest in a layered model with vertical gravity: every momentum residual between rock cells, and every
    horizontal one, vanishes exactly, and so does the continuity residual where pressure and old pressure agree. *)
Theorem C97_rest : forall m g bkg f, tags_ok m -> at_rest m g bkg f -> layered m ->
  (forall i j, (0 < i < nx m)%Z -> (0 <= j < nz m)%Z -> tv m (Vi m i j) = (-1)%Z ->
     rock (tp m (Pi m (i - 1) (j - 1))) = true -> rock (tp m (Pi m (i - 1) j)) = true -> z_residual m i j f = 0) /\
  (forall i j, (0 <= i < nx m)%Z -> (0 < j < nz m)%Z -> In (tu m (Ui m i j)) [-1; -2]%Z -> x_residual m i j f = 0) /\
  (forall i j, fp f (Pi m i j) = p0 m (Pi m i j) -> bp m (Pi m i j) = 0 -> c_residual m i j f = 0).
Proof.
  intros m g bkg f T Q L. pose proof (ok_nx m T) as X. pose proof (ok_nz m T) as Z1. pose proof (ok_dz m T) as D.
  repeat apply conj.
  - intros i j Hi Hj Tv RS RN. rewrite (z_res_rest m g bkg f Q i j Hi Hj Tv).
    destruct (ok_v_inner m T i j ltac:(lia) ltac:(lia) Tv) as [_ Hj'].
    pose proof (lith_gap m g bkg T (Pi m (i - 1) (j - 1))) as G.
    replace (Pi m (i - 1) (j - 1) + (nx m - 1))%Z with (Pi m (i - 1) j) in G by (unfold Pi; lia).
    rewrite G by (try assumption; unfold Pi; nia). field. exact D.
  - intros i j Hi Hj Tu. unfold x_residual. rewrite !(rest_sxxd m g bkg f Q), !(rest_sxz m g bkg f Q), (rest_u _ _ _ _ Q), !(rest_p _ _ _ _ Q).
    destruct (rest_bx _ _ _ _ Q) as (xg & zvx & rho_s & B). unfold xPrE, xPrW, xc2, SxxW, SxxE, per.
    change (xc1 m i j) with (Ui m i j). rewrite B by lia.
    destruct (C97_force_x (nx m) (nz m) 0 g xg zvx (tu m) (rho_n m) rho_s i j) as [F _]. cbv zeta in F.
    rewrite F; [|lia|change (i + j * nx m)%Z with (Ui m i j); cbn [In] in *; tauto].
    assert (E : (tu m (Ui m i j) =? 2)%Z = false) by (destruct Tu as [Tu|[Tu|[]]]; rewrite <- Tu; reflexivity).
    rewrite E, !andb_false_r. cbn [b2R]. unfold ncx.
    assert (P2 : p_lith m g bkg (i - 1 + (j - 1) * (nx m - 1) + 1)%Z =
                 p_lith m g bkg (if (tu m (Ui m i j) =? -2)%Z then (i - 1 + (j - 1) * (nx m - 1) + (nx m - 1))%Z else (i - 1 + (j - 1) * (nx m - 1))%Z)).
    { replace (i - 1 + (j - 1) * (nx m - 1) + 1)%Z with (Pi m i (j - 1)) by (unfold Pi; lia).
      destruct Tu as [Tu|[Tu|[]]]; rewrite <- Tu; cbn [Z.eqb Pos.eqb].
      - destruct (ok_u_inner m T i j ltac:(lia) ltac:(lia) (eq_sym Tu)) as [Hi' _].
        change (i - 1 + (j - 1) * (nx m - 1))%Z with (Pi m (i - 1) (j - 1)). apply lith_row; try assumption; lia.
      - destruct (ok_u_west m T i j ltac:(lia) ltac:(lia) (eq_sym Tu)) as [-> _].
        replace (0 - 1 + (j - 1) * (nx m - 1) + (nx m - 1))%Z with (Pi m (nx m - 2) (j - 1)) by (unfold Pi; lia).
        apply lith_row; try assumption; lia. }
    rewrite P2. unfold Rdiv. ring.
  - intros i j Hp Hb. unfold c_residual, cc2, div_u, cell_dvx, cell_dvz, ncx. change (i + j * (nx m - 1))%Z with (Pi m i j).
    rewrite Hp, Hb, !(rest_u _ _ _ _ Q), !(rest_v _ _ _ _ Q).
    destruct (air (tp m (Pi m i j))); unfold Rdiv; ring.
Qed.
Print Assumptions C97_rest.

(** Below the free surface without confining pressure the remainder is half the weight of the air. *)
Theorem C97_rest_surface : forall m g f, tags_ok m -> at_rest m g 0 f ->
  forall i j, (0 < i < nx m)%Z -> (0 <= j < nz m)%Z -> tv m (Vi m i j) = (-1)%Z ->
  rock (tp m (Pi m (i - 1) (j - 1))) = true -> rock (tp m (Pi m (i - 1) j)) = false ->
  z_residual m i j f = - celvol m * (g * rho_n m (Pi m (i - 1) j) / 2).
Proof.
  intros m g f T Q i j Hi Hj Tv RS RN. rewrite (z_res_rest m g 0 f Q i j Hi Hj Tv).
  pose proof (ok_nx m T) as X. pose proof (ok_nz m T) as Z1. pose proof (ok_dz m T) as D.
  destruct (ok_v_inner m T i j ltac:(lia) ltac:(lia) Tv) as [_ Hj'].
  unfold p_lith at 1. rewrite C96_air.
  2:{ rewrite Z2Nat.id by (unfold Pi; nia). exact RN. }
  unfold p_lith. rewrite (C96_column _ _ _ _ _ _ _ (Z.to_nat (Pi m (i - 1) (j - 1))) 0).
  - rewrite !Z2Nat.id by (unfold Pi; nia). unfold sumn. cbn [seq fold_right]. field. exact D.
  - unfold Pi. nia.
  - intros n Hn. replace n with 0%nat by lia. rewrite Nat.mul_0_l, Nat.add_0_r, Z2Nat.id by (unfold Pi; nia). exact RS.
  - rewrite Nat2Z.inj_add, Nat2Z.inj_mul, !Z2Nat.id by (unfold Pi; nia).
    replace (Pi m (i - 1) (j - 1) + Z.of_nat (1 + 0) * (nx m - 1))%Z with (Pi m (i - 1) j) by (unfold Pi; lia). exact RN.
Qed.
Print Assumptions C97_rest_surface.

(** Three columns, two rows of rock (densities 3 and 2) under a row of air. *)
Definition tab (def : Z) (l : list Z) (c : Z) : Z := if (0 <=? c)%Z then nth (Z.to_nat c) l def else def.
Definition tv_grav := tab 30 [13; 0; 0; 0; 13;   13; -1; -1; -1; 13;   13; -1; -1; -1; 13;   30; 30; 30; 30; 30]%Z.
Definition tp_grav (c : Z) : Z := if (c <? 6)%Z then (-1)%Z else 31%Z.
Definition rho_grav (c : Z) : R := if (c <? 3)%Z then 3 else if (c <? 6)%Z then 2 else 1.
Definition m_grav : mesh := {|
  nx := 4; nz := 4; dx := 1; dz := 1 / 2;
  tu := tab 30 [13; 13; 13; 13;   0; -1; -1; 0;   0; -1; -1; 0;   30; 30; 30; 30;   30; 30; 30; 30]%Z;
  tv := tv_grav; tp := tp_grav; tg := fun _ => (-1)%Z;
  eta_n := fun _ => 1; eta_s := fun _ => 2;
  exx0 := fun _ => 0; ezz0 := fun _ => 0; exz0 := fun _ => 0; valu := fun _ => 0; valv := fun _ => 0;
  rho_n := rho_grav; gx := fun _ => 0; gz := fun _ => -10; comp := true; oop := false; stab := true;
  om := 1; dt := 1; bx := fun _ => 0;
  bz := fun c => force_z 4 false (-10) (fun _ => 0) (fun _ => 0) tv_grav tp_grav rho_grav 0 1 0 0 1 (1 / 2) (c mod 5) (c / 5);
  ccomp := fun _ => true; bet := fun _ => 1; p0 := fun _ => 0; bp := fun _ => 0 |}.
Definition f_grav := {| fu := fun _ => 0; fv := fun _ => 0; fp := fun _ => 0; fpc := p_lith m_grav (-10) 0 |}.
Ltac zcase i n := lazymatch n with
  | O => idtac
  | S ?k => destruct (Z.eq_dec i (Z.of_nat k)); [subst i|zcase i k]
  end.
Ltac grav_cases i n j k := zcase i n; try (exfalso; lia); zcase j k; try (exfalso; lia);
  let H := fresh in try (intros H; vm_compute in H; first [discriminate H|repeat destruct H as [H|H]; first [discriminate H|contradiction H|idtac]]);
  try lia; try (vm_compute; tauto).
Example tags_grav : tags_ok m_grav.
Proof.
  split; try (cbn; lia); try (cbn; lra).
  - intros i j Hi Hj. cbn [nx nz m_grav] in *. grav_cases i 4%nat j 5%nat.
  - intros i j Hi Hj. cbn [nx nz m_grav] in *. grav_cases i 4%nat j 5%nat.
  - intros i j Hi Hj. cbn [nx nz m_grav] in *. grav_cases i 4%nat j 5%nat.
  - intros i j Hi Hj. cbn [nx nz m_grav] in *. grav_cases i 4%nat j 5%nat.
  - intros i j Hi Hj. cbn [nx nz m_grav] in *. grav_cases i 4%nat j 5%nat.
  - intros i j Hi Hj. cbn [nx nz m_grav] in *. grav_cases i 4%nat j 5%nat.
  - intros j Hj. cbn [nx nz m_grav] in *. zcase j 5%nat; try (exfalso; lia); intros H; discriminate H.
  - intros i j Hi Hj. cbn [nx nz m_grav] in *. grav_cases i 5%nat j 4%nat.
  - intros i j Hi Hj. cbn [nx nz m_grav] in *. grav_cases i 5%nat j 4%nat.
  - intros i j Hi Hj. cbn [nx nz m_grav] in *. grav_cases i 5%nat j 4%nat.
  - intros i j Hi Hj. cbn [nx nz m_grav] in *. grav_cases i 5%nat j 4%nat.
  - intros i j Hi Hj. cbn [tp m_grav]. unfold tp_grav. destruct (Pi m_grav i j <? 6)%Z; cbn; tauto.
  - intros j Hj. cbn [nx nz m_grav] in *. zcase j 5%nat; try (exfalso; lia); intros H; discriminate H.
  - intros j Hj. cbn [nx nz m_grav] in *. zcase j 5%nat; try (exfalso; lia); intros H; discriminate H.
  - intros j Hj. cbn [nx nz m_grav] in *. zcase j 5%nat; try (exfalso; lia); intros H; discriminate H.
  - intros j Hj. cbn [nx nz m_grav] in *. zcase j 5%nat; try (exfalso; lia); intros H; discriminate H.
  - intros j Hj. cbn [nx nz m_grav] in *. zcase j 5%nat; try (exfalso; lia); intros H; discriminate H.
Qed.
Example C97_rest_ex : at_rest m_grav (-10) 0 f_grav /\ layered m_grav /\
  (tv m_grav (Vi m_grav 1 1) = (-1)%Z /\ rock (tp m_grav (Pi m_grav 0 0)) = true /\ rock (tp m_grav (Pi m_grav 0 1)) = true /\
   z_residual m_grav 1 1 f_grav = 0) /\
  (In (tu m_grav (Ui m_grav 1 1)) [-1; -2]%Z /\ x_residual m_grav 1 1 f_grav = 0) /\
  (tv m_grav (Vi m_grav 1 2) = (-1)%Z /\ rock (tp m_grav (Pi m_grav 0 2)) = false /\ z_residual m_grav 1 2 f_grav = 5 / 2) /\
  p_lith m_grav (-10) 0 0 = 35 / 2.
Proof.
  assert (Q : at_rest m_grav (-10) 0 f_grav).
  { split; try (intros; reflexivity).
    - intros c. repeat split; reflexivity.
    - exists (fun _ => 0), (fun _ => 0), (fun _ => 0). intros i j Hi Hj.
      destruct (C97_force_x (nx m_grav) (nz m_grav) 0 (-10) (fun _ => 0) (fun _ => 0) (tu m_grav) (rho_n m_grav) (fun _ => 0) i j) as [A B].
      cbv zeta in A, B. cbn [bx m_grav].
      destruct (in_dec Z.eq_dec (tu m_grav (i + j * nx m_grav)%Z) [-1; 2; -2]%Z) as [I1|N1].
      + destruct (Z_lt_dec 0 j) as [J1|J1]; [|now rewrite B by (left; lia)].
        destruct (Z_lt_dec j (nz m_grav)) as [J2|J2]; [|now rewrite B by (left; lia)].
        rewrite A by (try assumption; lia). ring.
      + now rewrite B by (right; exact N1).
    - exists (fun _ => 0), (fun _ => 0), 1, 0, 0. intros i j Hi Hj. cbn [bz nx nz tv tp rho_n dt dz m_grav] in *. unfold Vi. cbn [nx m_grav].
      change (4 + 1)%Z with 5%Z. rewrite Z.mod_add, Z.mod_small, Z.div_add, Z.div_small by lia. reflexivity. }
  assert (L : layered m_grav).
  { intros i i' j Hi Hi' Hj. cbn [nx nz tp rho_n m_grav] in *. unfold tp_grav, rho_grav, Pi. cbn [nx m_grav]. change (4 - 1)%Z with 3%Z in *.
    zcase j 3%nat; try (exfalso; lia); split;
      repeat match goal with |- context[(?a <? ?b)%Z] => destruct (Z.ltb_spec a b); try (exfalso; lia) end; reflexivity. }
  destruct (C97_rest m_grav (-10) 0 f_grav tags_grav Q L) as (A & B & _).
  split; [exact Q|]. split; [exact L|]. repeat apply conj; try reflexivity.
  - apply A; try reflexivity; cbn; lia.
  - cbn; tauto.
  - apply B; cbn; try lia. tauto.
  - rewrite (C97_rest_surface m_grav (-10) f_grav tags_grav Q 1 2); try reflexivity; try (cbn; lia).
    change (rho_n m_grav (Pi m_grav (1 - 1) 2)) with 1. unfold celvol. cbn [dx dz m_grav]. lra.
  - unfold p_lith. rewrite (C96_column _ _ _ _ _ _ _ _ 1); try reflexivity; try (cbn; lia).
    + unfold sumn. cbn [seq fold_right].
      change (rho_n m_grav (Z.of_nat (Z.to_nat 0))) with 3.
      change (rho_n m_grav (Z.of_nat (Z.to_nat 0 + (1 + 0) * Z.to_nat (nx m_grav - 1)))) with 2. cbn [dz m_grav]. lra.
    + intros n Hn. destruct n as [|[|n]]; [reflexivity|reflexivity|lia].
Qed.

(** ** C98: gravity in the polar geometry *)
Lemma cos_atan_quotient x z : x <> 0 -> cos (atan (z / x)) = Rabs x / sqrt (x * x + z * z).
Proof.
  intros Hx. rewrite cos_atan.
  assert (P : 0 < x * x + z * z) by nra.
  replace (1 + (z / x)²) with ((x * x + z * z) / (x * x)) by (unfold Rsqr; field; exact Hx).
  rewrite sqrt_div_alt by nra. change (x * x) with (Rsqr x) at 2. rewrite sqrt_Rsqr_abs.
  assert (0 < sqrt (x * x + z * z)) by now apply sqrt_lt_R0.
  assert (0 < Rabs x) by now apply Rabs_pos_lt. field. split; lra.
Qed.
Lemma sin_atan_quotient x z : x <> 0 -> sin (atan (z / x)) = z / x * (Rabs x / sqrt (x * x + z * z)).
Proof.
  intros Hx. rewrite <- (cos_atan_quotient x z Hx).
  rewrite sin_atan, cos_atan. field. split; [|exact Hx]. apply Rgt_not_eq. apply sqrt_lt_R0. pose proof (Rle_0_sqr (z / x)). lra.
Qed.
Lemma atan_sign t : (0 < t -> 0 < atan t) /\ (t < 0 -> atan t < 0) /\ (t = 0 -> atan t = 0).
Proof.
  repeat split; intros H.
  - rewrite <- atan_0. now apply atan_increasing.
  - rewrite <- atan_0. now apply atan_increasing.
  - subst. apply atan_0.
Qed.

(** What the two nodes at a place [(x, z)] use, as a multiple of the unit vector away from the origin. *)
Lemma polar_components gx0 g x z : x <> 0 -> z <> 0 ->
  let s := if Rlt_dec 0 z then 1 else -1 in
  gravity_x true gx0 g x z = s * g * (x / sqrt (x * x + z * z)) /\
  gravity_z true g x z = s * g * (z / sqrt (x * x + z * z)).
Proof.
  intros Hx Hz. cbv zeta. unfold gravity_x, gravity_z, component.
  destruct (atan_sign (z / x)) as (A & B & _).
  rewrite cos_atan_quotient, sin_atan_quotient by exact Hx.
  assert (R : 0 < sqrt (x * x + z * z)) by (apply sqrt_lt_R0; nra).
  unfold Rltb. destruct (Rlt_dec 0 z) as [Z|Z]; destruct (Rlt_dec 0 x) as [X|X].
  - assert (0 < z / x) by (apply Rdiv_lt_0_compat; lra).
    destruct (Rlt_dec 0 (atan (z / x))); [|lra]. destruct (Rlt_dec (atan (z / x)) 0); [lra|].
    rewrite Rabs_right by lra. split; field; lra.
  - assert (z / x < 0) by (unfold Rdiv; pose proof (Rinv_lt_0_compat x ltac:(lra)); nra).
    destruct (Rlt_dec (atan (z / x)) 0); [|lra]. rewrite Rabs_left by lra. split; field; lra.
  - assert (z / x < 0) by (unfold Rdiv; pose proof (Rinv_0_lt_compat x ltac:(lra)); nra).
    destruct (Rlt_dec (atan (z / x)) 0); [|lra]. rewrite Rabs_right by lra. split; field; lra.
  - assert (0 < z / x) by (replace (z / x) with ((- z) / (- x)) by (field; lra); apply Rdiv_lt_0_compat; lra).
    destruct (Rlt_dec 0 (atan (z / x))); [|lra]. destruct (Rlt_dec (atan (z / x)) 0); [lra|].
    rewrite Rabs_left by lra. split; field; lra.
Qed.

(** In the upper half plane gravity points to the origin with constant strength. *)
Theorem C98_radial : forall gx0 g x z, x <> 0 -> 0 < z ->
  let r := sqrt (x * x + z * z) in
  gravity_x true gx0 g x z = g * (x / r) /\ gravity_z true g x z = g * (z / r) /\
  gravity_x true gx0 g x z * gravity_x true gx0 g x z + gravity_z true g x z * gravity_z true g x z = g * g.
Proof.
  intros gx0 g x z Hx Hz. cbv zeta. destruct (polar_components gx0 g x z Hx) as [A B]; [lra|]. cbv zeta in A, B.
  destruct (Rlt_dec 0 z); [|lra]. rewrite A, B.
  assert (R : 0 < sqrt (x * x + z * z)) by (apply sqrt_lt_R0; nra).
  repeat split; try ring.
  replace (1 * g * (x / sqrt (x * x + z * z)) * (1 * g * (x / sqrt (x * x + z * z))) + 1 * g * (z / sqrt (x * x + z * z)) * (1 * g * (z / sqrt (x * x + z * z))))
    with (g * g * ((x * x + z * z) / (sqrt (x * x + z * z) * sqrt (x * x + z * z)))) by (field; lra).
  rewrite sqrt_sqrt by nra. field. nra.
Qed.
Print Assumptions C98_radial.
(** Below the origin it points away from it, *)
Theorem C98_lower_half_refuted : forall gx0 g x z, x <> 0 -> z < 0 ->
  let r := sqrt (x * x + z * z) in
  gravity_x true gx0 g x z = - g * (x / r) /\ gravity_z true g x z = - g * (z / r).
Proof.
  intros gx0 g x z Hx Hz. cbv zeta. destruct (polar_components gx0 g x z Hx) as [A B]; [lra|]. cbv zeta in A, B.
  destruct (Rlt_dec 0 z); [lra|]. rewrite A, B. split; ring.
Qed.
Print Assumptions C98_lower_half_refuted.
(** and at the height of the origin it is the vertical gravity of the input file. *)
Theorem C98_horizontal_refuted : forall gx0 g x, x <> 0 -> gravity_x true gx0 g x 0 = gx0 /\ gravity_z true g x 0 = g.
Proof.
  intros gx0 g x Hx. unfold gravity_x, gravity_z, component. replace (0 / x) with 0 by (field; exact Hx). rewrite atan_0.
  unfold Rltb. destruct (Rlt_dec 0 0); [lra|]. split; reflexivity.
Qed.
Print Assumptions C98_horizontal_refuted.
Example C98_ex : (3 <> 0 /\ 0 < 4) /\ gravity_x true 0 (-10) (-3) 4 = 6 /\ gravity_z true (-10) (-3) 4 = -8 /\
  gravity_z true (-10) 3 (-4) = -8.
Proof.
  assert (E : sqrt 25 = 5) by (replace 25 with (5 * 5) by ring; apply sqrt_square; lra).
  destruct (C98_radial 0 (-10) (-3) 4) as (A & B & _); [lra|lra|].
  destruct (C98_lower_half_refuted 0 (-10) 3 (-4)) as (_ & C); [lra|lra|].
  replace (-3 * -3 + 4 * 4) with 25 in * by ring. replace (3 * 3 + -4 * -4) with 25 in * by ring.
  rewrite E in *. rewrite A, B, C. lra.
Qed.

(** ** C99: density of a mixture *)
Definition total_fraction (l : list (R * R)) : R := fold_right (fun fr a => fst fr + a) 0 l.

Lemma density_shift t l : forall a, fold_left (fun a fr =>
    if Rltb (/ 10 ^ 13) (Rabs (fst fr)) then if negb (t =? 30)%Z then a + fst fr * snd fr else a else a) l a = a + cell_density t l.
Proof.
  unfold cell_density. induction l as [|[f r] l IH]; intros a; cbn [fold_left fst snd]; [ring|].
  rewrite IH, (IH (if Rltb _ _ then _ else _)). destruct (Rltb _ _); [destruct (negb _)|]; ring.
Qed.
Lemma density_cons t f r l : cell_density t ((f, r) :: l) =
  (if Rltb (/ 10 ^ 13) (Rabs f) then if negb (t =? 30)%Z then f * r else 0 else 0) + cell_density t l.
Proof.
  unfold cell_density at 1. cbn [fold_left fst snd]. rewrite density_shift.
  destruct (Rltb _ _); [destruct (negb _)|]; ring.
Qed.

(** Between the lightest and the densest phase present, up to the fractions that are skipped. *)
Theorem C99_between : forall t l lo hi, t <> 30%Z -> 0 <= lo ->
  (forall f r, In (f, r) l -> 0 <= f /\ lo <= r <= hi) -> total_fraction l = 1 ->
  lo * (1 - INR (length l) * / 10 ^ 13) <= cell_density t l <= hi.
Proof.
  intros t l lo hi Ht Hlo H E.
  assert (G : lo * (total_fraction l - INR (length l) * / 10 ^ 13) <= cell_density t l <= hi * total_fraction l \/ l = []).
  2:{ destruct G as [G|G]; [rewrite E in G; lra|]. subst l. cbn in E. lra. }
  clear E. induction l as [|[f r] l IH]; [now right|]. left.
  rewrite density_cons. cbn [total_fraction fold_right fst length]. fold (total_fraction l). rewrite S_INR.
  destruct (H f r (or_introl eq_refl)) as [Hf Hr].
  assert (T : 0 < / 10 ^ 13) by (apply Rinv_0_lt_compat; lra).
  assert (G : lo * (total_fraction l - INR (length l) * / 10 ^ 13) <= cell_density t l <= hi * total_fraction l).
  { destruct IH as [IH| ->]; [intros f' r' I; apply (H f' r'); now right|exact IH|]. cbn. lra. }
  rewrite (proj2 (Z.eqb_neq _ _) Ht). cbn [negb]. unfold Rltb. destruct (Rlt_dec (/ 10 ^ 13) (Rabs f)) as [L|L].
  - assert (lo * f <= f * r <= hi * f) by nra. assert (0 <= lo * / 10 ^ 13) by nra. lra.
  - rewrite Rabs_right in L by lra. assert (0 <= hi * f) by nra. assert (lo * f <= lo * / 10 ^ 13) by (apply Rmult_le_compat_l; lra). lra.
Qed.
Print Assumptions C99_between.
(** Exactly the average by volume when no present phase is skipped. *)
Theorem C99_average : forall t l, t <> 30%Z ->
  (forall f r, In (f, r) l -> f = 0 \/ / 10 ^ 13 < f) ->
  cell_density t l = fold_right (fun fr a => fst fr * snd fr + a) 0 l.
Proof.
  intros t l Ht. induction l as [|[f r] l IH]; intros H; [reflexivity|].
  rewrite density_cons. cbn [fold_right fst snd]. rewrite IH by (intros f' r' I; apply (H f' r'); now right).
  rewrite (proj2 (Z.eqb_neq _ _) Ht). cbn [negb]. f_equal.
  assert (T : 0 < / 10 ^ 13) by (apply Rinv_0_lt_compat; lra).
  unfold Rltb. destruct (H f r (or_introl eq_refl)) as [->|L].
  - rewrite Rabs_R0. destruct (Rlt_dec _ _); ring.
  - rewrite Rabs_right by lra. destruct (Rlt_dec (/ 10 ^ 13) f); [reflexivity|lra].
Qed.
Print Assumptions C99_average.
Theorem C99_air : forall l, cell_density 30 l = 0.
Proof.
  induction l as [|[f r] l IH]; [reflexivity|]. rewrite density_cons, IH. cbn [Z.eqb Pos.eqb negb]. destruct (Rltb _ _); ring.
Qed.
Print Assumptions C99_air.
Example C99_ex : cell_density (-1) [(1/4, 2800); (0, 1000); (3/4, 3200)] = 3100 /\ total_fraction [(1/4, 2800); (0, 1000); (3/4, 3200)] = 1.
Proof.
  assert (T : 0 < / 10 ^ 13 < 1 / 8).
  { split; [apply Rinv_0_lt_compat; lra|]. replace (1 / 8) with (/ 8) by field. apply Rinv_lt_contravar; lra. }
  split; [|cbn; lra]. rewrite C99_average; [cbn; lra|discriminate|].
  intros f r [E|[E|[E|[]]]]; injection E as <- <-; lra.
Qed.
