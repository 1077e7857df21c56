(** * Specification and lemmas for C100 *)
From Coq Require Import ZArith Reals List Bool Lia Lra Psatz Permutation Arith.
Import ListNotations.
From Verif Require Import P2GModel P2GProofs AdvModel AdvProofs ReseedModel ReseedProofs SeedModel.
Local Open Scope R_scope.

(** ** Specification *)
(** The live markers have a phase and lie in the box, not on its west or lower side. *)
Definition tidy (b : box) (n : nat) (ms : nat -> part) : Prop :=
  forall k, (k < n)%nat -> active (ms k) ->
    (0 <= qph (ms k))%Z /\ bx0 b < qx (ms k) <= bx1 b /\ bz0 b < qz (ms k) <= bz1 b.
(** A quarter cell of rock with fewer than a quarter of the wanted markers. *)
Definition short (s : seeding) (n : nat) (ms : nat -> part) (c : Z * Z) : Prop :=
  in_grid (dbox s) c /\ rock_cell (dbox s) (dflag s) c /\
  exists N, population (dbox s) n ms c N /\ (4 * (Z.of_nat N + 1) <= dmin s)%Z.
(** Height of the surface (the present and the initial one) at a place of a quarter cell. *)
Definition surface (s : seeding) (c : Z * Z) (x : R) : R :=
  if dfree s then dta s (fst c / 2)%Z * x + dtb s (fst c / 2)%Z else bz1 (dbox s).
Definition surface0 (s : seeding) (c : Z * Z) (x : R) : R :=
  if dfree s then dia s (fst c / 2)%Z * x + dib s (fst c / 2)%Z else bz1 (dbox s).
Definition buried (s : seeding) (c : Z * Z) : Prop :=
  forall p, middle (dbox s) c p -> qz p < surface s c (qx p).
Definition deposit (s : seeding) (c : Z * Z) : Prop :=
  (0 < dproc s)%Z /\ forall p, middle (dbox s) c p -> surface0 s c (qx p) < qz p.
(** A marker that could be copied for the cell. *)
Definition nearby (s : seeding) (n : nat) (ms : nat -> part) (c : Z * Z) (k : nat) : Prop :=
  (k < n)%nat /\ exists c', in_grid (dbox s) c' /\ within2 c c' /\ holds (dbox s) c' (ms k).
Definition sediment (s : seeding) (p : part) : Prop := qph p = dised1 s \/ qph p = dised2 s.
Definition width2 (s : seeding) : R := (bx1 (dbox s) - bx0 (dbox s)) * (bx1 (dbox s) - bx0 (dbox s)).
(** What a new marker of cell [c] looks like. *)
Definition newborn (s : seeding) (n : nat) (ms : nat -> part) (c : Z * Z) (p : part) : Prop :=
  middle (dbox s) c p /\ qgen p = 1%Z /\
  exists k, nearby s n ms c k /\ qph p = qph (ms k) /\ kept p = kept (ms k) /\
    itp p = (if ddirect s then itp (ms k) else dgrid s (qx p) (qz p)) /\
    (~ deposit s c -> (exists k', nearby s n ms c k' /\ dist2 p (ms k') < width2 s) ->
       forall k', nearby s n ms c k' -> dist2 p (ms k) <= dist2 p (ms k')) /\
    (deposit s c -> (exists k', nearby s n ms c k' /\ sediment s (ms k') /\ dist2 p (ms k') < width2 s) ->
       sediment s (ms k) /\ forall k', nearby s n ms c k' -> sediment s (ms k') -> dist2 p (ms k) <= dist2 p (ms k')).

(** ** Extended cells *)
Lemma ext_near : forall x lo d n, 0 < d -> (0 < n)%Z -> lo < x <= lo + IZR n * (d / 2) ->
  ext_index x (/ 2 * (lo - d + (lo - d + d))) d (n + 4) = (nearest x (lo + d / 2 / 2) (d / 2) n + 2)%Z.
Proof.
  intros x lo d n Hd Hn (X1 & X2).
  destruct (proj1 (nearest_axis lo (d / 2) n _ x ltac:(lra) Hn) eq_refl) as (I & A & B).
  set (i := nearest x (lo + d / 2 / 2) (d / 2) n) in *. clearbody i.
  assert (A' : lo + IZR i * (d / 2) < x) by (destruct A as [A|A]; [exact A|rewrite A; lra]).
  assert (B' : x <= lo + (IZR i + 1) * (d / 2)).
  { destruct B as [B|B]; [exact B|]. rewrite B. rewrite minus_IZR. lra. }
  unfold ext_index.
  replace ((x - (/ 2 * (lo - d + (lo - d + d)) - d / 4)) / d * 2 + / 2) with ((x - lo) / (d / 2) + 2) by (field; lra).
  destruct (Zceil_spec ((x - lo) / (d / 2) + 2)) as (C1 & C2). set (q := (x - lo) / (d / 2)) in *.
  assert (E : x = lo + q * (d / 2)) by (unfold q; field; lra). clearbody q. subst x.
  assert (Q : IZR i < q <= IZR i + 1) by (split; nra).
  assert (Z1 : Zceil (q + 2) = (i + 3)%Z).
  { assert (IZR (i + 2) < IZR (Zceil (q + 2))) by (rewrite plus_IZR; lra).
    assert (IZR (Zceil (q + 2)) < IZR (i + 4)) by (rewrite plus_IZR; lra).
    apply lt_IZR in H, H0. lia. }
  rewrite Z1. destruct (Z.ltb_spec (i + 3 - 1) 0); [lia|]. destruct (Z.ltb_spec (n + 4 - 1) (i + 3 - 1)); lia.
Qed.

Section B.
Variable s : seeding.
Variable n : nat.
Variable ms : nat -> part.
Notation b := (dbox s).
Hypothesis OK : box_ok b.
Hypothesis T : tidy b n ms.

Definition kd (c : Z * Z) : Z := (fst c + 2 + (snd c + 2) * efx b)%Z.
Definition home (p : part) : Z * Z := (cell_x b p, cell_z b p).

Lemma home_grid : forall p, in_grid b (home p).
Proof.
  intros p. destruct (steps b OK) as (_ & _ & _ & _ & X & Zz & _). apply in_grid_nc. unfold home. cbn.
  split; apply nearest_range; assumption.
Qed.

Lemma kd_inj : forall c c', (-2 <= fst c < ncx b + 2)%Z -> (-2 <= fst c' < ncx b + 2)%Z -> kd c = kd c' -> c = c'.
Proof.
  intros (i & j) (i' & j') A B E. unfold kd in E. cbn [fst snd] in *.
  assert (W : efx b = (ncx b + 4)%Z) by (unfold efx, ncx; lia). rewrite W in E. set (w := (ncx b + 4)%Z) in *.
  assert (i + 2 < w /\ i' + 2 < w /\ 0 <= i + 2 /\ 0 <= i' + 2)%Z as (A1 & B1 & A2 & B2) by (unfold w; lia). clearbody w.
  assert (j = j') by nia. subst. f_equal. lia.
Qed.

Lemma ext_home : forall k, (k < n)%nat -> active (ms k) ->
  ext_x b (ms k) = (cell_x b (ms k) + 2)%Z /\ ext_z b (ms k) = (cell_z b (ms k) + 2)%Z.
Proof.
  intros k Hk A. destruct (T k Hk A) as (_ & X & Y). destruct (steps b OK) as (DX & DZ & FX & FZ & NX & NZ & EX & EZ).
  unfold ext_x, ext_z, cell_x, cell_z, xc_e0, zc_e0, xg_e0, zg_e0, fdx, fdz.
  replace (efx b) with (ncx b + 4)%Z by (unfold efx, ncx; lia). replace (efz b) with (ncz b + 4)%Z by (unfold efz, ncz; lia).
  unfold fdx in EX. unfold fdz in EZ.
  split; apply ext_near; try assumption; rewrite ?EX, ?EZ; assumption.
Qed.

Lemma places_home : forall k, (k < n)%nat -> active (ms k) -> places s (ms k) = [kd (home (ms k))].
Proof.
  intros k Hk A. unfold places. destruct (ext_home k Hk A) as (-> & ->). assert (H := home_grid (ms k)).
  apply in_grid_nc in H. unfold home in *. cbn in H. cbv zeta. unfold kd. cbn [fst snd]. f_equal.
  destruct (dper s); [|reflexivity]. assert (E : efx b = (ncx b + 4)%Z) by (unfold efx, ncx; lia).
  destruct (Z.eqb_spec (cell_x b (ms k) + 2) (efx b - 1)); [lia|]. destruct (Z.eqb_spec (cell_x b (ms k) + 2) (efx b - 2)); [lia|].
  destruct (Z.eqb_spec (cell_x b (ms k) + 2) 0); [lia|]. destruct (Z.eqb_spec (cell_x b (ms k) + 2) 1); [lia|]. reflexivity.
Qed.

Definition at_kd (kc : Z) (k : nat) : bool := activeb (ms k) && (kd (home (ms k)) =? kc)%Z.

Lemma mpc_fold : forall ks f kc, (forall k, In k ks -> (k < n)%nat) ->
  fold_left (mpc_step s ms) ks f kc = (f kc + length (filter (at_kd kc) ks))%nat.
Proof.
  induction ks as [|k ks IH]; intros f kc H; cbn [fold_left filter]; [cbn; lia|].
  rewrite IH by (intros; apply H; now right). unfold mpc_step, at_kd at 2.
  destruct (activeb (ms k)) eqn:A; cbn [andb]; [|reflexivity].
  assert (Hk := H k (or_introl eq_refl)). apply activeb_spec in A. destruct (T k Hk A) as (P & _).
  destruct (Z.leb_spec 0 (qph (ms k))); [|lia]. rewrite places_home by assumption. cbn [fold_left]. unfold tally, zupd.
  rewrite (Z.eqb_sym kc). destruct (Z.eqb_spec (kd (home (ms k))) kc) as [->|]; cbn [length]; lia.
Qed.
Lemma ipcell_fold : forall ks f kc, (forall k, In k ks -> (k < n)%nat) ->
  fold_left (ipcell_step s ms) ks f kc = f kc ++ filter (at_kd kc) ks.
Proof.
  induction ks as [|k ks IH]; intros f kc H; cbn [fold_left filter]; [now rewrite app_nil_r|].
  rewrite IH by (intros; apply H; now right). unfold ipcell_step, at_kd at 2.
  destruct (activeb (ms k)) eqn:A; cbn [andb]; [|reflexivity].
  assert (Hk := H k (or_introl eq_refl)). apply activeb_spec in A.
  rewrite places_home by assumption. cbn [fold_left]. unfold enlist, zupd.
  rewrite (Z.eqb_sym kc). destruct (Z.eqb_spec (kd (home (ms k))) kc) as [->|]; [now rewrite <- app_assoc|reflexivity].
Qed.
Lemma ipcell_eq : forall kc, ipcell s n ms kc = filter (at_kd kc) (seq 0 n).
Proof. intros kc. unfold ipcell. rewrite ipcell_fold; [reflexivity|]. intros k H. apply in_seq in H. lia. Qed.
Lemma mpc_eq : forall kc, mpc s n ms kc = length (ipcell s n ms kc).
Proof. intros kc. rewrite ipcell_eq. unfold mpc. rewrite mpc_fold; [reflexivity|]. intros k H. apply in_seq in H. lia. Qed.

Lemma ipcell_members : forall c, in_grid b c -> ipcell s n ms (kd c) = members b n ms (flat b c).
Proof.
  intros c Hc. rewrite ipcell_eq. unfold members. apply filter_ext. intros k. unfold at_kd. f_equal.
  assert (H := home_grid (ms k)). assert (Hc' := Hc). apply in_grid_nc in Hc'. assert (H' := H). apply in_grid_nc in H'.
  change (cell b (ms k)) with (flat b (home (ms k))).
  destruct (Z.eqb_spec (kd (home (ms k))) (kd c)) as [E|E].
  - apply kd_inj in E; [|lia|lia]. rewrite E. now rewrite Z.eqb_refl.
  - destruct (Z.eqb_spec (flat b (home (ms k))) (flat b c)) as [E'|]; [|reflexivity]. apply flat_inj in E'; try assumption. congruence.
Qed.
Lemma ipcell_In : forall c k, (-2 <= fst c < ncx b + 2)%Z ->
  In k (ipcell s n ms (kd c)) <-> (k < n)%nat /\ in_grid b c /\ holds b c (ms k).
Proof.
  intros c k Hc. split.
  - intros H. assert (G : in_grid b c).
    { rewrite ipcell_eq in H. apply filter_In in H. destruct H as (_ & H). unfold at_kd in H. apply andb_true_iff in H.
      destruct H as (_ & H). apply Z.eqb_eq in H. assert (HG := home_grid (ms k)). assert (HG' := HG). apply in_grid_nc in HG'.
      apply kd_inj in H; [|lia|exact Hc]. now rewrite <- H. }
    rewrite ipcell_members in H by exact G. apply member_iff in H; try assumption. tauto.
  - intros (A & G & H). rewrite ipcell_members by exact G. apply member_iff; tauto.
Qed.

Lemma offsets_In : forall o, In o around_offsets <-> (Z.abs (fst o) <= 2)%Z /\ (Z.abs (snd o) <= 2)%Z.
Proof.
  intros (u & v). cbn [fst snd]. split.
  - intros H. cbn [around_offsets In] in H. repeat (destruct H as [H|H]; [inversion H; subst; lia|]). contradiction.
  - intros (U & V). assert (u = -2 \/ u = -1 \/ u = 0 \/ u = 1 \/ u = 2)%Z as [->|[->|[->|[->| ->]]]] by lia;
      assert (v = -2 \/ v = -1 \/ v = 0 \/ v = 1 \/ v = 2)%Z as [->|[->|[->|[->| ->]]]] by lia; cbn; tauto.
Qed.

Notation near c := (flat_map (ipcell s n ms) (around (efx b) (kd c))).

Lemma near_In : forall c k, in_grid b c -> In k (near c) <-> nearby s n ms c k.
Proof.
  intros c k Hc. assert (Hc' := Hc). apply in_grid_nc in Hc'. unfold nearby. rewrite in_flat_map. split.
  - intros (kc & H & Hk). unfold around in H. apply in_map_iff in H. destruct H as (o & <- & Ho). apply offsets_In in Ho.
    replace (kd c + fst o + snd o * efx b)%Z with (kd (fst c + fst o, snd c + snd o)%Z) in Hk by (unfold kd; cbn [fst snd]; ring).
    apply ipcell_In in Hk; [|cbn [fst]; lia]. destruct Hk as (A & G & H). split; [exact A|].
    eexists. split; [exact G|]. split; [split; cbn [fst snd]; lia|exact H].
  - intros (A & c' & G & (W1 & W2) & H). exists (kd c'). split.
    + unfold around. apply in_map_iff. exists (fst c' - fst c, snd c' - snd c)%Z. split; [unfold kd; cbn [fst snd]; ring|].
      apply offsets_In. cbn [fst snd]. lia.
    + assert (G' := G). apply in_grid_nc in G'. apply ipcell_In; [lia|tauto].
Qed.

Lemma sum_near : forall ks a, fold_left (fun a kc => a + mpc s n ms kc)%nat ks a = (a + length (flat_map (ipcell s n ms) ks))%nat.
Proof.
  induction ks as [|k ks IH]; intros a; cbn [fold_left flat_map]; [cbn; lia|]. rewrite IH, mpc_eq, app_length. lia.
Qed.

(** ** Which cells *)
Definition shortb (c : Z * Z) : bool :=
  negb (dflag s (fst c / 2 + snd c / 2 * (bNx b - 1))%Z =? 30)%Z && (Z.of_nat (length (members b n ms (flat b c))) <? Z.quot (dmin s) 4)%Z.
Lemma shortb_spec : forall c, in_grid b c -> shortb c = true <-> short s n ms c.
Proof.
  intros c Hc. unfold shortb, short, rock_cell. rewrite andb_true_iff, negb_true_iff, Z.eqb_neq, Z.ltb_lt.
  assert (Q : forall m : nat, (Z.of_nat m < Z.quot (dmin s) 4)%Z <-> (4 * (Z.of_nat m + 1) <= dmin s)%Z).
  { intros m. destruct (Z.le_gt_cases 0 (dmin s)) as [L|L].
    - rewrite Z.quot_div_nonneg by lia. split; intros H.
      + assert (M := Z.mul_div_le (dmin s) 4 ltac:(lia)). lia.
      + assert ((Z.of_nat m + 1) <= dmin s / 4)%Z by (apply Z.div_le_lower_bound; lia). lia.
    - split; intros H; [exfalso|lia].
      assert (K : (Z.quot (dmin s) 4 <= 0)%Z).
      { replace (dmin s) with (- (- dmin s))%Z by lia. rewrite Z.quot_opp_l by lia. assert (0 <= Z.quot (- dmin s) 4)%Z by (apply Z.quot_pos; lia). lia. }
      lia. }
  rewrite Q. split.
  - intros (A & B). split; [exact Hc|]. split; [exact A|]. eexists. split; [apply population_members; [assumption|assumption|reflexivity]|exact B].
  - intros (_ & A & N & P & L). apply population_members in P; try assumption. subst N. tauto.
Qed.

Definition mx (c : Z * Z) : R := centre_x b (fst c).
Definition mz (c : Z * Z) : R := centre_z b (snd c).
Lemma middle_iff : forall c p, middle b c p <-> qx p = mx c /\ qz p = mz c.
Proof.
  intros c p. unfold middle, mx, mz, centre_x, centre_z, fdx, fdz, bdx, bdz.
  assert (A : forall lo u v, lo + (u + 1 / 2) * v = lo + v / 2 + u * v) by (intros; field).
  rewrite !A. tauto.
Qed.
Definition buriedb (c : Z * Z) : bool := Rltb (mz c) (surface s c (mx c)).
Lemma Rltb_iff : forall x y, Rltb x y = true <-> x < y.
Proof. intros x y. destruct (Rltb_spec x y); split; intros; congruence || lra || tauto. Qed.
Lemma buriedb_spec : forall c, buriedb c = true <-> buried s c.
Proof.
  intros c. unfold buriedb, buried. rewrite Rltb_iff. split.
  - intros H p M. apply middle_iff in M. destruct M as (-> & ->). exact H.
  - intros H. apply (H (Part (mx c) (mz c) 0 0 0 0)). apply middle_iff. split; reflexivity.
Qed.
Definition depositb (c : Z * Z) : bool := (0 <? dproc s)%Z && Rltb (surface0 s c (mx c)) (mz c).
Lemma depositb_spec : forall c, depositb c = true <-> deposit s c.
Proof.
  intros c. unfold depositb, deposit. rewrite andb_true_iff, Rltb_iff, Z.ltb_lt. split; intros (A & H); (split; [exact A|]).
  - intros p M. apply middle_iff in M. destruct M as (-> & ->). exact H.
  - apply (H (Part (mx c) (mz c) 0 0 0 0)). apply middle_iff. split; reflexivity.
Qed.

Definition here0 (c : Z * Z) : part := Part (mx c) (mz c) 0 0 0 0.
Definition mother (c : Z * Z) : nat := closest2 s ms (here0 c) (depositb c) (near c).

(** ** One cell *)
Definition shift (c : Z * Z) : Z * Z := (fst c + 2, snd c + 2)%Z.

Lemma coarse : forall lo d m k, 0 < d -> (0 <= k < 2 * m)%Z ->
  nearest (lo - d + d / 4 + IZR (k + 2) * d / 2) (lo + d / 2) d m = (k / 2)%Z.
Proof.
  intros lo d m k Dp Kr. apply nearest_axis; [exact Dp|lia|].
  assert (Q := Z.div_mod k 2 ltac:(lia)). assert (M := Z.mod_pos_bound k 2 ltac:(lia)).
  set (q := (k / 2)%Z) in *. set (r := (k mod 2)%Z) in *. clearbody q r.
  split; [lia|]. assert (EK : IZR k = 2 * IZR q + IZR r) by (rewrite Q, plus_IZR, mult_IZR; reflexivity).
  assert (R : 0 <= IZR r <= 1) by (split; apply IZR_le; lia). rewrite plus_IZR, EK.
  split; left; nra.
Qed.

Lemma add_here : forall c l, in_grid b c ->
  add_part s ms (fst c + 2) (snd c + 2) (fst c / 2) l =
  if buriedb c then Some (mx c, mz c, closest2 s ms (here0 c) (depositb c) l) else None.
Proof.
  intros c l Hc. unfold add_part. destruct (steps b OK) as (DX & DZ & FX & FZ & NX & NZ & EX & EZ).
  replace (bx0 b + IZR (fst c + 2 - 2) * bdx b / 2 + bdx b / 4) with (mx c)
    by (unfold mx, centre_x, fdx; replace (fst c + 2 - 2)%Z with (fst c) by lia; field).
  replace (bz0 b + IZR (snd c + 2 - 2) * bdz b / 2 + bdz b / 4) with (mz c)
    by (unfold mz, centre_z, fdz; replace (snd c + 2 - 2)%Z with (snd c) by lia; field).
  cbv zeta. fold (surface s c (mx c)). fold (surface0 s c (mx c)). fold (buriedb c). fold (depositb c). fold (here0 c).
  assert (Hc' := Hc). apply in_grid_nc in Hc'.
  assert (0 <= IZR (fst c)) by (apply IZR_le; lia). assert (0 <= IZR (snd c)) by (apply IZR_le; lia).
  assert (A : Rltb (bx0 b) (mx c) = true) by (apply Rltb_iff; unfold mx, centre_x; nra).
  assert (B : Rltb (bz0 b) (mz c) = true) by (apply Rltb_iff; unfold mz, centre_z; nra).
  rewrite A, B. reflexivity.
Qed.

Definition made (c : Z * Z) : R * R * nat := (mx c, mz c, mother c).

Lemma cell_step : forall c news, in_grid b c ->
  collect_cell s n ms news (shift c) =
  if shortb c then
    match near c with
    | [] => Exits 333
    | _ => if buriedb c then if (length news <? n)%nat then Done (news ++ [made c]) else UB else Done news
    end
  else Done news.
Proof.
  intros c news Hc. unfold collect_cell, shift. cbn [fst snd]. cbv zeta.
  destruct (steps b OK) as (DX & DZ & _). destruct Hc as (I & J) eqn:EHc. clear EHc.
  unfold xg_e0, zg_e0. rewrite (coarse (bx0 b) (bdx b) (bNx b - 1) (fst c) DX I), (coarse (bz0 b) (bdz b) (bNz b - 1) (snd c) DZ J).
  change (fst c + 2 + (snd c + 2) * efx b)%Z with (kd c). rewrite mpc_eq, ipcell_members by exact Hc.
  unfold shortb. destruct (negb _); cbn [andb]; [|reflexivity]. destruct (_ <? _)%Z; [|reflexivity].
  rewrite sum_near, add_here by exact Hc. cbn [plus]. fold (mother c).
  unfold made, mother. destruct (near c) as [|k0 l0] eqn:E; [reflexivity|].
  change (0 + length (k0 :: l0))%nat with (S (length l0)). cbn [Nat.eqb]. destruct (buriedb c); reflexivity.
Qed.

Definition wantedb (c : Z * Z) : bool := shortb c && buriedb c.

Lemma collect_run : forall cs news, (forall c, In c cs -> in_grid b c) -> (forall c, In c cs -> shortb c = true -> near c <> []) ->
  (length news <= n)%nat ->
  collect s n ms (map shift cs) news =
  if (length news + length (filter wantedb cs) <=? n)%nat then Done (news ++ map made (filter wantedb cs)) else UB.
Proof.
  induction cs as [|c cs IH]; intros news HG HS L; cbn [map collect filter].
  - cbn [length map]. rewrite app_nil_r, Nat.add_0_r. destruct (Nat.leb_spec (length news) n); [reflexivity|lia].
  - rewrite cell_step by (apply HG; now left). change (wantedb c) with (shortb c && buriedb c).
    assert (HG' : forall c', In c' cs -> in_grid b c') by (intros; apply HG; now right).
    assert (HS' : forall c', In c' cs -> shortb c' = true -> near c' <> []) by (intros c' H; apply HS; now right).
    destruct (shortb c) eqn:E; cbn [andb]; [|now apply IH].
    assert (NE := HS c (or_introl eq_refl) E). destruct (near c) as [|k0 l0]; [contradiction|].
    destruct (buriedb c); [|now apply IH].
    cbn [length map]. destruct (Nat.ltb_spec (length news) n).
    + rewrite IH; [|exact HG'|exact HS'|rewrite app_length; cbn [length]; lia]. rewrite app_length. cbn [length].
      replace (length news + 1 + length (filter wantedb cs))%nat with (length news + S (length (filter wantedb cs)))%nat by lia.
      rewrite <- app_assoc. reflexivity.
    + destruct (Nat.leb_spec (length news + S (length (filter wantedb cs))) n); [lia|reflexivity].
Qed.

Lemma fine_all : fine_cells b = map shift (all_cells b).
Proof.
  unfold fine_cells, all_cells.
  assert (Zr : forall m, zrange 2 (m + 4 - 3) = map (fun i => (i + 2)%Z) (zrange 0 (m - 1))).
  { intros m. unfold zrange. rewrite map_map. replace (m + 4 - 3 - 2 + 1)%Z with (m - 1 - 0 + 1)%Z by lia.
    apply map_ext. intros t. lia. }
  replace (efx b) with (ncx b + 4)%Z by (unfold efx, ncx; lia). replace (efz b) with (ncz b + 4)%Z by (unfold efz, ncz; lia).
  rewrite !Zr. generalize (zrange 0 (ncz b - 1)). intros l'. generalize (zrange 0 (ncx b - 1)). intros l.
  induction l as [|x l IH]; [reflexivity|]. cbn [map list_prod]. rewrite IH, map_app, !map_map. reflexivity.
Qed.
End B.
