(** * C109-C111: anisotropy factor, strength, grain size and composition *)
From Coq Require Import List ZArith Reals Bool Arith Lia Lra Psatz.
Import ListNotations.
From Verif Require Import GridModel GridProofs RheoModel MatGridModel MatGridProps AnisoModel P2GModel P2GProofs ItpModel ItpProofs SubgridModel SubgridProps PhaseGridModel PhaseGridProofs.
Local Open Scope R_scope.

(** ** C109: the anisotropy factor of cells and vertices *)

(** Specification. [psum n f] is [f 0 + ... + f (n-1)]; the three means of the values [v]
    with weights [fr]. *)
Fixpoint pprod (n : nat) (f : nat -> R) : R := match n with O => 1 | Datatypes.S n => pprod n f * f n end.
Definition mean_of (avg n : nat) (fr v : nat -> R) : R :=
  match avg with
  | O => psum n (fun p => fr p * v p)
  | 1%nat => / psum n (fun p => fr p / v p)
  | _ => pprod n (fun p => Rpower (v p) (fr p))
  end.
(** The factor of a phase at aspect ratio [ar]: the given one, or the aspect ratio up to
    the given maximum. *)
Definition factor_of (m : aniso_mat) (ar : R) (p : nat) : R :=
  if Z.eq_dec (am_fstrain m p) 1 then (if Rle_dec ar (am_max m p) then ar else am_max m p) else am_factor m p.
Definition shares (n : nat) (fr : nat -> R) : Prop := (forall p, (p < n)%nat -> 0 <= fr p) /\ psum n fr = 1.
Definition options_ok (nph : nat) (m : aniso_mat) : Prop :=
  forall p, (p < nph)%nat -> am_fstrain m p = 0%Z \/ am_fstrain m p = 1%Z.
Definition rock_cell (g : phase_fields) (c : nat) : Prop := pf_bcp g c <> 30%Z /\ pf_bcp g c <> 31%Z.
Definition rock_vertex (g : phase_fields) (c : nat) : Prop := pf_bcg g c <> 30%Z.

Lemma air_cell_spec t : reflect (t = 30 \/ t = 31)%Z (air_cell t).
Proof. unfold air_cell. destruct (Z.eqb_spec t 30); destruct (Z.eqb_spec t 31); cbn; constructor; tauto. Qed.
Lemma air_vertex_spec t : reflect (t = 30)%Z (air_vertex t).
Proof. apply Z.eqb_spec. Qed.

Lemma exp_psum n f : exp (psum n f) = pprod n (fun p => exp (f p)).
Proof. induction n as [|n IH]; cbn [psum pprod]; [apply exp_0|]. now rewrite exp_plus, IH. Qed.

Lemma factor_min m ar p : factor_of m ar p = if (am_fstrain m p =? 1)%Z then Rmin ar (am_max m p) else am_factor m p.
Proof.
  unfold factor_of, Rmin. destruct (Z.eq_dec (am_fstrain m p) 1) as [->|E]; [reflexivity|].
  apply Z.eqb_neq in E. now rewrite E.
Qed.
Lemma node_sum avg nph m fr ar : (avg <= 2)%nat -> options_ok nph m ->
  let a := loop 0 nph (aniso_term avg m fr ar) 0 in
  a = psum nph (fun p => fr p * tr avg (factor_of m ar p)) /\ finish avg a = mean_of avg nph fr (factor_of m ar).
Proof.
  intros A O. cbv zeta. rewrite aniso_loop by exact O.
  assert (E : psum nph (fun p => contrib avg (fr p) (if (am_fstrain m p =? 1)%Z then Rmin ar (am_max m p) else am_factor m p)) =
              psum nph (fun p => fr p * tr avg (factor_of m ar p))).
  { apply psum_ext. intros p _. rewrite factor_min. destruct avg as [|[|[|]]]; cbn [contrib tr]; [reflexivity|unfold Rdiv; ring|reflexivity|lia]. }
  split; [exact E|]. rewrite E. destruct avg as [|[|[|]]]; cbn [finish tr mean_of]; [reflexivity| | |lia].
  - unfold Rdiv. ring.
  - rewrite exp_psum. reflexivity.
Qed.
Lemma mean_between avg n fr v lo hi : (avg <= 2)%nat -> 0 < lo -> shares n fr ->
  (forall p, (p < n)%nat -> fr p <> 0 -> lo <= v p <= hi) -> lo <= mean_of avg n fr v <= hi.
Proof.
  intros A L [P S] V. destruct avg as [|[|[|]]]; cbn [mean_of]; [| | |lia].
  - now apply psum_between.
  - assert (B : / hi <= psum n (fun p => fr p * / v p) <= / lo).
    { apply psum_between; auto. intros p Hp F. specialize (V p Hp F).
      split; apply Rinv_le_contravar; lra. }
    change (psum n (fun p => fr p / v p)) with (psum n (fun p => fr p * / v p)). set (q := psum n (fun p => fr p * / v p)) in *. clearbody q.
    assert (H : 0 < hi).
    { destruct (Rlt_le_dec 0 hi) as [|H]; [assumption|exfalso].
      assert (Z : psum n fr <= psum n (fun _ => 0)).
      { apply psum_le. intros p Hp. destruct (Req_dec (fr p) 0) as [->|F]; [lra|]. specialize (V p Hp F). lra. }
      rewrite S in Z. assert (psum n (fun _ => 0) = 0) by (clear; induction n; cbn [psum]; lra). lra. }
    assert (0 < / hi) by now apply Rinv_0_lt_compat.
    split; [rewrite <- (Rinv_inv lo)|rewrite <- (Rinv_inv hi)]; apply Rinv_le_contravar; lra.
  - assert (E : pprod n (fun p => Rpower (v p) (fr p)) = exp (psum n (fun p => fr p * ln (v p)))) by now rewrite exp_psum.
    rewrite E. clear E.
    assert (B : ln lo <= psum n (fun p => fr p * ln (v p)) <= ln hi).
    { apply psum_between; auto. intros p Hp F. specialize (V p Hp F). split; apply ln_le; lra. }
    assert (H : 0 < hi).
    { destruct (Rlt_le_dec 0 hi) as [|H]; [assumption|exfalso].
      assert (Z : psum n fr <= psum n (fun _ => 0)).
      { apply psum_le. intros p Hp. destruct (Req_dec (fr p) 0) as [->|F]; [lra|]. specialize (V p Hp F). lra. }
      rewrite S in Z. assert (psum n (fun _ => 0) = 0) by (clear; induction n; cbn [psum]; lra). lra. }
    split; [rewrite <- (exp_ln lo) at 1 by exact L|rewrite <- (exp_ln hi) by exact H];
      (destruct B as [B1 B2]; match goal with |- exp ?a <= exp ?b => destruct (Rle_lt_or_eq_dec a b ltac:(assumption)) as [Q|Q]; [left; now apply exp_increasing|rewrite Q; lra] end).
Qed.

(** One node, as the rest uses it. *)
Lemma node_value_spec avg nph m air fr ar v : (avg <= 2)%nat -> options_ok nph m -> aniso_node avg nph m air fr ar = Some v ->
  v = if air then 0 else mean_of avg nph fr (factor_of m ar).
Proof.
  intros A O. unfold aniso_node. destruct air; [congruence|]. destruct (Req_EM_T _ 0); [discriminate|].
  intros H. injection H as <-. now apply node_sum.
Qed.

Section Aniso.
  Variables (avg nph nx nz : nat) (per : bool) (m : aniso_mat) (g : phase_fields) (ar_n ar_s : nat -> R) (old : (nat -> R) * (nat -> R)).

  (** Every rock cell receives the chosen mean, with its own fractions and aspect ratio;
      every air cell 0; nothing outside the grid is written. The same for vertices
      (without periodic sides). *)
  Theorem C109_values : forall fn fs, (avg <= 2)%nat -> options_ok nph m ->
    update_aniso_factor avg nph nx nz per m g ar_n ar_s old = Some (fn, fs) ->
    (forall c, (c < (nx - 1) * (nz - 1))%nat ->
       (rock_cell g c -> fn c = mean_of avg nph (fun p => pf_n g p c) (factor_of m (ar_n c))) /\ (~ rock_cell g c -> fn c = 0)) /\
    (forall c, ((nx - 1) * (nz - 1) <= c)%nat -> fn c = fst old c) /\
    (per = false -> forall c, (c < nx * nz)%nat ->
       (rock_vertex g c -> fs c = mean_of avg nph (fun p => pf_s g p c) (factor_of m (ar_s c))) /\ (~ rock_vertex g c -> fs c = 0)).
  Proof.
    intros fn fs A O. unfold update_aniso_factor.
    pose proof (fill_nodes_spec (nx - 1) (nz - 1) (fun c => aniso_node avg nph m (air_cell (pf_bcp g c)) (fun p => pf_n g p c) (ar_n c)) (fst old)) as S1.
    destruct (fill_nodes (nx - 1) (nz - 1) _ (fst old)) as [a|]; [|discriminate].
    pose proof (fill_nodes_spec nx nz (fun c => aniso_node avg nph m (air_vertex (pf_bcg g c)) (fun p => pf_s g p c) (ar_s c)) (snd old)) as S2.
    destruct (fill_nodes nx nz _ (snd old)) as [b|]; [|discriminate].
    intros H. injection H as <- <-. destruct S1 as [S1 S1'], S2 as [S2 _].
    split; [|split].
    - intros c C. specialize (S1 c ltac:(lia)). apply node_value_spec in S1; [|assumption|assumption]. rewrite S1.
      destruct (air_cell_spec (pf_bcp g c)) as [Q|Q]; unfold rock_cell; split; intros R; try reflexivity; tauto.
    - intros c C. apply S1'. lia.
    - intros -> c C. specialize (S2 c ltac:(lia)). apply node_value_spec in S2; [|assumption|assumption]. rewrite S2.
      destruct (air_vertex_spec (pf_bcg g c)) as [Q|Q]; unfold rock_vertex; split; intros R; try reflexivity; tauto.
  Qed.

  (** With fractions that add up to 1 and positive factors between [lo] and [hi], so are
      the factors of all rock cells and vertices (periodic or not, if no vertex at the
      sides is air). *)
  Theorem C109_between : forall fn fs lo hi, (avg <= 2)%nat -> options_ok nph m -> 0 < lo -> (2 <= nx)%nat ->
    (forall c, (c < (nx - 1) * (nz - 1))%nat -> rock_cell g c -> shares nph (fun p => pf_n g p c) /\ forall p, (p < nph)%nat -> lo <= factor_of m (ar_n c) p <= hi) ->
    (forall c, (c < nx * nz)%nat -> rock_vertex g c -> shares nph (fun p => pf_s g p c) /\ forall p, (p < nph)%nat -> lo <= factor_of m (ar_s c) p <= hi) ->
    (forall l, (l < nz)%nat -> rock_vertex g (l * nx) /\ rock_vertex g (l * nx + nx - 1)) ->
    update_aniso_factor avg nph nx nz per m g ar_n ar_s old = Some (fn, fs) ->
    (forall c, (c < (nx - 1) * (nz - 1))%nat -> rock_cell g c -> lo <= fn c <= hi) /\
    (forall c, (c < nx * nz)%nat -> rock_vertex g c -> lo <= fs c <= hi).
  Proof.
    intros fn fs lo hi A O L N2 Hn Hs Sd. unfold update_aniso_factor.
    pose proof (fill_nodes_spec (nx - 1) (nz - 1) (fun c => aniso_node avg nph m (air_cell (pf_bcp g c)) (fun p => pf_n g p c) (ar_n c)) (fst old)) as S1.
    destruct (fill_nodes (nx - 1) (nz - 1) _ (fst old)) as [a|]; [|discriminate].
    pose proof (fill_nodes_spec nx nz (fun c => aniso_node avg nph m (air_vertex (pf_bcg g c)) (fun p => pf_s g p c) (ar_s c)) (snd old)) as S2.
    destruct (fill_nodes nx nz _ (snd old)) as [b|]; [|discriminate].
    intros H. injection H as <- <-. destruct S1 as [S1 _], S2 as [S2 _].
    assert (B : forall c, (c < nx * nz)%nat -> rock_vertex g c -> lo <= b c <= hi).
    { intros c C R. specialize (S2 c ltac:(lia)). apply node_value_spec in S2; [|assumption|assumption]. rewrite S2.
      destruct (air_vertex_spec (pf_bcg g c)) as [Q|Q]; [contradiction|].
      destruct (Hs c C R) as [F V]. apply mean_between; auto. }
    split.
    - intros c C R. specialize (S1 c ltac:(lia)). apply node_value_spec in S1; [|assumption|assumption]. rewrite S1.
      destruct (air_cell_spec (pf_bcp g c)) as [Q|Q]; [destruct R; tauto|].
      destruct (Hn c C R) as [F V]. apply mean_between; auto.
    - destruct per; [|exact B]. intros c C R.
      destruct (periodic_ends_spec nx nz b N2) as (P1 & P2 & _). cbv zeta in *.
      destruct (flat_surj nx nz c C) as (k & l & K & LL & ->).
      destruct (Sd l LL) as [R1 R2]. pose proof (B (l * nx)%nat ltac:(nia) R1). pose proof (B (l * nx + nx - 1)%nat ltac:(nia) R2).
      destruct (Nat.eq_dec k 0) as [->|K0]; [cbn [Nat.add]; destruct (P1 l LL) as [-> _]; lra|].
      destruct (Nat.eq_dec k (nx - 1)) as [->|K1].
      + replace (nx - 1 + l * nx)%nat with (l * nx + nx - 1)%nat by lia. destruct (P1 l LL) as [E ->]. rewrite E. lra.
      + rewrite P2 by lia. apply B; [nia|exact R].
  Qed.

  (** Periodic sides: both ends of every row hold the same factor, the mean of the two. *)
  Theorem C109_periodic_sides : forall fn fs, (2 <= nx)%nat -> (avg <= 2)%nat -> options_ok nph m -> per = true ->
    update_aniso_factor avg nph nx nz per m g ar_n ar_s old = Some (fn, fs) ->
    forall l, (l < nz)%nat -> fs (l * nx)%nat = fs (l * nx + nx - 1)%nat /\
      (rock_vertex g (l * nx) -> rock_vertex g (l * nx + nx - 1) ->
       2 * fs (l * nx)%nat = mean_of avg nph (fun p => pf_s g p (l * nx)%nat) (factor_of m (ar_s (l * nx)%nat)) +
                             mean_of avg nph (fun p => pf_s g p (l * nx + nx - 1)%nat) (factor_of m (ar_s (l * nx + nx - 1)%nat))).
  Proof.
    intros fn fs N2 A O ->. unfold update_aniso_factor.
    destruct (fill_nodes (nx - 1) (nz - 1) _ (fst old)) as [a|]; [|discriminate].
    pose proof (fill_nodes_spec nx nz (fun c => aniso_node avg nph m (air_vertex (pf_bcg g c)) (fun p => pf_s g p c) (ar_s c)) (snd old)) as S2.
    destruct (fill_nodes nx nz _ (snd old)) as [b|]; [|discriminate].
    intros H. injection H as <- <-. destruct S2 as [S2 _]. intros l L.
    destruct (periodic_ends_spec nx nz b N2) as (P1 & _ & _). cbv zeta in *. destruct (P1 l L) as [E1 E2].
    split; [now rewrite E2|]. intros R1 R2. rewrite E1.
    pose proof (S2 (l * nx)%nat ltac:(nia)) as Q1. pose proof (S2 (l * nx + nx - 1)%nat ltac:(nia)) as Q2.
    apply node_value_spec in Q1, Q2; try assumption. rewrite Q1, Q2.
    destruct (air_vertex_spec (pf_bcg g (l * nx))); [contradiction|]. destruct (air_vertex_spec (pf_bcg g (l * nx + nx - 1))); [contradiction|]. lra.
  Qed.

  (** Arithmetic and harmonic means never stop the program on complete fractions and positive factors. *)
  Theorem C109_completes : (avg <= 1)%nat -> options_ok nph m ->
    (forall c, (c < (nx - 1) * (nz - 1))%nat -> rock_cell g c -> shares nph (fun p => pf_n g p c) /\ forall p, (p < nph)%nat -> 0 < factor_of m (ar_n c) p) ->
    (forall c, (c < nx * nz)%nat -> rock_vertex g c -> shares nph (fun p => pf_s g p c) /\ forall p, (p < nph)%nat -> 0 < factor_of m (ar_s c) p) ->
    exists r, update_aniso_factor avg nph nx nz per m g ar_n ar_s old = Some r.
  Proof.
    intros A O Hn Hs.
    assert (P : forall fr ar, shares nph fr -> (forall p, (p < nph)%nat -> 0 < factor_of m ar p) -> aniso_node avg nph m false fr ar <> None).
    { intros fr ar [F S] V. unfold aniso_node. destruct (node_sum avg nph m fr ar ltac:(lia) O) as [E _]. rewrite E.
      destruct (Req_EM_T _ 0) as [Z|]; [exfalso|discriminate].
      assert (G : forall p, (p < nph)%nat -> 0 < tr avg (factor_of m ar p)).
      { intros p Hp. specialize (V p Hp). destruct avg as [|[|]]; cbn [tr]; [exact V|now apply Rinv_0_lt_compat|lia]. }
      clear E V O Hn Hs A. set (w := fun p => tr avg (factor_of m ar p)).
      change (psum nph (fun p => fr p * w p) = 0) in Z. change (forall p, (p < nph)%nat -> 0 < w p) in G. clearbody w.
      assert (Q : forall n, (n <= nph)%nat -> psum n (fun p => fr p * w p) >= 0 /\ (psum n (fun p => fr p * w p) = 0 -> psum n fr = 0)).
      { induction n as [|n IH]; intros Hn; cbn [psum]; [split; [lra|reflexivity]|].
        destruct (IH ltac:(lia)) as [I1 I2]. specialize (F n ltac:(lia)). specialize (G n ltac:(lia)).
        assert (0 <= fr n * w n) by (apply Rmult_le_pos; [exact F|left; exact G]). split; [lra|]. intros E.
        rewrite I2 by lra. assert (X : fr n * w n = 0) by lra. apply Rmult_integral in X. lra. }
      destruct (Q nph (le_n _)) as [_ Q2]. rewrite Q2 in S by exact Z. lra. }
    unfold update_aniso_factor.
    pose proof (fill_nodes_spec (nx - 1) (nz - 1) (fun c => aniso_node avg nph m (air_cell (pf_bcp g c)) (fun p => pf_n g p c) (ar_n c)) (fst old)) as S1.
    destruct (fill_nodes (nx - 1) (nz - 1) _ (fst old)) as [a|].
    2:{ destruct S1 as (c & C & E). destruct (air_cell_spec (pf_bcp g c)) as [Q|Q]; [discriminate|].
        destruct (Hn c ltac:(lia)) as [F V]; [unfold rock_cell; tauto|]. now apply (P (fun p => pf_n g p c) (ar_n c)) in E. }
    pose proof (fill_nodes_spec nx nz (fun c => aniso_node avg nph m (air_vertex (pf_bcg g c)) (fun p => pf_s g p c) (ar_s c)) (snd old)) as S2.
    destruct (fill_nodes nx nz _ (snd old)) as [b|].
    2:{ destruct S2 as (c & C & E). destruct (air_vertex_spec (pf_bcg g c)) as [Q|Q]; [discriminate|].
        destruct (Hs c ltac:(lia)) as [F V]; [exact Q|]. now apply (P (fun p => pf_s g p c) (ar_s c)) in E. }
    eexists. reflexivity.
  Qed.

  (** Refuted: the program stops only in cells without particles. With the geometric mean
      (ani_average = 2) it stops, reporting missing particles, exactly if some rock cell or
      vertex has mean 1, that is if it is isotropic (factor 1 is the default). *)
  Theorem C109_geometric_isotropic_refuted : avg = 2%nat -> options_ok nph m ->
    (update_aniso_factor avg nph nx nz per m g ar_n ar_s old = None <->
     (exists c, (c < (nx - 1) * (nz - 1))%nat /\ rock_cell g c /\ mean_of 2 nph (fun p => pf_n g p c) (factor_of m (ar_n c)) = 1) \/
     (exists c, (c < nx * nz)%nat /\ rock_vertex g c /\ mean_of 2 nph (fun p => pf_s g p c) (factor_of m (ar_s c)) = 1)).
  Proof.
    intros -> O.
    assert (P : forall air fr ar, aniso_node 2 nph m air fr ar = None <-> air = false /\ mean_of 2 nph fr (factor_of m ar) = 1).
    { intros air fr ar. unfold aniso_node. destruct air; [split; [discriminate|intros [X _]; discriminate]|].
      destruct (node_sum 2 nph m fr ar (le_n _) O) as [_ E]. rewrite <- E. cbn [finish].
      destruct (Req_EM_T _ 0) as [Z|Z].
      - rewrite Z, exp_0. tauto.
      - split; [discriminate|]. intros [_ X]. exfalso. apply Z. apply exp_inv. now rewrite X, exp_0. }
    unfold update_aniso_factor.
    pose proof (fill_nodes_spec (nx - 1) (nz - 1) (fun c => aniso_node 2 nph m (air_cell (pf_bcp g c)) (fun p => pf_n g p c) (ar_n c)) (fst old)) as S1.
    destruct (fill_nodes (nx - 1) (nz - 1) _ (fst old)) as [a|].
    2:{ split; [intros _|reflexivity]. left. destruct S1 as (c & C & E). apply P in E. destruct E as [E1 E2].
        exists c. split; [lia|]. split; [|exact E2]. destruct (air_cell_spec (pf_bcp g c)); [discriminate|]. unfold rock_cell. tauto. }
    assert (N1 : forall c, (c < (nx - 1) * (nz - 1))%nat -> rock_cell g c -> mean_of 2 nph (fun p => pf_n g p c) (factor_of m (ar_n c)) <> 1).
    { intros c C R E. destruct S1 as [S1 _]. specialize (S1 c ltac:(lia)).
      assert (X : aniso_node 2 nph m (air_cell (pf_bcp g c)) (fun p => pf_n g p c) (ar_n c) = None).
      { apply P. split; [|exact E]. destruct (air_cell_spec (pf_bcp g c)); [destruct R; tauto|reflexivity]. }
      congruence. }
    pose proof (fill_nodes_spec nx nz (fun c => aniso_node 2 nph m (air_vertex (pf_bcg g c)) (fun p => pf_s g p c) (ar_s c)) (snd old)) as S2.
    destruct (fill_nodes nx nz _ (snd old)) as [b|].
    - split; [discriminate|]. intros [(c & C & R & E)|(c & C & R & E)]; exfalso; [now apply (N1 c)|].
      destruct S2 as [S2 _]. specialize (S2 c ltac:(lia)).
      assert (X : aniso_node 2 nph m (air_vertex (pf_bcg g c)) (fun p => pf_s g p c) (ar_s c) = None).
      { apply P. split; [|exact E]. destruct (air_vertex_spec (pf_bcg g c)); [contradiction|reflexivity]. }
      congruence.
    - split; [intros _|reflexivity]. right. destruct S2 as (c & C & E). apply P in E. destruct E as [E1 E2].
      exists c. split; [lia|]. split; [|exact E2]. now destruct (air_vertex_spec (pf_bcg g c)).
  Qed.
End Aniso.
Print Assumptions C109_values.
Print Assumptions C109_between.
Print Assumptions C109_periodic_sides.
Print Assumptions C109_completes.
Print Assumptions C109_geometric_isotropic_refuted.

(** The factor of a strain-dependent phase follows the aspect ratio up to the maximum. *)
Theorem C109_saturates : forall ar mx, aniso_factor_evolv ar mx <= ar /\ aniso_factor_evolv ar mx <= mx /\
  (ar <= mx -> aniso_factor_evolv ar mx = ar) /\ (mx <= ar -> aniso_factor_evolv ar mx = mx).
Proof.
  intros. unfold aniso_factor_evolv. pose proof (Rmin_l ar mx). pose proof (Rmin_r ar mx).
  repeat split; auto; intros; [now apply Rmin_left|now apply Rmin_right].
Qed.
Print Assumptions C109_saturates.

(** Two phases, half each, one with factor 3, one following aspect ratio 8 up to 6: arithmetic 9/2,
    harmonic 4; one isotropic phase with the geometric mean stops. *)
Definition m2 : aniso_mat := AnisoMat (fun p => if (p =? 0)%nat then 3 else 1) (fun p => if (p =? 0)%nat then 0%Z else 1%Z) (fun _ => 6).
Definition m1 : aniso_mat := AnisoMat (fun _ => 1) (fun _ => 0%Z) (fun _ => 1000).
Definition g2 : phase_fields := PhaseFields (fun p c => / 2) (fun p c => / 2) (fun c => if (c =? 1)%nat then 31%Z else (-1)%Z) (fun c => if (c =? 5)%nat then 30%Z else (-1)%Z).
Example C109_ex :
  aniso_node 0 2 m2 false (fun _ => / 2) 8 = Some (9 / 2) /\ aniso_node 1 2 m2 false (fun _ => / 2) 8 = Some 4 /\
  (exists fn fs, update_aniso_factor 0 2 3 2 true m2 g2 (fun _ => 8) (fun _ => 8) (fun _ => 7, fun _ => 7) = Some (fn, fs) /\
     fn 0%nat = 9 / 2 /\ fn 1%nat = 0 /\ fn 2%nat = 7 /\ fs 1%nat = 9 / 2 /\ fs 3%nat = 9 / 4 /\ fs 5%nat = 9 / 4) /\
  update_aniso_factor 2 2 3 2 false m1 g2 (fun _ => 1) (fun _ => 1) (fun _ => 1, fun _ => 1) = None.
Proof.
  assert (N0 : aniso_node 0 2 m2 false (fun _ => / 2) 8 = Some (9 / 2)).
  { unfold aniso_node. replace (loop 0 2 _ 0) with (9 / 2).
    - destruct (Req_EM_T (9 / 2) 0); [lra|reflexivity].
    - cbn. unfold aniso_factor_evolv. rewrite Rmin_right by lra. lra. }
  split; [exact N0|]. split.
  { unfold aniso_node. replace (loop 0 2 _ 0) with (/ 4).
    - destruct (Req_EM_T (/ 4) 0); [lra|]. cbn [finish]. f_equal. field.
    - cbn. unfold aniso_factor_evolv. rewrite Rmin_right by lra. lra. }
  split.
  - unfold update_aniso_factor, fill_nodes. cbn [loop fold_left seq Nat.sub Nat.add Nat.mul g2 pf_n pf_s pf_bcp pf_bcg fst snd Nat.eqb air_cell air_vertex Z.eqb orb].
    cbv [loop seq]. cbn [fold_left Nat.add Nat.mul Nat.eqb].
    unfold air_cell, air_vertex. cbn [Z.eqb orb]. cbn -[aniso_node upd periodic_ends].
    rewrite !N0. cbn -[aniso_node upd periodic_ends]. eexists _, _. split; [reflexivity|].
    unfold periodic_ends, upd. cbn. lra.
  - apply C109_geometric_isotropic_refuted; [reflexivity|intros p _; left; reflexivity|].
    left. exists 0%nat. split; [lia|]. split; [split; discriminate|]. cbn. unfold factor_of. cbn.
    rewrite !Rpower_mult || idtac. unfold Rpower. rewrite ln_1, Rmult_0_r, exp_0. lra.
Qed.
