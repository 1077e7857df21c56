(** C40-C42: shapes, phases, default file name. *)
From Coq Require Import Reals ZArith List Bool Ascii Lia Lra Psatz.
Import ListNotations.
From Verif Require Import SetupModel.
Local Open Scope R_scope.

Lemma Rltb_spec : forall a b, reflect (a < b) (Rltb a b).
Proof. intros. unfold Rltb. destruct (Rlt_dec a b); constructor; assumption. Qed.
Lemma Rleb_spec : forall a b, reflect (a <= b) (Rleb a b).
Proof. intros. unfold Rleb. destruct (Rle_dec a b); constructor; assumption. Qed.

(** ** C40 *)
(** Specification: rotation of the plane by [th] (anticlockwise), and a shape
    [inside] placed with its centre at [c] and turned by [th]. *)
Definition rot (th : R) (p : R * R) : R * R := (fst p * cos th - snd p * sin th, fst p * sin th + snd p * cos th).
Definition in_ellipse (a b : R) (p : R * R) : Prop := (fst p / a) ^ 2 + (snd p / b) ^ 2 < 1.
Definition in_box (w h : R) (p : R * R) : Prop := - w / 2 <= fst p <= w / 2 /\ - h / 2 <= snd p <= h / 2.
Definition placed (inside : R * R -> Prop) (c : R * R) (th : R) (p : R * R) : Prop :=
  exists q, inside q /\ p = (fst c + fst (rot th q), snd c + snd (rot th q)).

Lemma cs1 : forall t, cos t * cos t = 1 - sin t * sin t.
Proof. intros. pose proof (sin2_cos2 t). unfold Rsqr in H. lra. Qed.

(** The test accepts the ellipse with full axes radiusX and radiusZ, turned clockwise
    by the angle; its centre is the requested one turned clockwise by twice the angle. *)
Theorem C40_ellipse_accepted_set : forall x z cx cz rX rZ angle L, L <> 0 -> rX <> 0 -> rZ <> 0 ->
  let th := angle * PI / 180 in
  is_ellipse x z cx cz rX rZ angle L = true <->
  placed (in_ellipse (rX / L / 2) (rZ / L / 2)) (rot (- th) (rot (- th) (cx / L, cz / L))) (- th) (x, z).
Proof.
  intros x z cx cz rX rZ angle L HL HX HZ th. unfold is_ellipse. fold th.
  set (X := cx / L). set (Z := cz / L). clearbody X Z.
  replace (rX / 2 / L) with (rX / L / 2) by (field; lra). replace (rZ / 2 / L) with (rZ / L / 2) by (field; lra).
  set (a := rX / L / 2). set (b := rZ / L / 2). clearbody a b.
  pose proof (cs1 th) as CS. unfold placed, in_ellipse, rot. cbn [fst snd]. rewrite cos_neg, sin_neg.
  set (c := cos th) in *. set (s := sin th) in *. clearbody c s.
  set (u := (x - X) * c - (z + Z) * s). set (w := (x + X) * s + (z - Z) * c).
  destruct (Rltb_spec ((u / a) ^ 2 + (w / b) ^ 2 - 1) 0) as [H|H].
  - split; [intros _|reflexivity]. exists (u, w). cbn [fst snd]. split; [lra|].
    unfold u, w. f_equal; ring [CS].
  - split; [discriminate|]. intros ((q1 & q2) & H' & E). cbn [fst snd] in *. exfalso. apply H. injection E as -> ->.
    replace u with q1; [replace w with q2; [lra|]|]; unfold u, w; ring [CS].
Qed.
Print Assumptions C40_ellipse_accepted_set.

Theorem C40_rectangle_accepted_set : forall x z cx cz sX sZ angle L, L <> 0 ->
  is_rectangle x z cx cz sX sZ angle L = true <->
  placed (in_box (sX / L) (sZ / L)) (rot (- angle) (cx / L, cz / L)) (- angle) (x, z).
Proof.
  intros x z cx cz sX sZ angle L HL. unfold is_rectangle.
  replace (sX / 2 / L) with (sX / L / 2) by (field; lra). replace (sZ / 2 / L) with (sZ / L / 2) by (field; lra).
  set (X := cx / L). set (Z := cz / L). set (a := sX / L). set (b := sZ / L). clearbody X Z a b.
  pose proof (cs1 angle) as CS. unfold placed, in_box, rot. cbn [fst snd]. rewrite cos_neg, sin_neg.
  set (c := cos angle) in *. set (s := sin angle) in *. clearbody c s.
  assert (B : (Rleb (X - a / 2) (x * c - z * s) && Rleb (x * c - z * s) (X + a / 2) &&
               Rleb (Z - b / 2) (x * s + z * c) && Rleb (x * s + z * c) (Z + b / 2) = true) <->
              (X - a / 2 <= x * c - z * s <= X + a / 2 /\ Z - b / 2 <= x * s + z * c <= Z + b / 2)).
  { destruct (Rleb_spec (X - a / 2) (x * c - z * s)), (Rleb_spec (x * c - z * s) (X + a / 2)),
      (Rleb_spec (Z - b / 2) (x * s + z * c)), (Rleb_spec (x * s + z * c) (Z + b / 2)); cbn [andb]; split; intros; try discriminate; tauto. }
  rewrite B. split.
  - intros [H1 H2]. exists (x * c - z * s - X, x * s + z * c - Z). cbn [fst snd]. split; [lra|]. f_equal; ring [CS].
  - intros ((q1 & q2) & H' & E). cbn [fst snd] in *. injection E as -> ->.
    match goal with |- X - _ <= ?e <= _ /\ _ <= ?f <= _ => replace e with (X + q1) by ring [CS]; replace f with (Z + q2) by ring [CS] end. lra.
Qed.
Print Assumptions C40_rectangle_accepted_set.

(** Without rotation, or about the origin, the shapes are where they were asked for. *)
Theorem C40_shapes_unrotated_or_centred : forall x z cx cz rX rZ angle L, L <> 0 -> rX <> 0 -> rZ <> 0 ->
  (angle = 0 \/ (cx = 0 /\ cz = 0)) ->
  let c := (cx / L, cz / L) in
  (is_ellipse x z cx cz rX rZ angle L = true <-> placed (in_ellipse (rX / L / 2) (rZ / L / 2)) c (- (angle * PI / 180)) (x, z)) /\
  (is_rectangle x z cx cz rX rZ angle L = true <-> placed (in_box (rX / L) (rZ / L)) c (- angle) (x, z)).
Proof.
  intros x z cx cz rX rZ angle L HL HX HZ C c.
  rewrite C40_ellipse_accepted_set, C40_rectangle_accepted_set by assumption.
  assert (R0 : forall p, rot 0 p = p) by (intros [p q]; unfold rot; cbn [fst snd]; rewrite cos_0, sin_0; f_equal; lra).
  assert (RO : forall t, rot t (0 / L, 0 / L) = (0 / L, 0 / L)) by (intros; unfold rot; cbn [fst snd]; f_equal; unfold Rdiv; ring).
  unfold c. destruct C as [->|[-> ->]].
  - replace (- (0 * PI / 180)) with 0 by lra. replace (- 0) with 0 by lra. rewrite !R0. tauto.
  - rewrite !RO. tauto.
Qed.
Print Assumptions C40_shapes_unrotated_or_centred.

(** The requested centre of a shape turned by a quarter turn is not in the shape. *)
Theorem C40_rotated_shape_misplaced_refuted : exists cx cz rX rZ L,
  0 < rX /\ 0 < rZ /\ 0 < L /\
  is_ellipse (cx / L) (cz / L) cx cz rX rZ 90 L = false /\
  is_rectangle (cx / L) (cz / L) cx cz rX rZ (PI / 2) L = false.
Proof.
  exists 10, 0, 2, 2, 1. split; [lra|]. split; [lra|]. split; [lra|].
  unfold is_ellipse, is_rectangle. replace (90 * PI / 180) with (PI / 2) by lra. rewrite cos_PI2, sin_PI2. split.
  - match goal with |- Rltb ?a 0 = false => destruct (Rltb_spec a 0) as [H|H]; [|reflexivity] end. exfalso. revert H. apply Rle_not_lt.
    match goal with |- 0 <= ?u ^ 2 + ?w ^ 2 - 1 => replace w with 20 by field; pose proof (pow2_ge_0 u); lra end.
  - destruct (Rleb_spec (10 / 1 - 2 / 2 / 1) (10 / 1 * 0 - 0 / 1 * 1)) as [H|H]; [lra|reflexivity].
Qed.
Print Assumptions C40_rotated_shape_misplaced_refuted.

Example C40_ex : is_ellipse (1 / 2) 0 0 0 4 2 0 1 = true /\ is_rectangle 3 3 6 6 2 2 0 2 = true /\ is_rectangle 5 3 6 6 2 2 0 2 = false.
Proof.
  unfold is_ellipse, is_rectangle. replace (0 * PI / 180) with 0 by lra. rewrite cos_0, sin_0. split; [|split].
  - match goal with |- Rltb ?a 0 = true => destruct (Rltb_spec a 0) as [H|H]; [reflexivity|] end. exfalso. apply H.
    match goal with |- ?u ^ 2 + ?w ^ 2 - 1 < 0 => replace u with (1 / 4) by field; replace w with 0 by field end. lra.
  - repeat match goal with |- context [Rleb ?a ?b] => destruct (Rleb_spec a b); [|lra] end. reflexivity.
  - destruct (Rleb_spec (5 * 1 - 3 * 0) (6 / 2 + 2 / 2 / 2)); [lra|]. now rewrite andb_false_r.
Qed.

(** ** C41 *)
Theorem C41_defined_phases_accepted : forall nb phase cb, (0 <= phase < nb)%Z -> (nb <= 20)%Z ->
  set_marker_phase nb phase cb = Accepted phase.
Proof.
  intros nb phase cb H1 H2. unfold set_marker_phase, phase_stops. change table_size with 20%Z.
  destruct (Z.leb_spec 0 phase), (Z.ltb_spec phase 20), (Z.ltb_spec nb phase); try lia; destruct cb; reflexivity.
Qed.
Print Assumptions C41_defined_phases_accepted.

(** Exactly which phases get through. *)
Theorem C41_accepted_phases : forall nb phase cb,
  set_marker_phase nb phase cb = Accepted phase <->
  (phase <= nb)%Z /\ (cb = true \/ (0 <= phase < 20)%Z).
Proof.
  intros nb phase cb. unfold set_marker_phase, phase_stops. change table_size with 20%Z.
  destruct (Z.leb_spec 0 phase), (Z.ltb_spec phase 20), (Z.ltb_spec nb phase); destruct cb; cbn [negb andb];
  (split; [intros X; try discriminate X; split; try lia; intuition lia|intros (A & B); try reflexivity; exfalso; intuition (lia || congruence)]).
Qed.
Print Assumptions C41_accepted_phases.

(** Phases that are not defined but are used as an index without the program being
    stopped: the first undefined one, negative ones, and - read before the check -
    arbitrarily large ones. *)
Theorem C41_undefined_phase_used_refuted : exists nb, (0 < nb <= 20)%Z /\
  set_marker_phase nb nb true = Accepted nb /\
  (exists ph, (ph < 0)%Z /\ set_marker_phase nb ph true = Accepted ph) /\
  (exists ph, (nb < ph)%Z /\ set_marker_phase nb ph false = OutOfBounds ph) /\
  (exists ph, (ph < 0)%Z /\ set_marker_phase nb ph false = OutOfBounds ph).
Proof.
  exists 3%Z. split; [lia|]. split; [reflexivity|]. repeat split.
  - exists (-5)%Z. split; [lia|reflexivity].
  - exists 100%Z. split; [lia|reflexivity].
  - exists (-5)%Z. split; [lia|reflexivity].
Qed.
Print Assumptions C41_undefined_phase_used_refuted.

Theorem C41_too_large_stops : forall nb phase, (nb < phase < 20)%Z -> (0 <= nb)%Z ->
  set_marker_phase nb phase false = Stopped /\ set_marker_phase nb phase true = Stopped.
Proof.
  intros nb phase H H0. unfold set_marker_phase, phase_stops. change table_size with 20%Z.
  destruct (Z.leb_spec 0 phase), (Z.ltb_spec phase 20), (Z.ltb_spec nb phase); try lia; auto.
Qed.
Print Assumptions C41_too_large_stops.

Example C41_ex : set_marker_phase 4 2 false = Accepted 2 /\ set_marker_phase 4 7 false = Stopped.
Proof. auto. Qed.

(** ** C42 *)
Lemma scan_skip : forall r acc, forallb (fun c => negb (slash c)) r = true -> forallb (fun c => negb (Ascii.eqb c ".")) r = true ->
  forall r', scan (r ++ r') false false acc = scan r' false false acc.
Proof.
  induction r as [|c r IH]; intros acc S D r'; [reflexivity|]. cbn in S, D. apply andb_true_iff in S, D. destruct S as [S1 S2], D as [D1 D2].
  cbn [app scan]. apply negb_true_iff in S1, D1. rewrite S1, D1. cbn [orb andb]. now apply IH.
Qed.
Lemma scan_take : forall r acc, forallb (fun c => negb (slash c)) r = true ->
  forall r', scan (r ++ r') true false acc = scan r' true false (rev r ++ acc).
Proof.
  induction r as [|c r IH]; intros acc S r'; [reflexivity|]. cbn in S. apply andb_true_iff in S. destruct S as [S1 S2].
  cbn [app scan]. apply negb_true_iff in S1. rewrite S1. cbn [orb andb negb]. rewrite IH by exact S2. cbn [rev]. now rewrite <- app_assoc.
Qed.
Lemma scan_fin : forall r start acc, scan r start true acc = acc.
Proof. induction r as [|c r IH]; intros; [reflexivity|]. cbn [scan]. cbn [orb]. rewrite andb_false_r. apply IH. Qed.
Lemma forallb_rev : forall A (f : A -> bool) l, forallb f (rev l) = forallb f l.
Proof. intros. induction l as [|x l IH]; [reflexivity|]. cbn. rewrite forallb_app, IH. cbn. rewrite andb_true_r. apply andb_comm. Qed.

(** The name is the part between the last separator and the last dot. *)
Theorem C42_stem : forall dir base ext sep,
  slash sep = true -> forallb (fun c => negb (slash c)) base = true ->
  forallb (fun c => negb (slash c)) ext = true -> forallb (fun c => negb (Ascii.eqb c ".")) ext = true ->
  stem (dir ++ [sep] ++ base ++ ["."%char] ++ ext) = base /\ stem (base ++ ["."%char] ++ ext) = base.
Proof.
  intros dir base ext sep HS HB HE HD. unfold stem.
  assert (G : forall r', scan (rev ext ++ ["."%char] ++ rev base ++ r') false false [] = scan r' true false base).
  { intros r'. rewrite scan_skip by (rewrite forallb_rev; assumption). cbn [app scan].
    change (slash ".") with false. change (Ascii.eqb "." ".") with true. cbn [orb andb].
    rewrite scan_take by (rewrite forallb_rev; assumption). now rewrite rev_involutive, app_nil_r. }
  split.
  - replace (rev (dir ++ [sep] ++ base ++ ["."%char] ++ ext)) with (rev ext ++ ["."%char] ++ rev base ++ [sep] ++ rev dir).
    + rewrite G. cbn [app scan]. rewrite HS. cbn [orb]. rewrite andb_false_r. apply scan_fin.
    + rewrite !rev_app_distr. cbn [rev app]. now rewrite <- !app_assoc.
  - replace (rev (base ++ ["."%char] ++ ext)) with (rev ext ++ ["."%char] ++ rev base ++ []).
    + now rewrite G.
    + rewrite !rev_app_distr. cbn [rev app]. now rewrite app_nil_r, <- !app_assoc.
Qed.
Print Assumptions C42_stem.

Lemma in_scan : forall r start fin acc c, In c (scan r start fin acc) -> In c r \/ In c acc.
Proof.
  induction r as [|x r IH]; intros start fin acc c H; [now right|]. cbn [scan] in H. apply IH in H.
  destruct H as [H|H]; [left; now right|]. destruct (_ && _) in H; [destruct H as [<-|H]; [left; now left|now right]|now right].
Qed.
Lemma strlen_ge : forall base r i, ~ In zero base -> (i + length base <= strlen_from i (base ++ r))%nat.
Proof.
  induction base as [|c b IH]; intros r i N.
  - cbn. revert i. induction r as [|x r IHr]; intros i; cbn; [lia|]. destruct (Ascii.eqb x zero); [lia|]. specialize (IHr (S i)). lia.
  - cbn. destruct (Ascii.eqb_spec c zero) as [->|]; [exfalso; apply N; now left|].
    specialize (IH r (S i)). assert (~ In zero b) by (intros X; apply N; now right). specialize (IH H). lia.
Qed.

(** For every file name: the terminator is looked for beyond the allocation, and all
    five bytes of the suffix are written beyond it. *)
Theorem C42_buffer_overrun_refuted : forall name beyond_, ~ In zero name ->
  let '(size, acc, _) := default_filename name beyond_ in
  In (Read size) acc /\
  exists e, (size <= e)%nat /\ forall i, (i < 5)%nat -> In (Write (e + i)) acc.
Proof.
  intros name beyond_ N. unfold default_filename. set (base := stem name).
  assert (NB : ~ In zero base) by (intros H; apply in_scan in H; destruct H as [H|[]]; apply N; now apply in_rev).
  pose proof (strlen_ge base beyond_ 0 NB) as G. set (e := strlen_from 0 (base ++ beyond_)) in *. cbn in G. split.
  - rewrite !in_app_iff. right. left. apply in_map. apply in_seq. lia.
  - exists e. split; [exact G|]. intros i Hi. rewrite !in_app_iff. right. right. apply in_map_iff. exists i. split; [reflexivity|]. apply in_seq. lia.
Qed.
Print Assumptions C42_buffer_overrun_refuted.

(** Exactly which bytes are touched: the copy fills the allocation, the terminator is
    looked for up to the first zero byte at [e], the suffix is written from there. *)
Theorem C42_bytes_touched : forall name beyond_, ~ In zero name ->
  let '(size, acc, _) := default_filename name beyond_ in
  size = length (stem name) /\ exists e, (size <= e)%nat /\ (forall i, (i < e)%nat -> nth i (stem name ++ beyond_) zero <> zero) /\ nth e (stem name ++ beyond_) zero = zero /\ (forall i, In (Write i) acc <-> (i < size \/ e <= i < e + 5)%nat) /\ (forall i, In (Read i) acc <-> (i <= e)%nat).
Proof.
  intros name beyond_ N. unfold default_filename. set (base := stem name).
  assert (NB : ~ In zero base) by (intros H; apply in_scan in H; destruct H as [H|[]]; apply N; now apply in_rev).
  pose proof (strlen_ge base beyond_ 0 NB) as G. split; [reflexivity|]. exists (strlen_from 0 (base ++ beyond_)). split; [exact G|].
  assert (S : forall l i, (i <= strlen_from i l)%nat /\ (forall j, (j < strlen_from i l - i)%nat -> nth j l zero <> zero) /\ nth (strlen_from i l - i) l zero = zero).
  { induction l as [|c l IH]; intros i; cbn [strlen_from].
    - split; [lia|]. split; [intros; lia|]. now destruct (i - i)%nat.
    - destruct (Ascii.eqb_spec c zero) as [->|Nc].
      + rewrite Nat.sub_diag. split; [lia|]. split; [intros; lia|reflexivity].
      + destruct (IH (S i)) as (a & b & d). split; [lia|]. replace (strlen_from (S i) l - i)%nat with (S (strlen_from (S i) l - S i)) by lia. split.
        * intros [|j] Hj; cbn [nth]; [exact Nc|]. apply b. lia.
        * exact d. }
  destruct (S (base ++ beyond_) 0%nat) as (_ & b & d). rewrite Nat.sub_0_r in b, d. split; [exact b|]. split; [exact d|].
  set (e := strlen_from 0 (base ++ beyond_)) in *. set (n := length base) in *.
  assert (M : forall (f : nat -> access) l x, In x (map f l) <-> exists i, f i = x /\ In i l) by (intros; apply in_map_iff).
  split; intros i; rewrite !in_app_iff, !M; setoid_rewrite in_seq; split.
  - intros [(k & E & K)|[(k & E & K)|(k & E & K)]]; inversion E; lia.
  - intros [H|H]; [left; exists (n - 1 - i)%nat; split; [f_equal; lia|lia]|right; right; exists (i - e)%nat; split; [f_equal; lia|lia]].
  - intros [(k & E & K)|[(k & E & K)|(k & E & K)]]; inversion E; lia.
  - intros H. right; left. exists i. split; [reflexivity|lia].
Qed.
Print Assumptions C42_bytes_touched.

(** If the allocation is followed by a zero byte the name is right all the same. *)
Theorem C42_name_when_followed_by_zero : forall name r, ~ In zero name ->
  snd (default_filename name (zero :: r)) = stem name ++ ["."; "t"; "x"; "t"; zero]%char.
Proof.
  intros name r N. unfold default_filename. cbn [snd]. set (base := stem name).
  assert (NB : ~ In zero base) by (intros H; apply in_scan in H; destruct H as [H|[]]; apply N; now apply in_rev).
  assert (E : forall b i, ~ In zero b -> strlen_from i (b ++ zero :: r) = (i + length b)%nat).
  { induction b as [|c b IH]; intros i Nb.
    - cbn. lia.
    - cbn. destruct (Ascii.eqb_spec c zero) as [->|]; [exfalso; apply Nb; now left|]. rewrite IH; [lia|]. intros X; apply Nb; now right. }
  rewrite E by exact NB. cbn [Nat.add]. rewrite firstn_app, Nat.sub_diag. cbn [firstn]. rewrite firstn_all. now rewrite app_nil_r.
Qed.
Print Assumptions C42_name_when_followed_by_zero.

Example C42_ex : stem ["S"; "/"; "R"; "i"; "."; "c"]%char = ["R"; "i"]%char /\
  fst (fst (default_filename ["R"; "i"; "."; "c"]%char [zero])) = 2%nat.
Proof. auto. Qed.
