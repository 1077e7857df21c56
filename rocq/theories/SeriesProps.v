(** * C88: time series *)
From Coq Require Import ZArith Reals List Bool Lra Lia Permutation.
Import ListNotations.
From Verif Require Import OptionsModel OptionsProofs ItpModel SeriesModel.
Local Open Scope R_scope.

(** ** Specification *)
(** Sum of a list, and the mean of a non-empty one. *)
Definition total (l : list R) : R := fold_right Rplus 0 l.
Definition average (l : list R) : R := total l / INR (length l).
(** All cells (i, j), row by row. *)
Definition cells (m : mesh) : list (Z * Z) :=
  flat_map (fun i => map (fun j => (i, j)) (map Z.of_nat (seq 0 (Z.to_nat (NX m - 1))))) (map Z.of_nat (seq 0 (Z.to_nat (NZ m - 1)))).
Definition rock_cells (m : mesh) (tag : Z -> Z) : list (Z * Z) :=
  filter (fun ij => rockb (tag (snd ij + fst ij * (NX m - 1))%Z)) (cells m).
(** A vertex field seen from a cell: mean of its four corners. *)
Definition of_corners (m : mesh) (g : Z -> R) (ij : Z * Z) : R :=
  average [g (snd ij + fst ij * NX m)%Z; g (snd ij + 1 + fst ij * NX m)%Z; g (snd ij + (fst ij + 1) * NX m)%Z; g (snd ij + 1 + (fst ij + 1) * NX m)%Z].
(** Second invariant of a deviatoric tensor given by its two normal components and the shear component. *)
Definition second_invariant (a b c : R) : R := sqrt ((a * a + b * b) / 2 + c * c).
Definition cell_value (m : mesh) (f : fields) (q : avg) (ij : Z * Z) : R :=
  let c := (snd ij + fst ij * (NX m - 1))%Z in
  match q with
  | aT => fT f c | aP => fP f c | aSxx => fSxx f c | aSzz => fSzz f c | aExx => fExx f c | aEzz => fEzz f c
  | aSxz => of_corners m (fSxz f) ij | aExz => of_corners m (fExz f) ij
  | aTii => second_invariant (fSxx f c) (fSzz f c) (of_corners m (fSxz f) ij)
  | aEii => second_invariant (fExx f c) (fEzz f c) (of_corners m (fExz f) ij)
  end.
(** Any distribution of the cells over threads. *)
Definition shared_out (m : mesh) (threads : list (list Z)) : Prop :=
  Permutation (concat threads) (map Z.of_nat (seq 0 (Z.to_nat ((NX m - 1) * (NZ m - 1))))).

(** ** Lemmas *)
Lemma total_perm : forall a b, Permutation a b -> total a = total b.
Proof. intros a b H. unfold total. induction H; cbn; lra. Qed.
Lemma total_app : forall a b, total (a ++ b) = total a + total b.
Proof. unfold total. induction a as [|x a IH]; intros b; cbn; [ring|]. rewrite IH. ring. Qed.
Lemma total_bounds : forall l lo hi, (forall x, In x l -> lo <= x <= hi) -> INR (length l) * lo <= total l <= INR (length l) * hi.
Proof.
  induction l as [|x l IH]; intros lo hi H; cbn [length total fold_right]; [cbn; lra|]. rewrite S_INR.
  specialize (IH lo hi (fun y Hy => H y (or_intror Hy))). specialize (H x (or_introl eq_refl)). unfold total in IH. lra.
Qed.
Lemma average_bounds : forall l lo hi, l <> [] -> (forall x, In x l -> lo <= x <= hi) -> lo <= average l <= hi.
Proof.
  intros l lo hi N H. pose proof (total_bounds l lo hi H) as B. unfold average.
  assert (P : 0 < INR (length l)) by (apply lt_0_INR; destruct l; [congruence|cbn; lia]).
  split; apply Rmult_le_reg_r with (INR (length l)); try exact P; unfold Rdiv; rewrite Rmult_assoc, Rinv_l by lra; lra.
Qed.

Section Means.
Variables (m : mesh) (tag : Z -> Z) (f : fields).
Hypothesis (HNX : (2 <= NX m)%Z) (HNZ : (2 <= NZ m)%Z).
Definition good (k1 : Z) : bool := rockb (tag (cell_of m k1)).
Lemma thread_sum_eq : forall q ks a, fold_left (fun a k1 => if rockb (tag (cell_of m k1)) then (fst a + adds m f q k1, (snd a + 1)%Z) else a) ks a =
  (fst a + total (map (adds m f q) (filter good ks)), (snd a + Z.of_nat (length (filter good ks)))%Z).
Proof.
  induction ks as [|k ks IH]; intros a; cbn [fold_left filter map]; [destruct a; cbn; f_equal; [ring|lia]|].
  rewrite IH. change (rockb (tag (cell_of m k))) with (good k). destruct (good k); cbn [fst snd length map total fold_right]; [|reflexivity].
  rewrite Nat2Z.inj_succ. f_equal; [unfold total; ring|lia].
Qed.
Lemma reduce_eq : forall q ts a, fold_left (fun a t => (fst a + fst (thread_sum m tag f q t), (snd a + snd (thread_sum m tag f q t))%Z)) ts a =
  (fst a + total (map (adds m f q) (filter good (concat ts))), (snd a + Z.of_nat (length (filter good (concat ts))))%Z).
Proof.
  induction ts as [|t ts IH]; intros a; cbn [fold_left concat]; [destruct a; cbn; f_equal; [ring|lia]|].
  rewrite IH. unfold thread_sum. rewrite thread_sum_eq. cbn [fst snd]. rewrite filter_app, map_app, total_app, app_length.
  f_equal; [ring|lia].
Qed.
Lemma filter_perm : forall (A : Type) (g : A -> bool) a b, Permutation a b -> Permutation (filter g a) (filter g b).
Proof.
  intros A g a b H. induction H; cbn; [constructor| | |eapply perm_trans; eassumption].
  - destruct (g x); [now constructor|assumption].
  - destruct (g x), (g y); try apply perm_swap; apply Permutation_refl.
Qed.
(** numbering of the cells *)
Definition number (ij : Z * Z) : Z := (snd ij + fst ij * (NX m - 1))%Z.
Lemma seq_block : forall n k s, seq s (k * n) = flat_map (fun i => seq (s + i * n) n) (seq 0 k).
Proof.
  induction k as [|k IH]; intros s; [reflexivity|]. rewrite seq_S, flat_map_app. cbn [flat_map]. rewrite app_nil_r.
  replace (S k * n)%nat with (k * n + n)%nat by lia. rewrite seq_app, IH. f_equal.
Qed.
Lemma flat_map_map : forall (A B C : Type) (g : A -> B) (h : B -> list C) l, flat_map h (map g l) = flat_map (fun x => h (g x)) l.
Proof. induction l as [|x l IH]; [reflexivity|]. cbn. now rewrite IH. Qed.
Lemma map_flat_map : forall (A B C : Type) (g : B -> C) (h : A -> list B) l, map g (flat_map h l) = flat_map (fun x => map g (h x)) l.
Proof. induction l as [|x l IH]; [reflexivity|]. cbn. now rewrite map_app, IH. Qed.
Lemma flat_map_ext_in : forall (A B : Type) (g h : A -> list B) l, (forall x, In x l -> g x = h x) -> flat_map g l = flat_map h l.
Proof. induction l as [|x l IH]; intros H; [reflexivity|]. cbn. rewrite (H x (or_introl eq_refl)), IH; [reflexivity|]. intros y Hy. apply H. now right. Qed.
Lemma cells_numbered : map number (cells m) = map Z.of_nat (seq 0 (Z.to_nat ((NX m - 1) * (NZ m - 1)))).
Proof.
  assert (E : Z.to_nat ((NX m - 1) * (NZ m - 1)) = (Z.to_nat (NZ m - 1) * Z.to_nat (NX m - 1))%nat) by (rewrite Z2Nat.inj_mul; lia).
  rewrite E, seq_block. unfold cells. rewrite flat_map_map, !map_flat_map. apply flat_map_ext_in. intros i _.
  rewrite !map_map. unfold number. cbn [fst snd]. cbn [Nat.add]. set (n := Z.to_nat (NX m - 1)).
  assert (EN : (NX m - 1 = Z.of_nat n)%Z) by (unfold n; lia). rewrite EN. clearbody n.
  assert (G : forall c s, map (fun x => (Z.of_nat x + Z.of_nat i * Z.of_nat n)%Z) (seq s c) = map Z.of_nat (seq (i * n + s) c)).
  { induction c as [|c IH]; intros s; [reflexivity|]. cbn [seq map]. rewrite IH. f_equal; [lia|]. f_equal. f_equal. lia. }
  rewrite G. f_equal. f_equal. lia.
Qed.
Lemma in_cells : forall ij, In ij (cells m) <-> (0 <= fst ij < NZ m - 1)%Z /\ (0 <= snd ij < NX m - 1)%Z.
Proof.
  intros [i j]. unfold cells. rewrite in_flat_map. cbn [fst snd]. split.
  - intros (i' & Hi & Hj). apply in_map_iff in Hi. destruct Hi as (a & <- & Ha). apply in_map_iff in Hj. destruct Hj as (b & E & Hb).
    apply in_map_iff in Hb. destruct Hb as (c & <- & Hc). injection E as <- <-. apply in_seq in Ha. apply in_seq in Hc. lia.
  - intros [Hi Hj]. exists i. split.
    + apply in_map_iff. exists (Z.to_nat i). split; [lia|]. apply in_seq. lia.
    + apply in_map_iff. exists j. split; [reflexivity|]. apply in_map_iff. exists (Z.to_nat j). split; [lia|]. apply in_seq. lia.
Qed.
Lemma kp_number : forall ij, In ij (cells m) -> kp m (number ij) = snd ij /\ lp m (number ij) = fst ij.
Proof.
  intros ij H. apply in_cells in H. unfold kp, lp, number. split.
  - rewrite Z.mod_add by lia. apply Z.mod_small. lia.
  - rewrite Z.div_add by lia. rewrite Z.div_small by lia. lia.
Qed.
Lemma cell_number : forall ij, In ij (cells m) -> cell_of m (number ij) = number ij.
Proof. intros ij H. unfold cell_of. destruct (kp_number ij H) as [-> ->]. reflexivity. Qed.
Lemma four_number : forall g ij, In ij (cells m) -> four m g (number ij) = of_corners m g ij.
Proof.
  intros g ij H. unfold four. destruct (kp_number ij H) as [-> ->]. unfold of_corners, average, total. cbn [fold_right length]. rewrite !S_INR. cbn [INR].
  replace (snd ij + 1 + fst ij * NX m)%Z with (snd ij + fst ij * NX m + 1)%Z by ring.
  replace (snd ij + 1 + (fst ij + 1) * NX m)%Z with (snd ij + (fst ij + 1) * NX m + 1)%Z by ring. field.
Qed.
Lemma adds_number : forall q ij, In ij (cells m) -> adds m f q (number ij) = cell_value m f q ij.
Proof.
  intros q ij H. unfold adds, cell_value. cbv zeta. rewrite (cell_number ij H), !(four_number _ ij H). fold (number ij).
  destruct q; try reflexivity; unfold second_invariant; f_equal; field.
Qed.
Lemma filter_number : filter good (map number (cells m)) = map number (rock_cells m tag).
Proof.
  unfold rock_cells. assert (G : forall l, incl l (cells m) -> filter good (map number l) = map number (filter (fun ij => rockb (tag (snd ij + fst ij * (NX m - 1))%Z)) l)).
  { induction l as [|x l IH]; intros Hi; [reflexivity|]. cbn [map filter]. rewrite IH by (intros y Hy; apply Hi; now right).
    unfold good at 1. rewrite cell_number by (apply Hi; now left). fold (number x). destruct (rockb (tag (number x))); reflexivity. }
  apply G. apply incl_refl.
Qed.
Lemma mean_eq : forall q ts, shared_out m ts ->
  mean m tag f q ts = match rock_cells m tag with [] => None | _ => Some (average (map (cell_value m f q) (rock_cells m tag))) end.
Proof.
  intros q ts H. unfold mean. rewrite reduce_eq. cbn [fst snd].
  assert (P : Permutation (filter good (concat ts)) (map number (rock_cells m tag))).
  { rewrite <- filter_number, cells_numbered. apply filter_perm, H. }
  assert (ET : total (map (adds m f q) (filter good (concat ts))) = total (map (cell_value m f q) (rock_cells m tag))).
  { rewrite (total_perm _ _ (Permutation_map (adds m f q) P)), map_map. f_equal. apply map_ext_in. intros ij Hij.
    apply adds_number. apply filter_In in Hij. tauto. }
  assert (EL : length (filter good (concat ts)) = length (rock_cells m tag)) by (rewrite (Permutation_length P); apply map_length).
  rewrite ET, EL. unfold average. rewrite map_length. destruct (rock_cells m tag) as [|x l]; [reflexivity|].
  destruct (Z.eqb_spec (0 + Z.of_nat (length (x :: l))) 0) as [E|E]; [cbn [length] in E; lia|].
  rewrite INR_IZR_INZ. rewrite Rplus_0_l, Z.add_0_l. reflexivity.
Qed.
End Means.

(** ** C88 *)
(** Each logged mean is the arithmetic mean over the rock cells, whatever the threads did. *)
Theorem C88_means : forall m tag f q threads, (2 <= NX m)%Z -> (2 <= NZ m)%Z -> shared_out m threads -> rock_cells m tag <> [] ->
  mean m tag f q threads = Some (average (map (cell_value m f q) (rock_cells m tag))).
Proof. intros m tag f q ts H1 H2 H3 H4. rewrite (mean_eq m tag f H1 H2 q ts H3). destruct (rock_cells m tag); [congruence|reflexivity]. Qed.
Print Assumptions C88_means.

(** So it lies between the extreme values in the rock, and the mean invariant is at least the size of the mean shear component. *)
Theorem C88_mean_range : forall m tag f q threads lo hi, (2 <= NX m)%Z -> (2 <= NZ m)%Z -> shared_out m threads -> rock_cells m tag <> [] ->
  (forall ij, In ij (rock_cells m tag) -> lo <= cell_value m f q ij <= hi) ->
  exists v, mean m tag f q threads = Some v /\ lo <= v <= hi.
Proof.
  intros m tag f q ts lo hi H1 H2 H3 H4 H5. eexists. split; [apply C88_means; assumption|].
  apply average_bounds; [intros E; apply map_eq_nil in E; contradiction|].
  intros x Hx. apply in_map_iff in Hx. destruct Hx as (ij & <- & Hij). now apply H5.
Qed.
Print Assumptions C88_mean_range.

Lemma total_le : forall (A : Type) (g h : A -> R) l, (forall x, In x l -> g x <= h x) -> total (map g l) <= total (map h l).
Proof.
  induction l as [|x l IH]; intros H; cbn [map total fold_right]; [lra|]. specialize (IH (fun y Hy => H y (or_intror Hy))).
  specialize (H x (or_introl eq_refl)). unfold total in IH. lra.
Qed.
Lemma average_le : forall (A : Type) (g h : A -> R) l, l <> [] -> (forall x, In x l -> g x <= h x) -> average (map g l) <= average (map h l).
Proof.
  intros A g h l N H. unfold average. rewrite !map_length. apply Rmult_le_compat_r; [|now apply total_le].
  left. apply Rinv_0_lt_compat. apply lt_0_INR. destruct l; [congruence|cbn; lia].
Qed.
Lemma average_opp : forall (A : Type) (g : A -> R) l, average (map (fun x => - g x) l) = - average (map g l).
Proof.
  intros A g l. unfold average. rewrite !map_length. assert (E : total (map (fun x => - g x) l) = - total (map g l)).
  { induction l as [|x l IH]; cbn; [ring|]. unfold total in IH. rewrite IH. ring. }
  rewrite E. unfold Rdiv. ring.
Qed.
Theorem C88_invariant_dominates : forall m tag f threads, (2 <= NX m)%Z -> (2 <= NZ m)%Z -> shared_out m threads -> rock_cells m tag <> [] ->
  exists t s e g, mean m tag f aTii threads = Some t /\ mean m tag f aSxz threads = Some s /\
    mean m tag f aEii threads = Some e /\ mean m tag f aExz threads = Some g /\ Rabs s <= t /\ Rabs g <= e.
Proof.
  intros m tag f ts H1 H2 H3 H4. do 4 eexists. repeat (split; [apply C88_means; assumption|]).
  assert (K : forall a b c, Rabs c <= second_invariant a b c).
  { intros a b c. unfold second_invariant. rewrite <- sqrt_Rsqr_abs. apply sqrt_le_1_alt. unfold Rsqr.
    pose proof (Rle_0_sqr a) as A. pose proof (Rle_0_sqr b) as B. unfold Rsqr in A, B. lra. }
  split; apply Rabs_le; (split; [rewrite <- average_opp|]); apply average_le; try assumption; intros ij _; cbn [cell_value];
    match goal with |- context [second_invariant ?a ?b ?c] => pose proof (K a b c) as KK; pose proof (Rle_abs c); pose proof (Rle_abs (- c)) as KM; rewrite Rabs_Ropp in KM end; lra.
Qed.
Print Assumptions C88_invariant_dominates.

Definition exm : mesh := Mesh 3 3 0 0 1 1.
Definition extag (k : Z) : Z := if (k =? 3)%Z then 30%Z else (-1)%Z.
Example C88_means_ex : shared_out exm [[2; 0]; []; [3; 1]]%Z /\ rock_cells exm extag = [(0, 0); (0, 1); (1, 0)]%Z.
Proof.
  split; [|reflexivity]. unfold shared_out. cbn [concat app]. change (map Z.of_nat (seq 0 (Z.to_nat ((NX exm - 1) * (NZ exm - 1))))) with [0; 1; 2; 3]%Z.
  apply NoDup_Permutation; [repeat constructor; cbn; intuition lia|repeat constructor; cbn; intuition lia|]. intros x. cbn. intuition lia.
Qed.
(** With no rock cell left the series gets NaN. *)
Theorem C88_no_rock_refuted : forall m tag f q threads, (2 <= NX m)%Z -> (2 <= NZ m)%Z -> shared_out m threads ->
  (forall k, (0 <= k < (NX m - 1) * (NZ m - 1))%Z -> tag k = 30%Z) -> mean m tag f q threads = None.
Proof.
  intros m tag f q ts H1 H2 H3 H4. rewrite (mean_eq m tag f H1 H2 q ts H3). destruct (rock_cells m tag) as [|[i j] l] eqn:E; [reflexivity|]. exfalso.
  assert (I0 : In (i, j) (rock_cells m tag)) by (rewrite E; now left). unfold rock_cells in I0. apply filter_In in I0. destruct I0 as [I1 I2].
  apply in_cells in I1; [|assumption|assumption]. cbn [fst snd] in *. rewrite H4 in I2 by nia. discriminate.
Qed.
Print Assumptions C88_no_rock_refuted.

(** *** The run *)
Definition upto (n : nat) (is : list step_in) (g : step_in -> R) : R := total (map g (firstn n is)).
(** Width of the box after n steps. *)
Definition width_after (xmin xmax : R) (n : nat) (is : list step_in) : R :=
  match n with O => xmax - xmin | S k => i_xmax (nth k is (StepIn 0 0 (fun _ => 0) xmin xmax)) - i_xmin (nth k is (StepIn 0 0 (fun _ => 0) xmin xmax)) end.

Definition logged (s : scale) (xmin xmax : R) (mean0 : avg -> R) (is : list step_in) (n : nat) (r : row) : Prop :=
  r_Time r = upto n is i_dt * s_t s /\
  r_Uth r = upto n is i_heat * s_S s * s_L s * s_L s /\
  (forall q, r_avg r q = match n with O => mean0 q | S k => i_mean (nth k is (StepIn 0 0 (fun _ => 0) 0 0)) q end * avg_unit s q) /\
  r_Short r = ((xmax - xmin) - width_after xmin xmax (Nat.pred n) is) / (xmax - xmin) * 100 /\
  r_Work r = 0 /\ r_Uel r = 0.

Lemma upto_snoc : forall is i n g, (n <= length is)%nat -> upto n (is ++ [i]) g = upto n is g.
Proof. intros is i n g H. unfold upto. rewrite firstn_app. replace (n - length is)%nat with 0%nat by lia. cbn [firstn]. now rewrite app_nil_r. Qed.
Lemma upto_all : forall is i g, upto (S (length is)) (is ++ [i]) g = upto (length is) is g + g i.
Proof.
  intros is i g. unfold upto. rewrite !firstn_all2 by (rewrite ?app_length; cbn; lia). rewrite map_app, total_app. cbn. ring.
Qed.
Lemma whole_inv : forall s xmin xmax mean0 is,
  let u := whole s xmin xmax mean0 is in
  u_step u = length is /\ u_time u = upto (length is) is i_dt /\ u_Uth u = upto (length is) is i_heat /\ u_Uel u = 0 /\ u_Work u = 0 /\
  u_xmax u - u_xmin u = width_after xmin xmax (length is) is /\
  (forall n, (n <= length is)%nat -> exists r, u_rows u n = Some r /\ logged s xmin xmax mean0 is n r) /\
  (forall n, (length is < n)%nat -> u_rows u n = None).
Proof.
  intros s xmin xmax mean0 is. induction is as [|i is IH] using rev_ind.
  - cbv zeta. unfold whole, first, log. cbn [fold_left u_step u_time u_Uth u_Uel u_Work u_xmin u_xmax u_rows length]. unfold upto. cbn [firstn map total fold_right].
    repeat (split; [reflexivity|]). split.
    + intros n Hn. assert (n = 0%nat) by lia. subst. cbn [Nat.eqb]. eexists. split; [reflexivity|].
      unfold logged, log_row, upto. cbn. repeat split; try ring.
    + intros n Hn. destruct n; [lia|]. reflexivity.
  - cbv zeta in *. unfold whole in *. rewrite fold_left_app. cbn [fold_left].
    set (u := fold_left (one_step s (xmax - xmin)) is (first s xmin xmax mean0)) in *.
    destruct IH as (E1 & E2 & E3 & E4 & E5 & E6 & E7 & E8).
    unfold one_step, log. cbn [u_step u_time u_Uth u_Uel u_Work u_xmin u_xmax u_rows].
    rewrite !app_length. cbn [length]. replace (length is + 1)%nat with (S (length is)) by lia. rewrite !upto_all.
    rewrite E1, E2, E3, E4, E5. unfold elastic_gain, work_gain.
    split; [reflexivity|]. split; [reflexivity|]. split; [reflexivity|]. split; [ring|]. split; [ring|]. split.
    { unfold width_after. rewrite !app_nth2, Nat.sub_diag by lia. reflexivity. }
    split.
    + intros n Hn. destruct (Nat.eqb_spec n (S (length is))) as [->|Ne].
      * eexists. split; [reflexivity|]. unfold logged, log_row. cbn [r_Time r_Uth r_Uel r_Work r_Short r_avg Nat.pred].
        rewrite !upto_all. split; [reflexivity|]. split; [reflexivity|]. split.
        { intros q. rewrite app_nth2, Nat.sub_diag by lia. reflexivity. }
        split; [|split; ring].
        rewrite E6. f_equal. f_equal. f_equal. unfold width_after. destruct (length is) as [|k] eqn:EL; [reflexivity|]. rewrite !app_nth1 by lia. reflexivity.
      * destruct (E7 n ltac:(lia)) as (r & R1 & R2). exists r. split; [exact R1|].
        destruct R2 as (L1 & L2 & L3 & L4 & L5 & L6). unfold logged. rewrite !upto_snoc by lia. split; [exact L1|]. split; [exact L2|]. split.
        { intros q. rewrite L3. destruct n as [|k]; [reflexivity|]. rewrite app_nth1 by lia. reflexivity. }
        split; [|split; assumption]. rewrite L4. f_equal. f_equal. f_equal. unfold width_after. destruct n as [|[|k]]; cbn [Nat.pred]; try reflexivity. rewrite !app_nth1 by lia. reflexivity.
    + intros n Hn. destruct (Nat.eqb_spec n (S (length is))) as [E|E]; [lia|]. apply E8. lia.
Qed.

(** One entry per step, in SI units, never overwritten later; entries of steps not
    yet done are empty. The time and the heat are sums over the steps so far. *)
Theorem C88_one_entry_per_step : forall s xmin xmax mean0 is n, 0 < xmax - xmin ->
  ((n <= length is)%nat -> exists r, u_rows (whole s xmin xmax mean0 is) n = Some r /\
    r_Time r = upto n is i_dt * s_t s /\ r_Uth r = upto n is i_heat * s_S s * s_L s * s_L s /\
    (forall q, r_avg r q = match n with O => mean0 q | S k => i_mean (nth k is (StepIn 0 0 (fun _ => 0) 0 0)) q end * avg_unit s q)) /\
  ((length is < n)%nat -> u_rows (whole s xmin xmax mean0 is) n = None) /\
  (forall Nt, (length is <= Nt)%nat -> u_rows (whole s xmin xmax mean0 is) n <> None -> (n < Nt + 1)%nat).
Proof.
  intros s xmin xmax mean0 is n _. destruct (whole_inv s xmin xmax mean0 is) as (_ & _ & _ & _ & _ & _ & A & B). split; [|split].
  - intros H. destruct (A n H) as (r & R1 & L1 & L2 & L3 & _). exists r. split; [exact R1|]. split; [exact L1|]. split; [exact L2|exact L3].
  - intros H. now apply B.
  - intros Nt HN H. destruct (le_lt_dec n (length is)) as [L|L]; [lia|]. exfalso. apply H. now apply B.
Qed.
Print Assumptions C88_one_entry_per_step.

Theorem C88_units : forall eta L V T q, 0 < eta -> 0 < L -> 0 < V -> 0 < T ->
  let s := ScaleMe eta L V T in let u := coherent_unit (mass_unit eta L V) L (L / V) T in
  avg_unit s q = u (match q with aT => mkdim 0 0 0 1 | aP | aSxx | aSzz | aSxz | aTii => mkdim 1 (-1) (-2) 0 | _ => mkdim 0 0 (-1) 0 end) /\
  s_t s = u (mkdim 0 0 1 0) /\ s_S s * s_L s * s_L s = u (mkdim 1 1 (-2) 0).
Proof.
  intros eta L V T q He HL HV HT. cbv zeta. unfold coherent_unit, mass_unit, ScaleMe, avg_unit.
  repeat split; try destruct q; cbn [d_kg d_m d_s d_K s_eta s_L s_V s_T s_t s_a s_E s_S s_m s_rho s_F s_J s_W s_Cp s_k s_rhoE];
    rewrite ?pz0, ?pz1, ?pz2, ?pzm1, ?pzm2; field; repeat split; lra.
Qed.
Print Assumptions C88_units.
Example C88_units_ex : 0 < 1e20 /\ 0 < 1e4. Proof. lra. Qed.

(** The thermal energy series follows the heat stored in the rock (constant density and capacity). *)
Lemma heat_fold : forall cs (air : Z -> bool) rho Cp T T' a, fold_left (fun a c => if air c then a else a + rho c * Cp c * (T' c - T c)) cs a =
  a + total (map (fun c => rho c * Cp c * T' c) (filter (fun c => negb (air c)) cs)) - total (map (fun c => rho c * Cp c * T c) (filter (fun c => negb (air c)) cs)).
Proof.
  induction cs as [|c cs IH]; intros air rho Cp T T' a; cbn [fold_left filter map]; [cbn; ring|]. rewrite IH.
  destruct (air c); cbn [negb map total fold_right]; [reflexivity|]. unfold total. ring.
Qed.
Definition heat_content (dx dz : R) (cs : list Z) (air : Z -> bool) (rho Cp T : Z -> R) : R :=
  total (map (fun c => rho c * Cp c * T c) (filter (fun c => negb (air c)) cs)) * (dx * dz).
Theorem C88_heat : forall dx dz cs (air : Z -> bool) rho Cp (T : nat -> Z -> R) n,
  total (map (fun k => heat_gain dx dz cs air rho Cp (T k) (T (S k))) (seq 0 n)) =
  heat_content dx dz cs air rho Cp (T n) - heat_content dx dz cs air rho Cp (T 0%nat).
Proof.
  intros dx dz cs air rho Cp T n. induction n as [|n IH]; [cbn; unfold Rminus; ring|].
  rewrite seq_S, map_app, total_app, IH. cbn [map total fold_right Nat.add]. unfold heat_gain. rewrite heat_fold. unfold heat_content. ring.
Qed.
Print Assumptions C88_heat.
Example C88_heat_ex : heat_content 1 1 [0; 1]%Z (fun c => (c =? 1)%Z) (fun _ => 2) (fun _ => 3) (fun _ => 5) = 30.
Proof. unfold heat_content. cbn. ring. Qed.

(** Two of the series stay zero whatever happens: nothing is ever added to them. *)
Theorem C88_work_refuted : forall s xmin xmax mean0 is n r, u_rows (whole s xmin xmax mean0 is) n = Some r -> r_Work r = 0 /\ r_Uel r = 0.
Proof.
  intros s xmin xmax mean0 is n r H. destruct (whole_inv s xmin xmax mean0 is) as (_ & _ & _ & _ & _ & _ & A & B).
  destruct (le_lt_dec n (length is)) as [L|L]; [|rewrite (B n L) in H; discriminate].
  destruct (A n L) as (r' & R1 & R2). rewrite H in R1. injection R1 as <-. unfold logged in R2. tauto.
Qed.
Print Assumptions C88_work_refuted.

(** The shortening of entry n is that of the box before step n, while its time is the
    one after step n: the shortening lags by one step. *)
Theorem C88_shortening_lags : forall s xmin xmax mean0 is n, 0 < xmax - xmin -> (n <= length is)%nat ->
  exists r, u_rows (whole s xmin xmax mean0 is) n = Some r /\
  r_Short r = 100 * (1 - width_after xmin xmax (Nat.pred n) is / (xmax - xmin)) /\ r_Time r = upto n is i_dt * s_t s.
Proof.
  intros s xmin xmax mean0 is n HW H. destruct (whole_inv s xmin xmax mean0 is) as (_ & _ & _ & _ & _ & _ & A & _).
  destruct (A n H) as (r & R1 & L1 & _ & _ & L4 & _). exists r. split; [exact R1|]. split; [|exact L1]. rewrite L4. field. lra.
Qed.
Print Assumptions C88_shortening_lags.
Theorem C88_shortening_refuted : exists s xmin xmax mean0 is n r, 0 < xmax - xmin /\ u_rows (whole s xmin xmax mean0 is) n = Some r /\
  r_Short r <> 100 * (1 - width_after xmin xmax n is / (xmax - xmin)).
Proof.
  exists (ScaleMe 1 1 1 1), 0, 1, (fun _ => 0), [StepIn 1 0 (fun _ => 0) 0 (/ 2)], 1%nat.
  destruct (C88_shortening_lags (ScaleMe 1 1 1 1) 0 1 (fun _ => 0) [StepIn 1 0 (fun _ => 0) 0 (/ 2)] 1 ltac:(lra) ltac:(cbn; lia)) as (r & R1 & R2 & _).
  exists r. split; [lra|]. split; [exact R1|]. rewrite R2. unfold width_after. cbn [Nat.pred nth i_xmin i_xmax]. lra.
Qed.
Print Assumptions C88_shortening_refuted.
