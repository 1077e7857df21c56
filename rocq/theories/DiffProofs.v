(** * Diffusion solve: numbering, compressed rows, symmetry, flux form *)
From Coq Require Import Reals ZArith List Bool Arith Lra Lia FinFun.
From Verif Require Import GridModel RheoModel DiffModel.
Import ListNotations.
Local Open Scope R_scope.

(** ** Sums over lists *)
Definition lsum {A} (f : A -> R) (l : list A) : R := fold_right (fun c a => f c + a) 0 l.
Lemma lsum_cons : forall A (f : A -> R) c l, lsum f (c :: l) = f c + lsum f l.
Proof. reflexivity. Qed.
Lemma lsum_nil : forall A (f : A -> R), lsum f [] = 0.
Proof. reflexivity. Qed.
Lemma lsum_ext : forall A (f h : A -> R) l, (forall c, In c l -> f c = h c) -> lsum f l = lsum h l.
Proof. intros A f h. induction l as [|c l IH]; intros H; [reflexivity|]. rewrite !lsum_cons. rewrite (H c (or_introl eq_refl)), IH; [reflexivity|]. intros; apply H; now right. Qed.
Lemma lsum_plus : forall A (f h : A -> R) l, lsum (fun c => f c + h c) l = lsum f l + lsum h l.
Proof. induction l as [|c l IH]; [rewrite ?lsum_nil; ring|]. rewrite ?lsum_cons, IH. ring. Qed.
Lemma lsum_scal : forall A (f : A -> R) a l, lsum (fun c => a * f c) l = a * lsum f l.
Proof. induction l as [|c l IH]; [rewrite ?lsum_nil; ring|]. rewrite ?lsum_cons, IH. ring. Qed.
Lemma lsum_0 : forall A (f : A -> R) l, (forall c, In c l -> f c = 0) -> lsum f l = 0.
Proof. intros A f. induction l as [|c l IH]; intros H; [reflexivity|]. rewrite !lsum_cons. rewrite (H c (or_introl eq_refl)), IH; [ring|]. intros; apply H; now right. Qed.
Lemma lsum_map : forall A B (f : B -> R) (p : A -> B) l, lsum f (map p l) = lsum (fun c => f (p c)) l.
Proof. induction l as [|c l IH]; [reflexivity|]. cbn [map]. now rewrite !lsum_cons, IH. Qed.
Lemma lsum_swap : forall A B (f : A -> B -> R) l l', lsum (fun c => lsum (f c) l') l = lsum (fun d => lsum (fun c => f c d) l) l'.
Proof.
  intros A B f l l'. induction l as [|c l IH].
  - symmetry. apply lsum_0. reflexivity.
  - rewrite lsum_cons, IH, <- lsum_plus. reflexivity.
Qed.
Lemma lsum_nonneg : forall A (f : A -> R) l, (forall c, In c l -> 0 <= f c) -> 0 <= lsum f l.
Proof. intros A f. induction l as [|c l IH]; intros H; [rewrite lsum_nil; lra|rewrite lsum_cons]. pose proof (H c (or_introl eq_refl)). specialize (IH ltac:(intros; apply H; now right)). lra. Qed.
Lemma lsum_pos : forall A (f : A -> R) l c, (forall c, In c l -> 0 <= f c) -> In c l -> 0 < f c -> 0 < lsum f l.
Proof.
  intros A f. induction l as [|d l IH]; intros c H Hc Hp; [destruct Hc|]; rewrite lsum_cons; destruct Hc as [->|Hc].
  - pose proof (lsum_nonneg A f l ltac:(intros; apply H; now right)). lra.
  - pose proof (H d (or_introl eq_refl)). specialize (IH c ltac:(intros; apply H; now right) Hc Hp). lra.
Qed.
Lemma sumn_lsum : forall n f, sumn n f = lsum f (seq 0 n).
Proof. reflexivity. Qed.

(** Picking one element out of a list without repetition. *)
Lemma lsum_pick : forall A (eqb : A -> bool) (f : A -> R) l c, (forall a, In a l -> eqb a = true <-> c = a) -> NoDup l -> In c l ->
  lsum (fun a => if eqb a then f a else 0) l = f c.
Proof.
  intros A eqb f. induction l as [|d l IH]; intros c He Hn Hc; [destruct Hc|]. inversion Hn as [|? ? H1 H2]. rewrite lsum_cons.
  destruct Hc as [<-|Hc].
  - rewrite (proj2 (He d (or_introl eq_refl)) eq_refl). rewrite lsum_0; [ring|].
    intros a Ha. destruct (eqb a) eqn:E; [|reflexivity]. apply (He a (or_intror Ha)) in E. subst; contradiction.
  - destruct (eqb d) eqn:E; [apply (He d (or_introl eq_refl)) in E; subst; contradiction|].
    rewrite (IH c); [ring| |assumption|assumption]. intros a Ha. apply He. now right.
Qed.

Lemma nodup_app2 : forall A (a b : list A), NoDup a -> NoDup b -> (forall x, In x a -> ~ In x b) -> NoDup (a ++ b).
Proof.
  induction a as [|x a IH]; intros b Ha Hb H; [exact Hb|]. inversion Ha as [|? ? A1 A2]. cbn. constructor.
  - rewrite in_app_iff. intros [Hi|Hi]; [contradiction|]. exact (H x (or_introl eq_refl) Hi).
  - apply IH; [assumption..|]. intros y Hy. apply H. now right.
Qed.
(** ** Cells *)
Section Cells.
  Variable g : dgrid.
  Notation ncx := (g_ncx g).
  Notation ncz := (g_ncz g).
  Notation cellp c := (cell g (fst c) (snd c)).
  Notation fluidp c := (fluid g (fst c) (snd c)).
  Notation rowp c := (row g (fst c) (snd c)).

  Lemma in_cells : forall k l, In (k, l) (cells g) <-> (k < ncx /\ l < ncz)%nat.
  Proof.
    intros k l. unfold cells. rewrite in_flat_map. split.
    - intros [x [Hx H]]. apply in_map_iff in H. destruct H as [y [E Hy]]. injection E as -> ->. apply in_seq in Hx, Hy.  lia.
    - intros [H1 H2]. exists l. split; [apply in_seq; lia|]. apply in_map_iff. exists k. split; [reflexivity|]. apply in_seq. lia.
  Qed.
  Lemma nodup_cells : NoDup (cells g).
  Proof.
    unfold cells. generalize 0%nat at 2. generalize ncz. intros n. induction n as [|n IH]; intros s; cbn; [constructor|].
    apply nodup_app2.
    - apply Injective_map_NoDup; [|apply seq_NoDup]. intros a b E. now injection E.
    - apply IH.
    - intros [k l] H1 H2. apply in_map_iff in H1. destruct H1 as [k' [E _]]. injection E as <- <-.
      apply in_flat_map in H2. destruct H2 as [l' [Hl H2]]. apply in_map_iff in H2. destruct H2 as [k'' [E _]]. injection E as _ <-.
      apply in_seq in Hl. lia.
  Qed.
  Lemma cell_inj : forall c c', In c (cells g) -> In c' (cells g) -> cellp c = cellp c' -> c = c'.
  Proof.
    intros [k l] [k' l'] H H' E. apply in_cells in H, H'. unfold cell in E. cbn [fst snd] in E.
    assert (l = l') by nia. subst. f_equal. nia.
  Qed.

  (** fluid cells in order, and their numbers *)
  Definition fl : list (nat * nat) := filter (fun c => fluidp c) (cells g).
  Definition pos (c : nat * nat) : nat := Z.to_nat (eqn_t g (cellp c)).
  Lemma in_fl : forall k l, In (k, l) fl <-> (k < ncx /\ l < ncz)%nat /\ fluid g k l = true.
  Proof. intros. unfold fl. rewrite filter_In, in_cells. cbn [fst snd]. tauto. Qed.
  Lemma fl_cells : forall c, In c fl -> In c (cells g).
  Proof. intros c H. unfold fl in H. apply filter_In in H. tauto. Qed.
  Lemma nodup_fl : NoDup fl.
  Proof. apply NoDup_filter, nodup_cells. Qed.

  Definition nstep (s : (nat -> Z) * nat) (c : nat * nat) : (nat -> Z) * nat :=
    let '(k, l) := c in
    let e := upd (fst s) (cell g k l) (-1)%Z in
    if fluid g k l then (upd e (cell g k l) (Z.of_nat (snd s)), S (snd s)) else (e, snd s).
  Lemma nstep_snd : forall s c, snd (nstep s c) = if fluidp c then S (snd s) else snd s.
  Proof. intros s [k l]. unfold nstep. cbn [fst snd]. destruct (fluid g k l); reflexivity. Qed.
  Lemma nstep_fst : forall s c j, fst (nstep s c) j = if Nat.eqb j (cellp c) then (if fluidp c then Z.of_nat (snd s) else (-1)%Z) else fst s j.
  Proof. intros s [k l] j. unfold nstep. cbn [fst snd]. destruct (fluid g k l); cbn [fst]; unfold upd; destruct (Nat.eqb j (cell g k l)); reflexivity. Qed.
  Lemma number_fold : forall L s, NoDup L -> (forall c c', In c L -> In c' L -> cellp c = cellp c' -> c = c') ->
    let r := fold_left nstep L s in
    let f := filter (fun c => fluidp c) L in
    snd r = (snd s + length f)%nat /\ map (fun c => fst r (cellp c)) f = map Z.of_nat (seq (snd s) (length f)) /\
    (forall c, In c L -> fluidp c = false -> fst r (cellp c) = (-1)%Z) /\
    (forall j, (forall c, In c L -> cellp c <> j) -> fst r j = fst s j).
  Proof.
    induction L as [|c L IH]; intros s Hn Hi; cbn zeta; [cbn; repeat split; auto; lia || easy|].
    inversion Hn as [|? ? N1 N2]. cbn [fold_left]. specialize (IH (nstep s c) N2 ltac:(intros; apply Hi; (now right) || assumption)).
    cbn zeta in IH. destruct IH as (I1 & I2 & I3 & I4). set (r := fold_left nstep L (nstep s c)) in *.
    assert (Hc : fst r (cellp c) = if fluidp c then Z.of_nat (snd s) else (-1)%Z).
    { rewrite I4; [rewrite nstep_fst, Nat.eqb_refl; reflexivity|]. intros d Hd E. apply Hi in E; [subst; contradiction|now right|now left]. }
    rewrite nstep_snd in I1, I2. cbn [filter]. destruct (fluidp c) eqn:Fc.
    - repeat split.
      + rewrite I1. cbn [length]. lia.
      + cbn [map length seq]. rewrite Hc, I2. reflexivity.
      + intros d [<-|Hd] Hf; [congruence|now apply I3].
      + intros j Hj. rewrite I4 by (intros; apply Hj; now right). rewrite nstep_fst.
        destruct (Nat.eqb j (cellp c)) eqn:E; [apply Nat.eqb_eq in E; exfalso; apply (Hj c); [now left|congruence]|reflexivity].
    - repeat split.
      + exact I1.
      + exact I2.
      + intros d [<-|Hd] Hf; [exact Hc|now apply I3].
      + intros j Hj. rewrite I4 by (intros; apply Hj; now right). rewrite nstep_fst.
        destruct (Nat.eqb j (cellp c)) eqn:E; [apply Nat.eqb_eq in E; exfalso; apply (Hj c); [now left|congruence]|reflexivity].
  Qed.
  Lemma number_facts : neq g = length fl /\ map (fun c => eqn_t g (cellp c)) fl = map Z.of_nat (seq 0 (neq g)) /\
    (forall k l, (k < ncx)%nat -> (l < ncz)%nat -> fluid g k l = false -> eqn_t g (cell g k l) = (-1)%Z).
  Proof.
    pose proof (number_fold (cells g) (fun _ => 0%Z, 0%nat) nodup_cells (fun c c' => cell_inj c c')) as H. cbn zeta in H.
    destruct H as (H1 & H2 & H3 & _). unfold neq, eqn_t, number_cells. change (fold_left _ (cells g) _) with (fold_left nstep (cells g) (fun _ => 0%Z, 0%nat)).
    fold fl in *. cbn [snd] in H1, H2. split; [exact H1|]. split; [rewrite H2, H1; reflexivity|].
    intros k l Hk Hl Hf. apply (H3 (k, l)); [now apply in_cells|exact Hf].
  Qed.
  Lemma pos_seq : map pos fl = seq 0 (neq g).
  Proof.
    destruct number_facts as (_ & H & _). unfold pos. rewrite <- (map_map (fun c => eqn_t g (cellp c)) Z.to_nat), H, map_map.
    rewrite <- (map_id (seq 0 (neq g))) at 2. apply map_ext. intros. apply Nat2Z.id.
  Qed.
  Lemma eqn_pos : forall c, In c fl -> eqn_t g (cellp c) = Z.of_nat (pos c) /\ (pos c < neq g)%nat.
  Proof.
    intros c Hc. destruct number_facts as (_ & H & _).
    assert (Hi : In (eqn_t g (cellp c)) (map Z.of_nat (seq 0 (neq g)))) by (rewrite <- H; apply (in_map (fun c => eqn_t g (cellp c)) fl c Hc)).
    apply in_map_iff in Hi. destruct Hi as [i [E Hi]]. apply in_seq in Hi. unfold pos. rewrite <- E, Nat2Z.id. split; [reflexivity|lia].
  Qed.
  Lemma pos_inj : forall c c', In c fl -> In c' fl -> pos c = pos c' -> c = c'.
  Proof.
    assert (N : NoDup (map pos fl)) by (rewrite pos_seq; apply seq_NoDup).
    revert N. generalize fl. intros L. induction L as [|d L IH]; intros N c c' H H' E; [destruct H|].
    inversion N as [|? ? N1 N2]. destruct H as [->|H], H' as [->|H']; try reflexivity.
    - exfalso. apply N1. rewrite E. now apply in_map.
    - exfalso. apply N1. rewrite <- E. now apply in_map.
    - now apply IH.
  Qed.
  Lemma eqn_eqb : forall c c', In c fl -> In c' fl -> (eqn_t g (cellp c) =? eqn_t g (cellp c'))%Z = true <-> c = c'.
  Proof.
    intros c c' H H'. rewrite Z.eqb_eq. destruct (eqn_pos c H) as [-> _], (eqn_pos c' H') as [-> _]. split; [|now intros ->].
    intros E. apply pos_inj; [assumption..|lia].
  Qed.
  Lemma pos_surj : forall i, (i < neq g)%nat -> exists c, In c fl /\ pos c = i.
  Proof.
    intros i Hi. assert (In i (map pos fl)) by (rewrite pos_seq; apply in_seq; lia). apply in_map_iff in H. destruct H as [c [E H]]. eauto.
  Qed.

  (** ** Compressed rows *)
  Definition astep (s : list (Z * R) * (nat -> nat)) (c : nat * nat) : list (Z * R) * (nat -> nat) :=
    let '(k, l) := c in
    if fluid g k l then (fst s ++ row g k l, upd (snd s) (Z.to_nat (eqn_t g (cell g k l))) (length (fst s))) else s.
  Lemma asm_filter : forall L s, fold_left astep L s = fold_left astep (filter (fun c => fluidp c) L) s.
  Proof.
    induction L as [|[k l] L IH]; intros s; [reflexivity|]. cbn [fold_left filter fst snd]. unfold astep at 2.
    destruct (fluid g k l) eqn:F; cbn [fold_left]; [unfold astep at 3; rewrite F; apply IH|apply IH].
  Qed.
  Lemma asm_fold : forall L s n, (forall c, In c L -> fluidp c = true) -> map pos L = seq n (length L) ->
    let r := fold_left astep L s in
    fst r = fst s ++ concat (map (fun c => rowp c) L) /\
    (forall i, (i < length L)%nat -> snd r (n + i)%nat = (length (fst s) + length (concat (map (fun c => rowp c) (firstn i L))))%nat).
  Proof.
    induction L as [|[k l] L IH]; intros s n Hf Hp; cbn zeta; [cbn; split; [now rewrite app_nil_r|lia]|].
    cbn [map length seq] in Hp. injection Hp as P1 P2. cbn [fold_left].
    assert (F : fluid g k l = true) by (apply (Hf (k, l)); now left).
    assert (E : astep s (k, l) = (fst s ++ row g k l, upd (snd s) n (length (fst s)))) by (unfold astep; rewrite F; unfold pos in P1; cbn [fst snd] in P1; rewrite P1; reflexivity).
    rewrite E. destruct (IH (fst s ++ row g k l, upd (snd s) n (length (fst s))) (S n) ltac:(intros; apply Hf; now right) P2) as [I1 I2].
    cbn [fst snd] in I1, I2. split; [rewrite I1; cbn [map concat fst snd]; now rewrite app_assoc|].
    intros i Hi. destruct i as [|i].
    - cbn [firstn map concat length]. rewrite Nat.add_0_r.
      assert (K : forall L' s' m, (forall c, In c L' -> (m < pos c)%nat) -> (forall c, In c L' -> fluidp c = true) -> snd (fold_left astep L' s') m = snd s' m).
      { clear. induction L' as [|[k l] L' IH]; intros s' m H Hf; [reflexivity|]. cbn [fold_left]. rewrite IH by (intros; (apply H || apply Hf); now right).
        unfold astep. assert (F : fluid g k l = true) by (apply (Hf (k, l)); now left). rewrite F. cbn [snd]. unfold upd.
        destruct (Nat.eqb_spec m (Z.to_nat (eqn_t g (cell g k l)))) as [->|_]; [|reflexivity].
        specialize (H (k, l) (or_introl eq_refl)). unfold pos in H. cbn [fst snd] in H. lia. }
      rewrite K; [cbn [snd]; unfold upd; rewrite Nat.eqb_refl; lia| |intros; apply Hf; now right].
      intros c Hc. assert (In (pos c) (seq (S n) (length L))) by (rewrite <- P2; now apply in_map). apply in_seq in H. lia.
    - cbn [length] in Hi. specialize (I2 i ltac:(lia)). replace (n + S i)%nat with (S n + i)%nat by lia. rewrite I2.
      cbn [firstn map concat fst snd]. rewrite !app_length. lia.
  Qed.
  Lemma asm_facts : fst (assemble g) = concat (map (fun c => rowp c) fl) /\
    (forall i, (i <= neq g)%nat -> snd (assemble g) i = length (concat (map (fun c => rowp c) (firstn i fl)))).
  Proof.
    unfold assemble. change (fold_left _ (cells g) ([], fun _ => 0%nat)) with (fold_left astep (cells g) ([], fun _ : nat => 0%nat)).
    rewrite asm_filter. fold fl. destruct number_facts as (HN & _ & _).
    destruct (asm_fold fl ([], fun _ => 0%nat) 0 ltac:(intros [k l] H; apply in_fl in H; apply H) ltac:(rewrite pos_seq, HN; reflexivity)) as [H1 H2].
    set (r := fold_left astep fl ([], fun _ => 0%nat)) in *. cbn [fst snd app length] in *. rewrite H1. split; [reflexivity|].
    intros i Hi. unfold upd. destruct (Nat.eqb_spec i (neq g)) as [->|Hne].
    - rewrite HN, firstn_all. reflexivity.
    - specialize (H2 i ltac:(lia)). cbn [plus] in H2. rewrite H2. reflexivity.
  Qed.
  Lemma csr_is_row : forall c, In c fl -> csr_row g (pos c) = rowp c.
  Proof.
    intros c Hc. destruct asm_facts as [H1 H2]. unfold csr_row. destruct (assemble g) as [J Ic]. cbn [fst snd] in *.
    destruct (eqn_pos c Hc) as [_ Hp]. rewrite !H2 by lia. destruct number_facts as (HN & _ & _).
    assert (Hnth : nth_error fl (pos c) = Some c).
    { apply In_nth_error in Hc. destruct Hc as [n Hn]. assert (nth_error (map pos fl) n = Some (pos c)) by now apply map_nth_error.
      rewrite pos_seq in H. assert (n < neq g)%nat by (rewrite HN; apply nth_error_Some; congruence).
      rewrite nth_error_nth' with (d := 0%nat) in H by (rewrite seq_length; lia). rewrite seq_nth in H by lia. injection H as H. cbn in H. now subst n. }
    rewrite H1. destruct (nth_error_split fl (pos c) Hnth) as (l1 & l2 & E & L).
    rewrite E, <- L.
    assert (F1 : firstn (length l1) (l1 ++ c :: l2) = l1) by (rewrite firstn_app, firstn_all, Nat.sub_diag; cbn [firstn]; apply app_nil_r).
    assert (F2 : firstn (S (length l1)) (l1 ++ c :: l2) = l1 ++ [c]) by (rewrite firstn_app, (firstn_all2 l1) by lia; replace (S (length l1) - length l1)%nat with 1%nat by lia; reflexivity).
    rewrite F1, F2. rewrite !map_app, !concat_app, !app_length. cbn [map concat]. rewrite app_nil_r.
    replace (length (concat (map (fun c0 => rowp c0) l1)) + length (rowp c) - length (concat (map (fun c0 => rowp c0) l1)))%nat with (length (rowp c)) by lia.
    rewrite skipn_app, skipn_all, Nat.sub_diag. cbn [skipn app]. rewrite firstn_app, firstn_all, Nat.sub_diag. cbn [firstn]. now rewrite app_nil_r.
  Qed.
  Lemma row_le5 : forall k l, (length (row g k l) <= 5)%nat.
  Proof.
    intros k l. unfold row, opt, east. rewrite !app_length.
    assert (Hd : length [(eqn_t g (cell g k l), diag g k l)] = 1%nat) by reflexivity. rewrite Hd.
    destruct (Nat.eqb k 0), (Nat.eqb k (g_ncx g - 1)), (negb (Nat.eqb l 0) && negb (is30 (tS g k l))), (tE g k l =? -2)%Z eqn:E1, (tW g k l =? -2)%Z eqn:E2,
      (is30 (tW g k l)), (is30 (tE g k l)), (negb (north g l) && negb (is30 (tN g k l))); cbn; lia.
  Qed.
End Cells.

(** ** Right-hand side and extraction *)
Section Fields.
  Variable g : dgrid.
  Notation ncx := (g_ncx g).
  Notation ncz := (g_ncz g).
  Notation cellp c := (cell g (fst c) (snd c)).
  Notation fluidp c := (fluid g (fst c) (snd c)).
  Lemma rhs_at : forall src T c, In c (fl g) -> rhs_vec g src T (pos g c) = rhs0 g src T (fst c) (snd c) + bbc g (fst c) (snd c).
  Proof.
    intros src T c Hc. unfold rhs_vec.
    assert (K : forall L b, (forall d, In d L -> In d (cells g)) -> NoDup L ->
      fold_left (fun b c => let '(k, l) := c in if fluid g k l then upd b (Z.to_nat (eqn_t g (cell g k l))) (rhs0 g src T k l + bbc g k l) else b) L b (pos g c)
      = if existsb (fun d => Nat.eqb (fst d) (fst c) && Nat.eqb (snd d) (snd c)) L then rhs0 g src T (fst c) (snd c) + bbc g (fst c) (snd c) else b (pos g c)).
    { induction L as [|[k l] L IH]; intros b Hs Hn; [reflexivity|]. inversion Hn as [|? ? N1 N2].
      cbn [fold_left existsb fst snd]. rewrite IH by (try assumption; intros; apply Hs; now right).
      destruct (Nat.eqb_spec k (fst c)) as [Ek|Ek]; [destruct (Nat.eqb_spec l (snd c)) as [El|El]|].
      - assert (Ec : (k, l) = c) by (destruct c; cbn in *; congruence). cbn [andb orb].
        assert (Ex : existsb (fun d => Nat.eqb (fst d) (fst c) && Nat.eqb (snd d) (snd c)) L = false).
        { destruct (existsb _ L) eqn:E; [|reflexivity]. exfalso. apply existsb_exists in E. destruct E as [d [Hd E]]. apply andb_prop in E. destruct E as [E1 E2].
          apply Nat.eqb_eq in E1, E2. apply N1. rewrite Ec. replace c with d by (destruct c, d; cbn in *; congruence). exact Hd. }
        rewrite Ex. subst c. cbn [fst snd] in *. assert (Hf := Hc). apply in_fl in Hf. destruct Hf as [_ Hf]. rewrite Hf. unfold upd, pos. cbn [fst snd]. now rewrite Nat.eqb_refl.
      - cbn [andb orb]. destruct (existsb _ L); [reflexivity|]. destruct (fluid g k l) eqn:F; [|reflexivity]. unfold upd.
        destruct (Nat.eqb_spec (pos g c) (Z.to_nat (eqn_t g (cell g k l)))) as [E|_]; [|reflexivity]. exfalso. apply El.
        assert (Hk : In (k, l) (fl g)) by (unfold fl; apply filter_In; split; [apply Hs; now left|exact F]).
        apply (pos_inj g c (k, l) Hc Hk) in E. subst c. reflexivity.
      - cbn [andb orb]. destruct (existsb _ L); [reflexivity|]. destruct (fluid g k l) eqn:F; [|reflexivity]. unfold upd.
        destruct (Nat.eqb_spec (pos g c) (Z.to_nat (eqn_t g (cell g k l)))) as [E|_]; [|reflexivity]. exfalso. apply Ek.
        assert (Hk : In (k, l) (fl g)) by (unfold fl; apply filter_In; split; [apply Hs; now left|exact F]).
        apply (pos_inj g c (k, l) Hc Hk) in E. subst c. reflexivity. }
    rewrite (K (cells g)) by (auto; apply nodup_cells).
    assert (Ex : existsb (fun d => Nat.eqb (fst d) (fst c) && Nat.eqb (snd d) (snd c)) (cells g) = true) by (apply existsb_exists; exists c; split; [now apply fl_cells|now rewrite !Nat.eqb_refl]).
    rewrite Ex. reflexivity.
  Qed.

  Definition estep (x : nat -> R) (out : R) (o : option (nat -> R)) (c : nat * nat) : option (nat -> R) :=
    let '(k, l) := c in
      match o with
      | None => None
      | Some T => if fluid g k l then
            let v := x (Z.to_nat (eqn_t g (cell g k l))) in
            if Rltb v 0 then None else Some (upd T (cell g k l) v)
          else Some (upd T (cell g k l) out)
      end.
  Lemma estep_none : forall x out L, fold_left (estep x out) L None = None.
  Proof. induction L as [|[k l] L IH]; [reflexivity|exact IH]. Qed.
  Lemma extract_fold : forall x out L T, NoDup L -> (forall c c', In c L -> In c' L -> cellp c = cellp c' -> c = c') ->
    match fold_left (estep x out) L (Some T) with
    | Some T' => (forall c, In c L -> T' (cellp c) = if fluidp c then x (pos g c) else out) /\ (forall c, In c L -> fluidp c = true -> 0 <= x (pos g c)) /\
        (forall j, (forall c, In c L -> cellp c <> j) -> T' j = T j)
    | None => exists c, In c L /\ fluidp c = true /\ x (pos g c) < 0
    end.
  Proof.
    induction L as [|[k l] L IH]; intros T Hn Hi; [cbn; repeat split; auto; easy|]. inversion Hn as [|? ? N1 N2]. cbn [fold_left]. unfold estep at 2.
    assert (Hi' : forall c c', In c L -> In c' L -> cellp c = cellp c' -> c = c') by (intros; apply Hi; (now right) || assumption).
    assert (Gen : forall v, v = (if fluid g k l then x (pos g (k, l)) else out) -> (fluid g k l = true -> 0 <= v) ->
      match fold_left (estep x out) L (Some (upd T (cell g k l) v)) with
      | Some T' => (forall c, In c ((k, l) :: L) -> T' (cellp c) = if fluidp c then x (pos g c) else out) /\ (forall c, In c ((k, l) :: L) -> fluidp c = true -> 0 <= x (pos g c)) /\
        (forall j, (forall c, In c ((k, l) :: L) -> cellp c <> j) -> T' j = T j)
      | None => exists c, In c ((k, l) :: L) /\ fluidp c = true /\ x (pos g c) < 0
      end).
    { intros v Ev Hv. specialize (IH (upd T (cell g k l) v) N2 Hi'). destruct (fold_left _ L _) as [T'|].
      - destruct IH as (I1 & I2 & I3). repeat split.
        + intros c [<-|Hc]; [|now apply I1]. cbn [fst snd]. rewrite I3; [unfold upd; now rewrite Nat.eqb_refl|].
          intros c Hc E. apply (Hi c (k, l)) in E; [subst; contradiction|now right|now left].
        + intros c [<-|Hc] Hf; [|now apply I2]. cbn [fst snd] in Hf. rewrite Hf in Ev. rewrite <- Ev. now apply Hv.
        + intros j Hj. rewrite I3 by (intros; apply Hj; now right). unfold upd.
          destruct (Nat.eqb_spec j (cell g k l)) as [->|_]; [|reflexivity]. exfalso. apply (Hj (k, l)); [now left|reflexivity].
      - destruct IH as (c & H1 & H2 & H3). exists c. repeat split; auto. now right. }
    destruct (fluid g k l) eqn:F.
    - cbv zeta. change (Z.to_nat (eqn_t g (cell g k l))) with (pos g (k, l)). unfold Rltb. destruct (Rlt_dec (x (pos g (k, l))) 0) as [Hl|Hl].
      + rewrite estep_none. exists (k, l). repeat split; [now left|exact F|exact Hl].
      + apply Gen; [reflexivity|intros _; lra].
    - apply Gen; [reflexivity|discriminate].
  Qed.
  Lemma extract_facts : forall x out T,
    match extract g x out T with
    | Some T' => (forall k l, (k < ncx)%nat -> (l < ncz)%nat -> T' (cell g k l) = if fluid g k l then x (pos g (k, l)) else out) /\
        (forall c, In c (fl g) -> 0 <= x (pos g c)) /\
        (forall j, (ncx * ncz <= j)%nat -> T' j = T j)
    | None => exists c, In c (fl g) /\ x (pos g c) < 0
    end.
  Proof.
    intros x out T. unfold extract. change (fold_left _ (cells g) (Some T)) with (fold_left (estep x out) (cells g) (Some T)).
    pose proof (extract_fold x out (cells g) T (nodup_cells g) (fun c c' => cell_inj g c c')) as H.
    destruct (fold_left _ _ _) as [T'|].
    - destruct H as (H1 & H2 & H3). repeat split.
      + intros k l Hk Hl. apply (H1 (k, l)). now apply in_cells.
      + intros c Hc. apply H2; [now apply fl_cells|]. destruct c. now apply in_fl in Hc.
      + intros j Hj. apply H3. intros [k l] Hc. apply in_cells in Hc. unfold cell. cbn [fst snd]. nia.
    - destruct H as (c & H1 & H2 & H3). exists c. split; [|exact H3]. unfold fl. now apply filter_In.
  Qed.
End Fields.

(** ** Specification: how each side of a cell exchanges heat

    Written on the arrays themselves. Flags and values live on a grid with one ghost cell around
    ([fl_at i j], [0 <= i <= ncx+1], [0 <= j <= ncz+1]); the cell [(k,l)] is [(k+1,l+1)]. *)
Inductive side : Type := South | West | East | North.
Inductive link : Type :=
  | Closed
  | ToCell (c : nat * nat) (a : R)      (* a neighbouring cell, one spacing away *)
  | ToValue (v a : R)                   (* a prescribed value, half a spacing away *)
  | Flux (q : R).                       (* a prescribed upward flux; heat enters at the rate [-q] *)
Section Spec.
  Variable g : dgrid.
  Definition flag_at (i j : nat) : Z := g_typ g (i + j * (g_ncx g + 2)).
  Definition val_at (i j : nat) : R := g_val g (i + j * (g_ncx g + 2)).
  Definition air_at (i j : nat) : bool := (flag_at i j =? 30)%Z.
  (** conductivity of the vertical face number [i] (0 = west wall) of line [l], of the horizontal face [j]
      (0 = bottom) of column [k] *)
  Definition kvert (i l : nat) : R := g_kx g (i + (l + 1) * (g_ncx g + 1)).
  Definition khoriz (k j : nat) : R := g_kz g (k + 1 + j * (g_ncx g + 2)).
  Definition surface (k l : nat) : link :=
    if (flag_at (k + 1) (l + 1) =? 1)%Z
    then ToValue (val_at (k + 1) (l + 1)) (Rmax (g_mink g) ((kvert k l + kvert (k + 1) l + khoriz k l + khoriz k (l + 1)) / 4))
    else Closed.
  (** what the side [s] of the cell [(k,l)] touches *)
  Definition touches (s : side) (k l : nat) : link :=
    match s with
    | South => if Nat.eqb l 0 then
          if (flag_at (k + 1) 0 =? 1)%Z then ToValue (val_at (k + 1) 0) (khoriz k 0)
          else if (flag_at (k + 1) 0 =? 0)%Z then Flux (val_at (k + 1) 0) else Closed
        else if air_at (k + 1) l then surface k l else ToCell (k, l - 1)%nat (khoriz k l)
    | North => if Nat.eqb (l + 1) (g_ncz g) then
          if (flag_at (k + 1) (l + 2) =? 1)%Z then ToValue (val_at (k + 1) (l + 2)) (khoriz k (l + 1)) else Closed
        else if air_at (k + 1) (l + 2) then surface k l else ToCell (k, l + 1)%nat (khoriz k (l + 1))
    | West => if Nat.eqb k 0 then
          if (flag_at 0 (l + 1) =? 1)%Z then ToValue (val_at 0 (l + 1)) (kvert 0 l)
          else if (flag_at 0 (l + 1) =? -2)%Z then ToCell (g_ncx g - 1, l)%nat (kvert 0 l) else Closed
        else if air_at k (l + 1) then surface k l else ToCell (k - 1, l)%nat (kvert k l)
    | East => if Nat.eqb (k + 1) (g_ncx g) then
          if (flag_at (k + 2) (l + 1) =? 1)%Z then ToValue (val_at (k + 2) (l + 1)) (kvert (k + 1) l)
          else if (flag_at (k + 2) (l + 1) =? -2)%Z then ToCell (0, l)%nat (kvert (k + 1) l) else Closed
        else if air_at (k + 2) (l + 1) then surface k l else ToCell (k + 1, l)%nat (kvert (k + 1) l)
    end.
  Definition spacing (s : side) : R := match s with South | North => g_dz g | West | East => g_dx g end.
  Definition at_ (T : nat -> R) (c : nat * nat) : R := T (fst c + snd c * g_ncx g)%nat.
  (** Fourier's law: heat entering through the side per unit area and time *)
  Definition enters (T : nat -> R) (s : side) (k l : nat) : R :=
    match touches s k l with
    | Closed => 0
    | ToCell c a => a * (at_ T c - at_ T (k, l)) / spacing s
    | ToValue v a => a * (v - at_ T (k, l)) / (spacing s / 2)
    | Flux q => - q
    end.
  Definition allsides (f : side -> R) : R := f South + f West + f East + f North.
  (** heat balance of a cell over the step *)
  Definition balanced (src T T' : nat -> R) (k l : nat) : Prop :=
    at_ (g_rc g) (k, l) * (at_ T' (k, l) - at_ T (k, l)) / g_dt g = allsides (fun s => enters T' s k l / spacing s) + at_ src (k, l).
  Definition active (k l : nat) : Prop := (k < g_ncx g)%nat /\ (l < g_ncz g)%nat /\ air_at (k + 1) (l + 1) = false.
  (** periodic sides: both ends flagged, same conductivity at both ends, no air at one end only, at least
      three columns *)
  Definition periodic_ok : Prop := forall l, (l < g_ncz g)%nat ->
    (flag_at 0 (l + 1) = -2 <-> flag_at (g_ncx g + 1) (l + 1) = -2)%Z /\
    (flag_at 0 (l + 1) = (-2)%Z -> kvert 0 l = kvert (g_ncx g) l /\ air_at 1 (l + 1) = air_at (g_ncx g) (l + 1) /\ (3 <= g_ncx g)%nat).
  (** the bottom flux is used correctly only on square cells *)
  Definition bottom_ok : Prop := forall k, active k 0 -> flag_at (k + 1) 0 = 0%Z -> val_at (k + 1) 0 = 0 \/ g_dx g = g_dz g.
  Definition spacings_ok : Prop := 0 < g_dx g /\ 0 < g_dz g /\ 0 < g_dt g.
  Definition physical : Prop := (forall i l, 0 <= kvert i l) /\ (forall k j, 0 <= khoriz k j) /\ 0 <= g_mink g /\
    (forall k l, active k l -> 0 < at_ (g_rc g) (k, l)).
End Spec.
