(** * C33, continued: every matrix entry belongs to an unknown of the grid *)
From Coq Require Import ZArith Reals List Bool Lia Lra.
Import ListNotations.
From Verif Require Import StokesModel StokesProofs StokesX StokesZ StokesProps.
Local Open Scope Z_scope.

(** Specification: nodes of the three grids that carry an unknown (on a periodic pair, both
    names of the one they share). *)
Definition unknown (m : mesh) (t : target) : Prop :=
  match t with
  | U c => exists i j, 0 <= i < nx m /\ 0 < j < nz m /\ c = Ui m i j /\ In (tu m c) [-1; 2; -2; -12]
  | V c => exists i j, 0 < i < nx m /\ 0 <= j < nz m /\ c = Vi m i j /\ In (tv m c) [-1; 2]
  | P c => exists i j, 0 <= i < nx m - 1 /\ 0 <= j < nz m - 1 /\ c = Pi m i j /\ tp m c = -1
  end.

Lemma unk_U m i j : tags_ok m -> 0 <= i < nx m -> 0 <= j <= nz m ->
  tu m (Ui m i j) <> 30 -> to_rhs (tu m (Ui m i j)) = false -> unknown m (U (Ui m i j)).
Proof.
  intros T Hi Hj N R. assert (C := ok_u m T i j Hi Hj). unfold to_rhs in R.
  apply orb_false_elim in R. destruct R as [R R4]. apply orb_false_elim in R. destruct R as [R R3]. apply orb_false_elim in R. destruct R as [R1 R2].
  apply Z.eqb_neq in R1, R2, R3, R4. cbn [In] in C.
  assert (In (tu m (Ui m i j)) [-1; 2; -2; -12]) by (cbn [In]; intuition lia).
  exists i, j. split; [exact Hi|]. split; [|split; [reflexivity|assumption]].
  cbn [In] in H. destruct H as [H|[H|[H|[H|[]]]]]; symmetry in H.
  - now apply (ok_u_inner m T i j Hi Hj) in H.
  - now apply (ok_u_stress m T i j Hi Hj) in H.
  - now apply (ok_u_west m T i j Hi Hj) in H.
  - now apply (ok_u_east m T i j Hi Hj) in H.
Qed.
Lemma unk_V m i j : tags_ok m -> 0 < i < nx m -> 0 <= j < nz m ->
  tv m (Vi m i j) <> 30 -> to_rhs (tv m (Vi m i j)) = false -> unknown m (V (Vi m i j)).
Proof.
  intros T Hi Hj N R. assert (C := ok_v m T i j ltac:(lia) Hj). unfold to_rhs in R.
  apply orb_false_elim in R. destruct R as [R R4]. apply orb_false_elim in R. destruct R as [R R3]. apply orb_false_elim in R. destruct R as [R1 R2].
  apply Z.eqb_neq in R1, R2, R3, R4. cbn [In] in C.
  exists i, j. split; [exact Hi|]. split; [exact Hj|]. split; [reflexivity|].
  assert (G := ok_v_ghost m T i j ltac:(lia) Hj). cbn [In] in *.
  destruct C as [C|[C|[C|[C|[C|[C|[C|[]]]]]]]]; intuition lia.
Qed.
Lemma unk_P m i j : tags_ok m -> 0 <= i < nx m - 1 -> 0 <= j < nz m - 1 ->
  tp m (Pi m i j) <> 30 -> to_rhs (tp m (Pi m i j)) = false -> unknown m (P (Pi m i j)).
Proof.
  intros T Hi Hj N R. assert (C := ok_p m T i j Hi Hj). unfold to_rhs in R.
  apply orb_false_elim in R. destruct R as [R R4]. apply orb_false_elim in R. destruct R as [R R3]. apply orb_false_elim in R. destruct R as [R1 R2].
  apply Z.eqb_neq in R1, R2, R3, R4. cbn [In] in C. exists i, j. intuition lia.
Qed.

Lemma entries_all m (Q : target -> Prop) l :
  Forall (fun e => fst (fst e) = true -> to_rhs (type_of m (snd (fst e))) = false -> Q (snd (fst e))) l ->
  Forall (fun e => Q (fst e)) (entries m l).
Proof.
  induction 1 as [|[[b t] a] l H _ IH]; [constructor|]. unfold entries in *. cbn [filter fst snd].
  cbn [fst snd] in H. destruct b; cbn [andb]; [|exact IH].
  destruct (to_rhs (type_of m t)) eqn:E; cbn [negb]; [exact IH|]. cbn [map fst snd]. constructor; auto.
Qed.

Ltac bsplit := repeat match goal with
  | H : _ && _ = true |- _ => apply andb_prop in H; destruct H
  | H : negb _ = true |- _ => apply negb_true_iff in H; apply Z.eqb_neq in H
  | H : (_ <? _) = true |- _ => apply Z.ltb_lt in H
  end.

(** Every entry of an x-momentum row multiplies an unknown that exists: no column of a ghost, of
    a prescribed velocity, of an air node, nor of anything outside the arrays. *)
Theorem C33_columns_are_unknowns_x : forall m i j, tags_ok m -> 0 <= i < nx m -> 0 <= j <= nz m ->
  In (tu m (Ui m i j)) [-1; 2; -2] -> Forall (fun e => unknown m (fst e)) (x_row m i j).
Proof.
  intros m i j T Hi Hj C. pose proof (ok_nx m T). pose proof (ok_nz m T).
  assert (J : 0 < j < nz m).
  { cbn [In] in C. destruct C as [C|[C|[C|[]]]]; symmetry in C.
    - now apply (ok_u_inner m T i j Hi Hj) in C.
    - now apply (ok_u_stress m T i j Hi Hj) in C.
    - now apply (ok_u_west m T i j Hi Hj) in C. }
  assert (PW : per m i j = true -> i = 0).
  { unfold per. rewrite Z.eqb_eq, x_c1. intros E. now apply (ok_u_west m T i j Hi Hj) in E. }
  unfold x_row. apply entries_all. unfold x_requests. rewrite x_c1, x_S, x_N, x_E, x_SE, x_NE, x_PE.
  assert (W : (0 <? i) || per m i j = true -> exists iw, 0 <= iw < nx m - 1 /\
     xVxW m i j = Ui m (if per m i j then nx m - 2 else i - 1) j /\ xVzSW m i j = Vi m (iw + 1) (j - 1) /\
     xVzNW m i j = Vi m (iw + 1) j /\ xPrW m i j = Pi m iw (j - 1) /\ 0 <= (if per m i j then nx m - 2 else i - 1) < nx m).
  { intros G. unfold xVxW, xVzSW, xVzNW, xPrW, xc1, xc2, xc3, nxvz, ncx, Ui, Vi, Pi. destruct (per m i j).
    - specialize (PW eq_refl). subst i. exists (nx m - 2). repeat split; nia.
    - rewrite orb_false_r in G. apply Z.ltb_lt in G. exists (i - 1). repeat split; nia. }
  assert (E : (i <? nx m - 1) || per m i j = true -> i < nx m - 1).
  { intros G. apply orb_prop in G. destruct G as [G|G]; [lia|]. specialize (PW G). lia. }
  repeat constructor; cbn [fst snd type_of]; intros B R; bsplit;
    try (match goal with G : (0 <? i) || _ = true |- _ => destruct (W G) as [iw [W1 [W2 [W3 [W4 [W5 W6]]]]]] end;
         rewrite ?W2, ?W3, ?W4, ?W5 in * );
    try (match goal with G : (i <? _) || _ = true |- _ => apply E in G end);
    first [apply unk_U | apply unk_V | apply unk_P]; (assumption || lia).
Qed.
Print Assumptions C33_columns_are_unknowns_x.

Theorem C33_columns_are_unknowns_z : forall m i j, tags_ok m -> 0 <= i <= nx m -> 0 <= j < nz m ->
  In (tv m (Vi m i j)) [-1; 2] -> Forall (fun e => unknown m (fst e)) (z_row m i j).
Proof.
  intros m i j T Hi Hj C. pose proof (ok_nx m T). pose proof (ok_nz m T).
  assert (I : 0 < i < nx m).
  { cbn [In] in C. destruct C as [C|[C|[]]]; symmetry in C.
    - now apply (ok_v_inner m T i j Hi Hj) in C.
    - now apply (ok_v_stress m T i j Hi Hj) in C. }
  unfold z_row. apply entries_all. unfold z_requests.
  replace (zc3 m i j) with (Vi m i j) by (unfold zc3, nxvz, Vi; ring).
  replace (zVxSW m i j) with (Ui m (i - 1) j) by (unfold zVxSW, zc1, Ui; ring).
  replace (zVxSE m i j) with (Ui m i j) by (unfold zVxSE, zc1, Ui; ring).
  replace (zVxNW m i j) with (Ui m (i - 1) (j + 1)) by (unfold zVxNW, zc1, Ui; ring).
  replace (zVxNE m i j) with (Ui m i (j + 1)) by (unfold zVxNE, zc1, Ui; ring).
  replace (zVzS m i j) with (Vi m i (j - 1)) by (unfold zVzS, zc3, nxvz, Vi; ring).
  replace (zVzN m i j) with (Vi m i (j + 1)) by (unfold zVzN, zc3, nxvz, Vi; ring).
  replace (zPrS m i j) with (Pi m (i - 1) (j - 1)) by (unfold zPrS, zc2, ncx, Pi; ring).
  replace (zPrN m i j) with (Pi m (i - 1) j) by (unfold zPrN, zc2, ncx, Pi; ring).
  assert (G : forall i', i' = 0 \/ i' = nx m -> tv m (Vi m i' j) <> 30 -> to_rhs (tv m (Vi m i' j)) = false -> tv m (Vi m i' j) = -12).
  { intros i' Hi' N R. assert (B : 0 <= i' <= nx m) by lia.
    pose proof (ok_v m T i' j B Hj) as K. pose proof (ok_v_inner m T i' j B Hj) as K1. pose proof (ok_v_stress m T i' j B Hj) as K2.
    unfold to_rhs in R. repeat (apply orb_false_elim in R; let q := fresh in destruct R as [R q]; apply Z.eqb_neq in q). apply Z.eqb_neq in R.
    cbn [In] in K. destruct K as [K|[K|[K|[K|[K|[K|[K|[]]]]]]]]; symmetry in K; try congruence; [apply K1 in K; lia|apply K2 in K; lia]. }
  repeat constructor; cbn [fst snd type_of]; intros B R; bsplit;
    try (first [apply unk_U | apply unk_V | apply unk_P]; (assumption || lia)).
  - unfold zVzW in *. replace (zc3 m i j) with (Vi m i j) in * by (unfold zc3, nxvz, Vi; ring).
    replace (Vi m i j - 1) with (Vi m (i - 1) j) in * by (unfold Vi; ring). replace (nxvz m) with (nx m + 1) in * by (unfold nxvz; ring).
    destruct (Z.eq_dec i 1) as [->|N1].
    + destruct ((tv m (Vi m (1 - 1) j) =? -12) && (1 =? 1)) eqn:E.
      * replace (Vi m 1 j + (nx m + 1) - 3) with (Vi m (nx m - 1) j) in * by (unfold Vi; ring). apply unk_V; assumption || lia.
      * rewrite Z.eqb_refl, andb_true_r in E. apply Z.eqb_neq in E. exfalso. apply E. apply G; auto.
    + replace (i =? 1) with false in * by lia. rewrite andb_false_r in *. apply unk_V; assumption || lia.
  - unfold zVzE in *. replace (zc3 m i j) with (Vi m i j) in * by (unfold zc3, nxvz, Vi; ring).
    replace (Vi m i j + 1) with (Vi m (i + 1) j) in * by (unfold Vi; ring). replace (nxvz m) with (nx m + 1) in * by (unfold nxvz; ring).
    destruct (Z.eq_dec i (nx m - 1)) as [->|N1].
    + replace (nx m - 1 + 1) with (nx m) in * by ring. replace (nx m - 1 =? nx m + 1 - 2) with true in * by lia. rewrite andb_true_r in *.
      destruct (tv m (Vi m (nx m) j) =? -12) eqn:E.
      * replace (Vi m (nx m - 1) j - (nx m + 1) + 3) with (Vi m 1 j) in * by (unfold Vi; ring). apply unk_V; assumption || lia.
      * apply Z.eqb_neq in E. exfalso. apply E. apply G; auto.
    + replace (i =? nx m + 1 - 2) with false in * by lia. rewrite andb_false_r in *. apply unk_V; assumption || lia.
Qed.
Print Assumptions C33_columns_are_unknowns_z.

(** Continuity of a cell whose four faces are not in the air. *)
Theorem C33_columns_are_unknowns_c : forall m k l, tags_ok m -> 0 <= k < nx m - 1 -> 0 <= l < nz m - 1 ->
  tu m (Ui m k (l + 1)) <> 30 -> tu m (Ui m (k + 1) (l + 1)) <> 30 -> tv m (Vi m (k + 1) l) <> 30 -> tv m (Vi m (k + 1) (l + 1)) <> 30 ->
  Forall (fun e => unknown m (fst e)) (c_row m k l).
Proof.
  intros m k l T Hk Hl A B C D. unfold c_row. apply entries_all. unfold c_requests.
  replace (cc1 m k l) with (Ui m k (l + 1)) by (unfold cc1, Ui; ring).
  replace (Ui m k (l + 1) + 1) with (Ui m (k + 1) (l + 1)) by (unfold Ui; ring).
  replace (cc3 m k l) with (Vi m (k + 1) l) by (unfold cc3, nxvz, Vi; ring).
  replace (Vi m (k + 1) l + nxvz m) with (Vi m (k + 1) (l + 1)) by (unfold nxvz, Vi; ring).
  repeat constructor; cbn [fst snd type_of]; intros E R; first [apply unk_U | apply unk_V]; assumption || lia.
Qed.
Print Assumptions C33_columns_are_unknowns_c.

(** Conversely nothing is lost: every neighbour that is an unknown of its grid keeps its entry, so the row
    length is the number of unknown neighbours asked for. *)
Theorem C33_unknown_neighbours_kept : forall m i j t a,
  In (true, t, a) (x_requests m i j) \/ In (true, t, a) (z_requests m i j) -> unknown m t ->
  In (t, a) (x_row m i j) \/ In (t, a) (z_row m i j).
Proof.
  intros m i j t a H Hu.
  assert (R : to_rhs (type_of m t) = false).
  { destruct t as [c|c|c]; cbn [unknown type_of] in *; destruct Hu as [x [y [_ [_ [_ Q]]]]]; cbn [In] in Q.
    - destruct Q as [Q|[Q|[Q|[Q|[]]]]]; rewrite <- Q; reflexivity.
    - destruct Q as [Q|[Q|[]]]; rewrite <- Q; reflexivity.
    - rewrite Q; reflexivity. }
  destruct H as [H|H]; [left; unfold x_row|right; unfold z_row]; unfold entries; apply in_map_iff; exists (true, t, a);
    (split; [reflexivity|]; apply filter_In; split; [exact H|]; cbn [fst snd]; now rewrite R).
Qed.
Print Assumptions C33_unknown_neighbours_kept.

Example C33_columns_ex : tags_ok m_per /\ In (tu m_per (Ui m_per 0 1)) [-1; 2; -2] /\
  length (x_row m_per 0 1) <> 0%nat.
Proof.
  pose proof C32_periodic_ex as [T _]. split; [|split].
  - destruct T. constructor; assumption.
  - vm_compute. tauto.
  - vm_compute. discriminate.
Qed.
