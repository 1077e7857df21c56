(** Specification and lemmas: the assembled rows are the linearisation of the
    residual. *)
From Coq Require Import ZArith Reals List Bool Lia Lra.
Import ListNotations.
From Verif Require Import StokesModel.
Local Open Scope Z_scope.

(** ** Specification: what a documented set of boundary tags is *)
Section Spec.
Variable m : mesh.
Definition Ui i j := i + j * nx m.
Definition Vi i j := i + j * (nx m + 1).
Definition Pi i j := i + j * (nx m - 1).

Record tags_ok : Prop := {
  ok_nx : 2 <= nx m; ok_nz : 2 <= nz m; ok_dx : dx m <> 0%R; ok_dz : dz m <> 0%R;
  (* Vx: types and where each may be used *)
  ok_u : forall i j, 0 <= i < nx m -> 0 <= j <= nz m -> In (tu m (Ui i j)) [-1; 0; 2; -2; -12; 11; 13; 30];
  ok_u_inner : forall i j, 0 <= i < nx m -> 0 <= j <= nz m -> tu m (Ui i j) = -1 -> 0 < i < nx m - 1 /\ 0 < j < nz m;
  ok_u_ghost : forall i j, 0 <= i < nx m -> 0 <= j <= nz m -> In (tu m (Ui i j)) [11; 13] -> j = 0 \/ j = nz m;
  ok_u_stress : forall i j, 0 <= i < nx m -> 0 <= j <= nz m -> tu m (Ui i j) = 2 -> 0 < j < nz m;
  ok_u_west : forall i j, 0 <= i < nx m -> 0 <= j <= nz m -> tu m (Ui i j) = -2 -> i = 0 /\ 0 < j < nz m;
  ok_u_east : forall i j, 0 <= i < nx m -> 0 <= j <= nz m -> tu m (Ui i j) = -12 ->
     i = nx m - 1 /\ 0 < j < nz m /\ tu m (Ui 0 j) = -2;
  ok_u_west_partner : forall j, 0 < j < nz m -> tu m (Ui 0 j) = -2 -> tu m (Ui (nx m - 1) j) = -12;
  (* Vz *)
  ok_v : forall i j, 0 <= i <= nx m -> 0 <= j < nz m -> In (tv m (Vi i j)) [-1; 0; 2; -12; 11; 13; 30];
  ok_v_inner : forall i j, 0 <= i <= nx m -> 0 <= j < nz m -> tv m (Vi i j) = -1 -> 0 < i < nx m /\ 0 < j < nz m - 1;
  ok_v_stress : forall i j, 0 <= i <= nx m -> 0 <= j < nz m -> tv m (Vi i j) = 2 -> 0 < i < nx m;
  ok_v_ghost : forall i j, 0 <= i <= nx m -> 0 <= j < nz m -> In (tv m (Vi i j)) [11; 13; -12] -> i = 0 \/ i = nx m;
  (* cells are active or in the air; no prescribed pressure *)
  ok_p : forall i j, 0 <= i < nx m - 1 -> 0 <= j < nz m - 1 -> In (tp m (Pi i j)) [-1; 30; 31];
  (* beside a stress boundary the tangential velocity is free slip or prescribed *)
  ok_stress_W : forall j, 0 < j < nz m -> tu m (Ui 0 j) = 2 ->
     forall j', j' = j - 1 \/ j' = j -> tg m (Ui 0 j') = 30 \/ In (tv m (Vi 0 j')) [11; 13];
  ok_stress_E : forall j, 0 < j < nz m -> tu m (Ui (nx m - 1) j) = 2 ->
     forall j', j' = j - 1 \/ j' = j -> tg m (Ui (nx m - 1) j') = 30 \/ In (tv m (Vi (nx m) j')) [11; 13];
  ok_stress_S : forall i, 0 < i < nx m -> tv m (Vi i 0) = 2 ->
     forall i', i' = i - 1 \/ i' = i -> tg m (Ui i' 0) = 30 \/ In (tu m (Ui i' 0)) [11; 13];
  ok_stress_N : forall i, 0 < i < nx m -> tv m (Vi i (nz m - 1)) = 2 ->
     forall i', i' = i - 1 \/ i' = i -> tg m (Ui i' (nz m - 1)) = 30 \/ In (tu m (Ui i' (nz m))) [11; 13];
  (* periodic rows have periodic tangential velocities *)
  ok_periodic : forall j, 0 < j < nz m -> tu m (Ui 0 j) = -2 ->
     forall j', j' = j - 1 \/ j' = j -> tg m (Ui 0 j') = 30 \/ tv m (Vi 0 j') = -12 }.

(** Velocities satisfying the boundary conditions (the outcome of C31). *)
Record bc_ok (f : fields) : Prop := {
  bc_S : forall i, 0 <= i < nx m -> (tu m (Ui i 0) = 13 -> fu f (Ui i 0) = fu f (Ui i 1)) /\
                                   (tu m (Ui i 0) = 11 -> (fu f (Ui i 0) + fu f (Ui i 1) = valu m (Ui i 0))%R);
  bc_N : forall i, 0 <= i < nx m -> (tu m (Ui i (nz m)) = 13 -> fu f (Ui i (nz m)) = fu f (Ui i (nz m - 1))) /\
                                   (tu m (Ui i (nz m)) = 11 -> (fu f (Ui i (nz m)) + fu f (Ui i (nz m - 1)) = valu m (Ui i (nz m)))%R);
  bc_per_u : forall j, 0 <= j <= nz m -> tu m (Ui (nx m - 1) j) = -12 -> fu f (Ui (nx m - 1) j) = fu f (Ui 0 j);
  bc_W : forall j, 0 <= j < nz m -> (tv m (Vi 0 j) = 13 -> fv f (Vi 0 j) = fv f (Vi 1 j)) /\
                                   (tv m (Vi 0 j) = 11 -> (fv f (Vi 0 j) + fv f (Vi 1 j) = valv m (Vi 0 j))%R) /\
                                   (tv m (Vi 0 j) = -12 -> fv f (Vi 0 j) = fv f (Vi (nx m - 1) j));
  bc_E : forall j, 0 <= j < nz m -> (tv m (Vi (nx m) j) = 13 -> fv f (Vi (nx m) j) = fv f (Vi (nx m - 1) j)) /\
                                   (tv m (Vi (nx m) j) = 11 -> (fv f (Vi (nx m) j) + fv f (Vi (nx m - 1) j) = valv m (Vi (nx m) j))%R) /\
                                   (tv m (Vi (nx m) j) = -12 -> fv f (Vi (nx m) j) = fv f (Vi 1 j)) }.

(** [f'] is [f] with the unknowns incremented by the vector [d] (columns are
    equation numbers), everything prescribed or in the air unchanged. *)
Record incremented (eu ev ep : Z -> Z) (d : Z -> R) (f f' : fields) : Prop := {
  inc_u : forall c, In (tu m c) [-1; 2; -2] -> (fu f' c - fu f c = d (eu c))%R;
  inc_u0 : forall c, In (tu m c) [0; 30; 31] -> fu f' c = fu f c;
  inc_v : forall c, In (tv m c) [-1; 2] -> (fv f' c - fv f c = d (ev c))%R;
  inc_v0 : forall c, In (tv m c) [0; 30; 31] -> fv f' c = fv f c;
  inc_p : forall c, tp m c = -1 -> (fpc f' c - fpc f c = d (ep c))%R /\ (fp f' c - fp f c = d (ep c))%R;
  inc_p0 : forall c, tp m c <> -1 -> fpc f' c = fpc f c /\ fp f' c = fp f c;
  (* periodic nodes share the number of their partner (C28) *)
  inc_eu : forall j, 0 <= j <= nz m -> tu m (Ui (nx m - 1) j) = -12 -> eu (Ui (nx m - 1) j) = eu (Ui 0 j) }.
End Spec.

(** ** Row times vector *)
Definition contrib (m : mesh) (eu ev ep : Z -> Z) (d : Z -> R) (e : bool * target * R) : R :=
  let '(b, t, a) := e in if b && negb (to_rhs (type_of m t)) then (a * d (col_of eu ev ep t))%R else 0%R.

Lemma row_dot_entries m eu ev ep d l :
  row_dot eu ev ep (entries m l) d = fold_right (fun e s => (contrib m eu ev ep d e + s)%R) 0%R l.
Proof.
  induction l as [|[[b t] a] l IH]; [reflexivity|].
  unfold entries in *. cbn [filter fst snd]. cbn [fold_right]. unfold contrib at 1.
  destruct (b && negb (to_rhs (type_of m t))) eqn:E.
  - cbn [map row_dot fold_right fst snd]. f_equal. exact IH.
  - rewrite IH. lra.
Qed.

(** Change of the field at a target. *)
Definition delta (f f' : fields) (t : target) : R :=
  match t with U i => (fu f' i - fu f i)%R | V i => (fv f' i - fv f i)%R | P i => (fpc f' i - fpc f i)%R end.

Section Inc.
Variables (m : mesh) (eu ev ep : Z -> Z) (d : Z -> R) (f f' : fields).
Hypothesis T : tags_ok m.
Hypothesis B : bc_ok m f.
Hypothesis B' : bc_ok m f'.
Hypothesis I : incremented m eu ev ep d f f'.
Notation Dl := (delta f f').
Notation con := (contrib m eu ev ep d).

Ltac codes H := cbn [In] in H; repeat (destruct H as [H|H]; [symmetry in H|]); [..|contradiction H].

Lemma con_U i j a : 0 <= i < nx m -> 0 <= j <= nz m -> ~ In (tu m (Ui m i j)) [11; 13] ->
  con (negb (tu m (Ui m i j) =? 30), U (Ui m i j), a) = (a * Dl (U (Ui m i j)))%R.
Proof.
  intros Hi Hj N. unfold contrib, delta. cbn [type_of col_of].
  pose proof (ok_u m T i j Hi Hj) as C. remember (Ui m i j) as c eqn:Ec.
  codes C; rewrite C; unfold to_rhs; cbn [Z.eqb Pos.eqb orb negb andb].
  - rewrite (inc_u _ _ _ _ _ _ _ I c) by (rewrite C; cbn; tauto). reflexivity.
  - rewrite (inc_u0 _ _ _ _ _ _ _ I c) by (rewrite C; cbn; tauto). lra.
  - rewrite (inc_u _ _ _ _ _ _ _ I c) by (rewrite C; cbn; tauto). reflexivity.
  - rewrite (inc_u _ _ _ _ _ _ _ I c) by (rewrite C; cbn; tauto). reflexivity.
  - subst c. destruct (ok_u_east m T i j Hi Hj C) as (-> & Hj' & P).
    rewrite (bc_per_u m f' B' j ltac:(lia) C), (bc_per_u m f B j ltac:(lia) C), (inc_eu _ _ _ _ _ _ _ I j ltac:(lia) C).
    rewrite (inc_u _ _ _ _ _ _ _ I) by (rewrite P; cbn; tauto). reflexivity.
  - exfalso. apply N. rewrite C. cbn. tauto.
  - exfalso. apply N. rewrite C. cbn. tauto.
  - rewrite (inc_u0 _ _ _ _ _ _ _ I c) by (rewrite C; cbn; tauto). lra.
Qed.

Lemma con_V i j a : 0 <= i <= nx m -> 0 <= j < nz m -> ~ In (tv m (Vi m i j)) [11; 13; -12] ->
  con (negb (tv m (Vi m i j) =? 30), V (Vi m i j), a) = (a * Dl (V (Vi m i j)))%R.
Proof.
  intros Hi Hj N. unfold contrib, delta. cbn [type_of col_of].
  pose proof (ok_v m T i j Hi Hj) as C. remember (Vi m i j) as c eqn:Ec.
  codes C; rewrite C; unfold to_rhs; cbn [Z.eqb Pos.eqb orb negb andb].
  - rewrite (inc_v _ _ _ _ _ _ _ I c) by (rewrite C; cbn; tauto). reflexivity.
  - rewrite (inc_v0 _ _ _ _ _ _ _ I c) by (rewrite C; cbn; tauto). lra.
  - rewrite (inc_v _ _ _ _ _ _ _ I c) by (rewrite C; cbn; tauto). reflexivity.
  - exfalso. apply N. rewrite C. cbn. tauto.
  - exfalso. apply N. rewrite C. cbn. tauto.
  - exfalso. apply N. rewrite C. cbn. tauto.
  - rewrite (inc_v0 _ _ _ _ _ _ _ I c) by (rewrite C; cbn; tauto). lra.
Qed.

Lemma con_P i j a : 0 <= i < nx m - 1 -> 0 <= j < nz m - 1 ->
  con (negb (tp m (Pi m i j) =? 30), P (Pi m i j), a) = (a * Dl (P (Pi m i j)))%R.
Proof.
  intros Hi Hj. unfold contrib, delta. cbn [type_of col_of].
  pose proof (ok_p m T i j Hi Hj) as C. remember (Pi m i j) as c eqn:Ec.
  codes C; rewrite C; unfold to_rhs; cbn [Z.eqb Pos.eqb orb negb andb].
  - rewrite (proj1 (inc_p _ _ _ _ _ _ _ I c C)). reflexivity.
  - rewrite (proj1 (inc_p0 _ _ _ _ _ _ _ I c ltac:(rewrite C; lia))). lra.
  - rewrite (proj1 (inc_p0 _ _ _ _ _ _ _ I c ltac:(rewrite C; lia))). lra.
Qed.

Lemma con_set b s t a : s = true -> con (b && s, t, a) = con (b, t, a).
Proof. intros ->. now rewrite andb_true_r. Qed.
Lemma con_unset b s t a : s = false -> con (b && s, t, a) = 0%R.
Proof. intros ->. now rewrite andb_false_r. Qed.
Lemma con_zero b t : con (b, t, 0%R) = 0%R.
Proof. unfold contrib. destruct (b && _); lra. Qed.

(** ** Index arithmetic *)
Lemma Pi_mod i j : 0 <= i < nx m - 1 -> Pi m i j mod ncx m = i /\ Pi m i j / ncx m = j.
Proof.
  intros Hi. unfold Pi, ncx. split.
  - rewrite Z.mod_add by lia. apply Z.mod_small. lia.
  - rewrite Z.div_add by lia. rewrite Z.div_small by lia. lia.
Qed.
Lemma Ui_mod i j : 0 <= i < nx m -> Ui m i j mod nx m = i /\ Ui m i j / nx m = j.
Proof.
  intros Hi. unfold Ui. split.
  - rewrite Z.mod_add by lia. apply Z.mod_small. lia.
  - rewrite Z.div_add by lia. rewrite Z.div_small by lia. lia.
Qed.

(** ** Changes of the stresses *)
Local Open Scope R_scope.
(** Factor of the total divergence. *)
Notation third := (cp m * OOP m / 3).

Lemma cell_dvx_eq u i j : (0 <= i < nx m - 1)%Z ->
  cell_dvx m u (Pi m i j) = (u (Ui m (i + 1) (j + 1)) - u (Ui m i (j + 1))) / dx m.
Proof.
  intros Hi. unfold cell_dvx. destruct (Pi_mod i j Hi) as [-> ->]. cbv zeta. unfold Ui.
  f_equal. f_equal; f_equal; ring.
Qed.
Lemma cell_dvz_eq v i j : (0 <= i < nx m - 1)%Z ->
  cell_dvz m v (Pi m i j) = (v (Vi m (i + 1) (j + 1)) - v (Vi m (i + 1) j)) / dz m.
Proof.
  intros Hi. unfold cell_dvz. destruct (Pi_mod i j Hi) as [-> ->]. cbv zeta. unfold Vi.
  f_equal. f_equal; f_equal; ring.
Qed.

Definition dex (i j : Z) : R := (Dl (U (Ui m (i + 1) (j + 1))) - Dl (U (Ui m i (j + 1)))) / dx m.
Definition dez (i j : Z) : R := (Dl (V (Vi m (i + 1) (j + 1))) - Dl (V (Vi m (i + 1) j))) / dz m.

Lemma OOP_val : OOP m = 1 + b2R (oop m) * / 2.
Proof. unfold OOP, b2R. destruct (oop m); lra. Qed.

Lemma d_div i j : (0 <= i < nx m - 1)%Z -> air (tp m (Pi m i j)) = false ->
  div_u m f' (Pi m i j) - div_u m f (Pi m i j) = OOP m * (dex i j + dez i j).
Proof.
  intros Hi A. unfold div_u. rewrite A, !cell_dvx_eq, !cell_dvz_eq, OOP_val by exact Hi. unfold dex, dez, delta. field.
  split; [apply (ok_dz m T)|apply (ok_dx m T)].
Qed.

Lemma d_sxx i j : (0 <= i < nx m - 1)%Z ->
  sxxd m f' (Pi m i j) - sxxd m f (Pi m i j) = D11 m (Pi m i j) * (dex i j - third * (dex i j + dez i j)).
Proof.
  intros Hi. unfold sxxd, exxd, D11. destruct (air (tp m (Pi m i j))) eqn:A; [ring|].
  pose proof (d_div i j Hi A) as D. rewrite !cell_dvx_eq by exact Hi.
  replace (div_u m f' (Pi m i j)) with (div_u m f (Pi m i j) + OOP m * (dex i j + dez i j)) by lra.
  unfold cp, dex, delta. field. apply (ok_dx m T).
Qed.
Lemma d_szz i j : (0 <= i < nx m - 1)%Z ->
  szzd m f' (Pi m i j) - szzd m f (Pi m i j) = D22 m (Pi m i j) * (dez i j - third * (dex i j + dez i j)).
Proof.
  intros Hi. unfold szzd, ezzd, D22. destruct (air (tp m (Pi m i j))) eqn:A; [ring|].
  pose proof (d_div i j Hi A) as D. rewrite !cell_dvz_eq by exact Hi.
  replace (div_u m f' (Pi m i j)) with (div_u m f (Pi m i j) + OOP m * (dex i j + dez i j)) by lra.
  unfold cp, dez, delta. field. apply (ok_dz m T).
Qed.
Lemma d_sxz i j : (0 <= i < nx m)%Z ->
  sxz m f' (Ui m i j) - sxz m f (Ui m i j) =
  D33 m (Ui m i j) * ((Dl (U (Ui m i (j + 1))) - Dl (U (Ui m i j))) / dz m + (Dl (V (Vi m (i + 1) j)) - Dl (V (Vi m i j))) / dx m).
Proof.
  intros Hi. unfold sxz, exz, D33. destruct (Ui_mod i j Hi) as [-> ->]. cbv zeta.
  change (i + j * nx m)%Z with (Ui m i j).
  replace (Ui m i j + nx m)%Z with (Ui m i (j + 1)) by (unfold Ui; ring).
  replace (i + j * (nx m + 1) + 1)%Z with (Vi m (i + 1) j) by (unfold Vi; ring).
  change (i + j * (nx m + 1))%Z with (Vi m i j).
  destruct (Z.eqb (tg m (Ui m i j)) 30); [ring|]. unfold delta. field.
  split; [apply (ok_dx m T)|apply (ok_dz m T)].
Qed.

(** Flags. *)
Lemma D11_in i j : (0 <= i < nx m - 1)%Z -> (0 <= j < nz m - 1)%Z ->
  D11 m (Pi m i j) = 0 \/ eqt (tp m (Pi m i j)) (-1) = 1.
Proof.
  intros Hi Hj. pose proof (ok_p m T i j Hi Hj) as C. unfold D11, eqt, air.
  codes C; rewrite C; cbn; tauto.
Qed.
Lemma D33_in c : D33 m c = 0 \/ 1 - eqt (tg m c) 30 = 1.
Proof. unfold D33, eqt. destruct (Z.eqb (tg m c) 30); cbn; [now left|right; ring]. Qed.
End Inc.
