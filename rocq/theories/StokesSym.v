(** Symmetry and dissipation of the velocity block, and transposition of the
    gradient and divergence blocks. *)
From Coq Require Import ZArith Reals List Bool Lia Lra Psatz.
Import ListNotations.
From Verif Require Import StokesModel StokesProofs StokesX StokesZ.
Local Open Scope R_scope.

(** ** Specification *)
(** Sum of [f 0 .. f (n-1)]. *)
Fixpoint sum (n : nat) (f : Z -> R) : R := match n with O => 0 | S k => sum k f + f (Z.of_nat k) end.
Definition sumZ (n : Z) (f : Z -> R) : R := sum (Z.to_nat n) f.

Section Spec.
Variables (m : mesh) (eu ev ep : Z -> Z).
(** Velocity unknowns that own an equation. *)
Definition unk_u c : bool := (tu m c =? -1)%Z || (tu m c =? -2)%Z.
Definition unk_v c : bool := (tv m c =? -1)%Z.
(** [w . A z]: the power of the vector [z]'s forces on the vector [w], rows of the
    velocity nodes of the grid. *)
Definition power (w z : Z -> R) : R :=
  sumZ (nx m) (fun i => sumZ (nz m + 1) (fun j =>
    if unk_u (Ui m i j) then w (eu (Ui m i j)) * row_dot eu ev ep (x_row m i j) z else 0)) +
  sumZ (nx m + 1) (fun i => sumZ (nz m) (fun j =>
    if unk_v (Vi m i j) then w (ev (Vi m i j)) * row_dot eu ev ep (z_row m i j) z else 0)).
(** [p . C z], rows of the active cells. *)
Definition flux (p z : Z -> R) : R :=
  sumZ (nx m - 1) (fun i => sumZ (nz m - 1) (fun j =>
    if (tp m (Pi m i j) =? -1)%Z then p (ep (Pi m i j)) * row_dot eu ev ep (c_row m i j) z else 0)).

(** Sides are closed (prescribed or free-slip) or periodic; no stress boundary.
    Periodic sides carry the same viscosity. *)
Record sides_ok : Prop := {
  si_u : forall c, tu m c <> 2%Z; si_v : forall c, tv m c <> 2%Z;
  si_per : forall j, (0 <= j < nz m)%Z -> (tv m (Vi m 0 j) = (-12)%Z <-> tv m (Vi m (nx m) j) = (-12)%Z);
  si_eta : forall j, (0 <= j < nz m)%Z ->
    tv m (Vi m 0 j) = (-12)%Z \/ (exists j', (j' = j \/ j' = j + 1)%Z /\ (0 < j' < nz m)%Z /\ tu m (Ui m 0 j') = (-2)%Z) ->
    D33 m (Ui m 0 j) = D33 m (Ui m (nx m - 1) j) }.
(** Periodic nodes share their partner's equation number. *)
Definition shared : Prop := forall j, (0 <= j <= nz m)%Z -> tu m (Ui m (nx m - 1) j) = (-12)%Z -> eu (Ui m (nx m - 1) j) = eu (Ui m 0 j).
(** A velocity vector: nothing on the pressure equations. *)
Definition velocity_vector (z : Z -> R) : Prop := forall c, z (ep c) = 0.
(** A pressure vector: nothing on the momentum equations. *)
Definition pressure_vector (q : Z -> R) : Prop := forall c, q (eu c) = 0 /\ q (ev c) = 0.
(** No face of an active cell lies in the air. *)
Definition faces_ok : Prop := forall i j, (0 <= i < nx m - 1)%Z -> (0 <= j < nz m - 1)%Z -> tp m (Pi m i j) = (-1)%Z ->
  tu m (Ui m i (j + 1)) <> 30%Z /\ tu m (Ui m (i + 1) (j + 1)) <> 30%Z /\
  tv m (Vi m (i + 1) j) <> 30%Z /\ tv m (Vi m (i + 1) (j + 1)) <> 30%Z.
End Spec.

(** ** Sums *)
Lemma sum_ext n f g : (forall i, (0 <= i < Z.of_nat n)%Z -> f i = g i) -> sum n f = sum n g.
Proof. induction n as [|n IH]; intros H; [reflexivity|]. cbn [sum]. rewrite IH, H; [reflexivity|lia|]. intros; apply H; lia. Qed.
Lemma sumZ_ext n f g : (forall i, (0 <= i < n)%Z -> f i = g i) -> sumZ n f = sumZ n g.
Proof. intros H. apply sum_ext. intros i Hi. apply H. lia. Qed.
Lemma sum_plus n f g : sum n (fun i => f i + g i) = sum n f + sum n g.
Proof. induction n as [|n IH]; cbn [sum]; [ring|]. rewrite IH. ring. Qed.
Lemma sumZ_plus n f g : sumZ n (fun i => f i + g i) = sumZ n f + sumZ n g.
Proof. apply sum_plus. Qed.
Lemma sum_scal n k f : sum n (fun i => k * f i) = k * sum n f.
Proof. induction n as [|n IH]; cbn [sum]; [ring|]. rewrite IH. ring. Qed.
Lemma sumZ_scal n k f : sumZ n (fun i => k * f i) = k * sumZ n f.
Proof. apply sum_scal. Qed.
Lemma sum_zero n f : (forall i, (0 <= i < Z.of_nat n)%Z -> f i = 0) -> sum n f = 0.
Proof. induction n as [|n IH]; intros H; [reflexivity|]. cbn [sum]. rewrite IH, H; [ring|lia|]. intros; apply H; lia. Qed.
Lemma sum_swap n k f : sum n (fun i => sum k (fun j => f i j)) = sum k (fun j => sum n (fun i => f i j)).
Proof.
  induction n as [|n IH]; cbn [sum]; [now rewrite sum_zero|]. rewrite IH. symmetry. apply sum_plus.
Qed.
Lemma sumZ_swap n k f : sumZ n (fun i => sumZ k (fun j => f i j)) = sumZ k (fun j => sumZ n (fun i => f i j)).
Proof. apply sum_swap. Qed.
Lemma sumZ_nonneg n f : (forall i, (0 <= i < n)%Z -> 0 <= f i) -> 0 <= sumZ n f.
Proof.
  unfold sumZ. intros H. assert (H' : forall i, (0 <= i < Z.of_nat (Z.to_nat n))%Z -> 0 <= f i) by (intros; apply H; lia).
  clear H. induction (Z.to_nat n) as [|k IH]; cbn [sum]; [lra|].
  pose proof (H' (Z.of_nat k) ltac:(lia)). assert (0 <= sum k f) by (apply IH; intros; apply H'; lia). lra.
Qed.
Lemma sumZ_last n f : (0 <= n)%Z -> sumZ (n + 1) f = sumZ n f + f n.
Proof. intros H. unfold sumZ. replace (Z.to_nat (n + 1)) with (S (Z.to_nat n)) by lia. cbn [sum]. now rewrite Z2Nat.id. Qed.
Lemma sum_first n f : sum (S n) f = f 0%Z + sum n (fun i => f (i + 1)%Z).
Proof.
  induction n as [|n IH]; [cbn; ring|]. change (sum (S (S n)) f) with (sum (S n) f + f (Z.of_nat (S n))).
  rewrite IH. cbn [sum]. replace (Z.of_nat (S n)) with (Z.of_nat n + 1)%Z by lia. ring.
Qed.
Lemma sumZ_first n f : (0 < n)%Z -> sumZ n f = f 0%Z + sumZ (n - 1) (fun i => f (i + 1)%Z).
Proof. intros H. unfold sumZ. replace (Z.to_nat n) with (S (Z.to_nat (n - 1))) by lia. apply sum_first. Qed.

(** Summation by parts with matching ends. *)
Lemma sum_abel n a s t : (forall i, (0 < i < Z.of_nat n)%Z -> t i = s (i - 1)%Z) ->
  sum n (fun i => a i * (s i - t i)) = - sum n (fun c => s c * (a (c + 1)%Z - a c)) + (if n then 0 else a (Z.of_nat n) * s (Z.of_nat n - 1)%Z - a 0%Z * t 0%Z).
Proof.
  induction n as [|n IH]; intros H; [cbn; ring|].
  cbn [sum]. rewrite IH by (intros; apply H; lia). destruct n as [|n]; [cbn; ring|].
  rewrite (H (Z.of_nat (S n))) by lia.
  replace (Z.of_nat (S (S n)) - 1)%Z with (Z.of_nat (S n)) by lia.
  replace (Z.of_nat (S n) + 1)%Z with (Z.of_nat (S (S n))) by lia. ring.
Qed.
Lemma sumZ_abel n a s t : (0 < n)%Z -> (forall i, (0 < i < n)%Z -> t i = s (i - 1)%Z) ->
  a n * s (n - 1)%Z = a 0%Z * t 0%Z ->
  sumZ n (fun i => a i * (s i - t i)) = - sumZ n (fun c => s c * (a (c + 1)%Z - a c)).
Proof.
  intros Hn H E. unfold sumZ. rewrite sum_abel by (intros; apply H; lia).
  destruct (Z.to_nat n) as [|k] eqn:K; [lia|]. replace (Z.of_nat (S k)) with n by lia. lra.
Qed.
(** Ends at zero: sum over one more node. *)
Lemma sumZ_abel0 n a s : (0 <= n)%Z -> a 0%Z = 0 -> a n = 0 ->
  sumZ (n + 1) (fun i => a i * (s i - s (i - 1)%Z)) = - sumZ n (fun c => s c * (a (c + 1)%Z - a c)).
Proof.
  intros Hn A0 An. rewrite sumZ_last by lia. rewrite An, Rmult_0_l, Rplus_0_r.
  destruct (Z.eq_dec n 0) as [->|N]; [cbn; ring|]. apply sumZ_abel; [lia|reflexivity|]. rewrite A0, An. ring.
Qed.

(** ** The vector as a velocity field *)
Section Sym.
Variables (m : mesh) (eu ev ep : Z -> Z).
Hypothesis T : tags_ok m.
Hypothesis Sd : sides_ok m.
Hypothesis Sh : shared m eu.

(** The same mesh with homogeneous boundary values. *)
Definition hom : mesh := {|
  nx := nx m; nz := nz m; dx := dx m; dz := dz m; tu := tu m; tv := tv m; tp := tp m; tg := tg m;
  eta_n := eta_n m; eta_s := eta_s m; exx0 := exx0 m; ezz0 := ezz0 m; exz0 := exz0 m;
  valu := fun _ => 0; valv := fun _ => 0; rho_n := rho_n m; gx := gx m; gz := gz m;
  comp := comp m; oop := oop m; stab := stab m; om := om m; dt := dt m; bx := bx m; bz := bz m;
  ccomp := ccomp m; bet := bet m; p0 := p0 m; bp := bp m |}.
Lemma hom_tags : tags_ok hom. Proof. destruct T. split; assumption. Qed.

Definition own_u z c : R := if (tu m c =? -1)%Z || (tu m c =? -2)%Z || (tu m c =? -12)%Z then z (eu c) else 0.
Definition ext_u z c : R :=
  let nb := if (c <? nx m)%Z then (c + nx m)%Z else (c - nx m)%Z in
  if (tu m c =? 13)%Z then own_u z nb else if (tu m c =? 11)%Z then - own_u z nb else own_u z c.
Definition own_v z c : R := if (tv m c =? -1)%Z then z (ev c) else 0.
Definition ext_v z c : R :=
  let w := (c mod (nx m + 1) =? 0)%Z in
  let nb := if w then (c + 1)%Z else (c - 1)%Z in
  let far := if w then (c + (nx m - 1))%Z else (c - (nx m - 1))%Z in
  if (tv m c =? 13)%Z then own_v z nb else if (tv m c =? 11)%Z then - own_v z nb
  else if (tv m c =? -12)%Z then own_v z far else own_v z c.
Definition field (z : Z -> R) : fields :=
  let p := fun c => if (tp m c =? -1)%Z then z (ep c) else 0 in
  {| fu := ext_u z; fv := ext_v z; fp := p; fpc := p |}.
Definition zero : fields := {| fu := fun _ => 0; fv := fun _ => 0; fp := fun _ => 0; fpc := fun _ => 0 |}.

Lemma ext_u_own z c : tu m c <> 13%Z -> tu m c <> 11%Z -> ext_u z c = own_u z c.
Proof. intros H1 H2. unfold ext_u. now rewrite (proj2 (Z.eqb_neq _ _) H1), (proj2 (Z.eqb_neq _ _) H2). Qed.
Lemma ext_v_own z c : tv m c <> 13%Z -> tv m c <> 11%Z -> tv m c <> (-12)%Z -> ext_v z c = own_v z c.
Proof. intros H1 H2 H3. unfold ext_v. now rewrite (proj2 (Z.eqb_neq _ _) H1), (proj2 (Z.eqb_neq _ _) H2), (proj2 (Z.eqb_neq _ _) H3). Qed.
Lemma eu_in z i j : (0 <= i < nx m)%Z -> (0 < j < nz m)%Z -> ext_u z (Ui m i j) = own_u z (Ui m i j).
Proof.
  intros Hi Hj. pose proof (u_inner_code m T i j Hi Hj) as N. cbn [In] in N. apply ext_u_own; intuition.
Qed.
Lemma ev_in z i j : (0 < i < nx m)%Z -> (0 <= j < nz m)%Z -> ext_v z (Vi m i j) = own_v z (Vi m i j).
Proof.
  intros Hi Hj. pose proof (v_inner_code m T i j Hi Hj) as N. cbn [In] in N. apply ext_v_own; intuition.
Qed.
Lemma Vi_mod i j : (0 <= i <= nx m)%Z -> (Vi m i j mod (nx m + 1) = i)%Z.
Proof. intros Hi. unfold Vi. rewrite Z.mod_add by lia. apply Z.mod_small. lia. Qed.

Lemma zero_bc : bc_ok hom zero.
Proof. split; intros; cbn; repeat split; intros; lra. Qed.
Lemma field_bc z : bc_ok hom (field z).
Proof.
  pose proof (ok_nx m T) as Hnx. pose proof (ok_nz m T) as Hnz.
  split; cbn [hom nx nz tu tv valu valv field fu fv]; change (Ui hom) with (Ui m); change (Vi hom) with (Vi m).
  - intros i Hi. assert (N : (Ui m i 0 <? nx m)%Z = true) by (unfold Ui; lia).
    rewrite (eu_in z i 1) by lia. replace (Ui m i 1) with (Ui m i 0 + nx m)%Z by (unfold Ui; ring).
    unfold ext_u. split; intros E; rewrite E, N; cbn [Z.eqb Pos.eqb]; [reflexivity|ring].
  - intros i Hi. assert (N : (Ui m i (nz m) <? nx m)%Z = false) by (unfold Ui; nia).
    rewrite (eu_in z i (nz m - 1)) by lia. replace (Ui m i (nz m - 1)) with (Ui m i (nz m) - nx m)%Z by (unfold Ui; ring).
    unfold ext_u. split; intros E; rewrite E, N; cbn [Z.eqb Pos.eqb]; [reflexivity|ring].
  - intros j Hj E. destruct (ok_u_east m T (nx m - 1) j ltac:(lia) Hj E) as (_ & Hj' & E0).
    rewrite !ext_u_own by (rewrite ?E, ?E0; lia). unfold own_u. rewrite E, E0. cbn [Z.eqb Pos.eqb orb]. f_equal. now apply Sh.
  - intros j Hj. assert (N : (Vi m 0 j mod (nx m + 1) =? 0)%Z = true) by (rewrite Vi_mod; lia).
    rewrite (ev_in z 1 j), (ev_in z (nx m - 1) j) by lia. replace (Vi m 1 j) with (Vi m 0 j + 1)%Z by (unfold Vi; ring).
    replace (Vi m (nx m - 1) j) with (Vi m 0 j + (nx m - 1))%Z by (unfold Vi; ring).
    unfold ext_v. repeat split; intros E; rewrite E, N; cbn [Z.eqb Pos.eqb]; [reflexivity|ring|reflexivity].
  - intros j Hj. assert (N : (Vi m (nx m) j mod (nx m + 1) =? 0)%Z = false) by (rewrite Vi_mod; lia).
    rewrite (ev_in z 1 j), (ev_in z (nx m - 1) j) by lia. replace (Vi m (nx m - 1) j) with (Vi m (nx m) j - 1)%Z by (unfold Vi; ring).
    replace (Vi m 1 j) with (Vi m (nx m) j - (nx m - 1))%Z by (unfold Vi; ring).
    unfold ext_v. repeat split; intros E; rewrite E, N; cbn [Z.eqb Pos.eqb]; [reflexivity|ring|reflexivity].
Qed.
Lemma field_inc z : incremented hom eu ev ep z zero (field z).
Proof.
  split; cbn [hom nx nz tu tv tp field zero fu fv fp fpc].
  - intros c H. cbn [In] in H. destruct H as [H|[H|[H|[]]]]; symmetry in H.
    + rewrite ext_u_own by (rewrite H; lia). unfold own_u. rewrite H. cbn. ring.
    + now apply (si_u m Sd) in H.
    + rewrite ext_u_own by (rewrite H; lia). unfold own_u. rewrite H. cbn. ring.
  - intros c H. cbn [In] in H. destruct H as [H|[H|[H|[]]]]; symmetry in H;
      rewrite ext_u_own by (rewrite H; lia); unfold own_u; rewrite H; reflexivity.
  - intros c H. cbn [In] in H. destruct H as [H|[H|[]]]; symmetry in H.
    + rewrite ext_v_own by (rewrite H; lia). unfold own_v. rewrite H. cbn. ring.
    + now apply (si_v m Sd) in H.
  - intros c H. cbn [In] in H. destruct H as [H|[H|[H|[]]]]; symmetry in H;
      rewrite ext_v_own by (rewrite H; lia); unfold own_v; rewrite H; reflexivity.
  - intros c H. rewrite H. cbn. split; ring.
  - intros c H. rewrite (proj2 (Z.eqb_neq _ _) H). auto.
  - exact Sh.
Qed.

(** ** Row times vector as divergence of the stress *)
Definition u z i j := ext_u z (Ui m i j).
Definition v z i j := ext_v z (Vi m i j).
Definition p z i j := if (tp m (Pi m i j) =? -1)%Z then z (ep (Pi m i j)) else 0.
Definition ex z i j := (u z (i + 1)%Z (j + 1)%Z - u z i (j + 1)%Z) / dx m.
Definition ez z i j := (v z (i + 1)%Z (j + 1)%Z - v z (i + 1)%Z j) / dz m.
Definition third := cp m * OOP m / 3.
Definition sx z i j := D11 m (Pi m i j) * (ex z i j - third * (ex z i j + ez z i j)).
Definition sz z i j := D22 m (Pi m i j) * (ez z i j - third * (ex z i j + ez z i j)).
Definition gam z i j := (u z i (j + 1)%Z - u z i j) / dz m + (v z (i + 1)%Z j - v z i j) / dx m.
Definition tau z i j := D33 m (Ui m i j) * gam z i j.
(** Column of the cell to the west of Vx node [i]. *)
Definition wc i j : Z := if (tu m (Ui m i j) =? -2)%Z then (nx m - 2)%Z else (i - 1)%Z.

Lemma x_val z i j : (0 <= i < nx m)%Z -> (0 < j < nz m)%Z -> unk_u m (Ui m i j) = true ->
  row_dot eu ev ep (x_row m i j) z =
  - celvol m * ((sx z i (j - 1) - sx z (wc i j) (j - 1)) / dx m - (p z i (j - 1) - p z (wc i j) (j - 1)) / dx m
               + (tau z i j - tau z i (j - 1)) / dz m - x_corr m i j * u z i j).
Proof.
  intros Hi Hj K. pose proof (ok_nx m T) as Hnx.
  assert (Ty : tu m (Ui m i j) = (-1)%Z \/ tu m (Ui m i j) = (-2)%Z).
  { unfold unk_u in K. apply orb_prop in K. destruct K as [K|K]; apply Z.eqb_eq in K; tauto. }
  assert (Hin : In (tu m (Ui m i j)) [-1; 2; -2]%Z) by (cbn; intuition).
  assert (N2 : (tu m (Ui m i j) =? 2)%Z = false) by (destruct Ty as [->| ->]; reflexivity).
  change (x_row m i j) with (x_row hom i j).
  rewrite <- (x_linearisation hom eu ev ep z zero (field z) hom_tags zero_bc (field_bc z) (field_inc z) i j Hi Hj Hin).
  unfold x_residual. replace (SxxW hom i j) with 0 by (unfold SxxW; change (tu hom (xc1 hom i j)) with (tu m (Ui m i j)); rewrite N2, andb_false_r; reflexivity).
  replace (SxxE hom i j) with 0 by (unfold SxxE; change (tu hom (xc1 hom i j)) with (tu m (Ui m i j)); rewrite N2, andb_false_r; reflexivity).
  rewrite (x_PE hom i j), (x_yS hom i j), (x_yN hom i j).
  assert (EW : xPrW hom i j = Pi m (wc i j) (j - 1) /\ (0 <= wc i j < nx m - 1)%Z /\ (i < nx m - 1)%Z).
  { unfold xPrW, per, wc. change (tu hom (xc1 hom i j)) with (tu m (Ui m i j)). unfold xc2, ncx, Pi. cbn [hom nx].
    destruct Ty as [Ty|Ty]; rewrite Ty; cbn [Z.eqb Pos.eqb].
    - pose proof (ok_u_inner m T i j Hi ltac:(lia) Ty). repeat split; lia.
    - destruct (ok_u_west m T i j Hi ltac:(lia) Ty) as (-> & _). repeat split; lia. }
  destruct EW as (-> & Hw & Hi').
  change (Pi hom) with (Pi m). change (Ui hom) with (Ui m).
  pose proof (d_sxx hom zero (field z) hom_tags i (j - 1) ltac:(cbn [hom nx]; lia)) as A1.
  pose proof (d_sxx hom zero (field z) hom_tags (wc i j) (j - 1) ltac:(cbn [hom nx]; lia)) as A2.
  pose proof (d_sxz hom zero (field z) hom_tags i j ltac:(cbn [hom nx]; lia)) as A3.
  pose proof (d_sxz hom zero (field z) hom_tags i (j - 1) ltac:(cbn [hom nx]; lia)) as A4.
  change (Pi hom) with (Pi m) in *. change (Ui hom) with (Ui m) in *. change (Vi hom) with (Vi m) in *.
  assert (E1 : sxxd hom (field z) (Pi m i (j - 1)) = sxxd hom zero (Pi m i (j - 1)) + sx z i (j - 1)).
  { unfold sx. revert A1. unfold dex, dez, delta, ex, ez, u, v, third. cbn [hom nx dx dz field zero fu fv].
    change (Ui hom) with (Ui m); change (Vi hom) with (Vi m). change (D11 hom) with (D11 m). change (cp hom) with (cp m). change (OOP hom) with (OOP m).
    rewrite !Rminus_0_r. intros A1. lra. }
  assert (E2 : sxxd hom (field z) (Pi m (wc i j) (j - 1)) = sxxd hom zero (Pi m (wc i j) (j - 1)) + sx z (wc i j) (j - 1)).
  { unfold sx. revert A2. unfold dex, dez, delta, ex, ez, u, v, third. cbn [hom nx dx dz field zero fu fv].
    change (Ui hom) with (Ui m); change (Vi hom) with (Vi m). change (D11 hom) with (D11 m). change (cp hom) with (cp m). change (OOP hom) with (OOP m).
    rewrite !Rminus_0_r. intros A2. lra. }
  assert (E3 : sxz hom (field z) (Ui m i j) = sxz hom zero (Ui m i j) + tau z i j).
  { unfold tau. revert A3. unfold delta, gam, u, v. cbn [hom nx dx dz field zero fu fv]. change (D33 hom) with (D33 m). rewrite !Rminus_0_r. intros A3. lra. }
  assert (E4 : sxz hom (field z) (Ui m i (j - 1)) = sxz hom zero (Ui m i (j - 1)) + tau z i (j - 1)).
  { unfold tau. revert A4. unfold delta, gam, u, v. cbn [hom nx dx dz field zero fu fv]. change (D33 hom) with (D33 m). rewrite !Rminus_0_r. intros A4. lra. }
  rewrite E1, E2, E3, E4. cbn [hom dx dz bx field zero fu fpc]. change (celvol hom) with (celvol m).
  change (x_corr hom i j) with (x_corr m i j). change (xc1 hom i j) with (Ui m i j). unfold u, p.
  field. split; [apply (ok_dz m T)|apply (ok_dx m T)].
Qed.

Lemma z_val z i j : (0 < i < nx m)%Z -> (0 <= j < nz m)%Z -> unk_v m (Vi m i j) = true ->
  row_dot eu ev ep (z_row m i j) z =
  - celvol m * ((sz z (i - 1) j - sz z (i - 1) (j - 1)) / dz m - (p z (i - 1) j - p z (i - 1) (j - 1)) / dz m
               + (tau z i j - tau z (i - 1) j) / dx m - z_corr m i j * v z i j).
Proof.
  intros Hi Hj K. apply Z.eqb_eq in K.
  assert (Hin : In (tv m (Vi m i j)) [-1; 2]%Z) by (cbn; intuition).
  assert (N2 : (tv m (Vi m i j) =? 2)%Z = false) by (rewrite K; reflexivity).
  change (z_row m i j) with (z_row hom i j).
  rewrite <- (z_linearisation hom eu ev ep z zero (field z) hom_tags zero_bc (field_bc z) (field_inc z) i j Hi Hj Hin).
  unfold z_residual. replace (SzzS hom i j) with 0 by (unfold SzzS; change (tv hom (zc3 hom i j)) with (tv m (Vi m i j)); rewrite N2, andb_false_r; reflexivity).
  replace (SzzN hom i j) with 0 by (unfold SzzN; change (tv hom (zc3 hom i j)) with (tv m (Vi m i j)); rewrite N2, andb_false_r; reflexivity).
  rewrite (z_PN hom i j), (z_PS hom i j), (z_yE hom i j), (z_yW hom i j).
  pose proof (d_szz hom zero (field z) hom_tags (i - 1) j ltac:(cbn [hom nx]; lia)) as A1.
  pose proof (d_szz hom zero (field z) hom_tags (i - 1) (j - 1) ltac:(cbn [hom nx]; lia)) as A2.
  pose proof (d_sxz hom zero (field z) hom_tags i j ltac:(cbn [hom nx]; lia)) as A3.
  pose proof (d_sxz hom zero (field z) hom_tags (i - 1) j ltac:(cbn [hom nx]; lia)) as A4.
  change (Pi hom) with (Pi m) in *. change (Ui hom) with (Ui m) in *. change (Vi hom) with (Vi m) in *.
  assert (E1 : szzd hom (field z) (Pi m (i - 1) j) = szzd hom zero (Pi m (i - 1) j) + sz z (i - 1) j).
  { unfold sz. revert A1. unfold dex, dez, delta, ex, ez, u, v, third. cbn [hom nx dx dz field zero fu fv].
    change (Ui hom) with (Ui m); change (Vi hom) with (Vi m). change (D22 hom) with (D22 m). change (cp hom) with (cp m). change (OOP hom) with (OOP m).
    rewrite !Rminus_0_r. intros A1. lra. }
  assert (E2 : szzd hom (field z) (Pi m (i - 1) (j - 1)) = szzd hom zero (Pi m (i - 1) (j - 1)) + sz z (i - 1) (j - 1)).
  { unfold sz. revert A2. unfold dex, dez, delta, ex, ez, u, v, third. cbn [hom nx dx dz field zero fu fv].
    change (Ui hom) with (Ui m); change (Vi hom) with (Vi m). change (D22 hom) with (D22 m). change (cp hom) with (cp m). change (OOP hom) with (OOP m).
    rewrite !Rminus_0_r. intros A2. lra. }
  assert (E3 : sxz hom (field z) (Ui m i j) = sxz hom zero (Ui m i j) + tau z i j).
  { unfold tau. revert A3. unfold delta, gam, u, v. cbn [hom nx dx dz field zero fu fv]. change (D33 hom) with (D33 m). rewrite !Rminus_0_r. intros A3. lra. }
  assert (E4 : sxz hom (field z) (Ui m (i - 1) j) = sxz hom zero (Ui m (i - 1) j) + tau z (i - 1) j).
  { unfold tau. revert A4. unfold delta, gam, u, v. cbn [hom nx dx dz field zero fu fv]. change (D33 hom) with (D33 m). rewrite !Rminus_0_r. intros A4. lra. }
  rewrite E1, E2, E3, E4. cbn [hom dx dz bz field zero fv fpc]. change (celvol hom) with (celvol m).
  change (z_corr hom i j) with (z_corr m i j). change (zc3 hom i j) with (Vi m i j). unfold v, p.
  field. split; [apply (ok_dx m T)|apply (ok_dz m T)].
Qed.

(** ** Masked velocities: zero unless the node owns an equation *)
Definition hu w i j := if unk_u m (Ui m i j) then w (eu (Ui m i j)) else 0.
Definition hv w i j := if unk_v m (Vi m i j) then w (ev (Vi m i j)) else 0.

Lemma hu_u w i j : (0 <= i < nx m - 1)%Z -> (0 < j < nz m)%Z -> hu w i j = u w i j.
Proof.
  intros Hi Hj. unfold u. rewrite eu_in by lia. unfold hu, own_u, unk_u.
  destruct (Z.eqb_spec (tu m (Ui m i j)) (-12)) as [E|E].
  - destruct (ok_u_east m T i j ltac:(lia) ltac:(lia) E); lia.
  - now rewrite orb_false_r.
Qed.
Lemma hu_east w j : (0 <= j <= nz m)%Z -> hu w (nx m - 1) j = 0.
Proof.
  intros Hj. pose proof (ok_nx m T). unfold hu, unk_u. destruct (Z.eqb_spec (tu m (Ui m (nx m - 1) j)) (-1)) as [E|E]; cbn [orb].
  - destruct (ok_u_inner m T (nx m - 1) j ltac:(lia) Hj E); lia.
  - destruct (Z.eqb_spec (tu m (Ui m (nx m - 1) j)) (-2)) as [E'|E']; [|reflexivity].
    destruct (ok_u_west m T (nx m - 1) j ltac:(lia) Hj E'); lia.
Qed.
Lemma hu_ends w i j : (0 <= i < nx m)%Z -> j = 0%Z \/ j = nz m -> hu w i j = 0.
Proof.
  intros Hi Hj. pose proof (ok_nz m T). unfold hu, unk_u. destruct (Z.eqb_spec (tu m (Ui m i j)) (-1)) as [E|E]; cbn [orb].
  - destruct (ok_u_inner m T i j Hi ltac:(lia) E); lia.
  - destruct (Z.eqb_spec (tu m (Ui m i j)) (-2)) as [E'|E']; [|reflexivity].
    destruct (ok_u_west m T i j Hi ltac:(lia) E'); lia.
Qed.
Lemma hv_v w i j : (0 < i < nx m)%Z -> (0 <= j < nz m)%Z -> hv w i j = v w i j.
Proof. intros Hi Hj. unfold v. rewrite ev_in by lia. reflexivity. Qed.
Lemma hv_ends w i j : (0 <= i <= nx m)%Z -> (0 <= j < nz m)%Z -> i = 0%Z \/ i = nx m \/ j = 0%Z \/ j = (nz m - 1)%Z -> hv w i j = 0.
Proof.
  intros Hi Hj E. unfold hv, unk_v. destruct (Z.eqb_spec (tv m (Vi m i j)) (-1)) as [E1|E1]; [|reflexivity].
  destruct (ok_v_inner m T i j Hi Hj E1); lia.
Qed.

(** Row [j] of Vx: the west neighbour of the periodic node is the last cell. *)
Lemma x_normal w (s : Z -> Z -> R) j : (0 < j < nz m)%Z ->
  sumZ (nx m) (fun i => hu w i j * (s i (j - 1)%Z - s (wc i j) (j - 1)%Z)) =
  - sumZ (nx m - 1) (fun c => s c (j - 1)%Z * (u w (c + 1)%Z j - u w c j)).
Proof.
  intros Hj. pose proof (ok_nx m T) as Hnx.
  replace (nx m) with (nx m - 1 + 1)%Z at 1 by lia. rewrite sumZ_last by lia. rewrite hu_east by lia. rewrite Rmult_0_l, Rplus_0_r.
  rewrite (sumZ_ext _ (fun i => hu w i j * (s i (j - 1)%Z - s (wc i j) (j - 1)%Z)) (fun i => u w i j * (s i (j - 1)%Z - s (wc i j) (j - 1)%Z)))
    by (intros i Hi; now rewrite hu_u by lia).
  apply (sumZ_abel (nx m - 1) (fun i => u w i j) (fun i => s i (j - 1)%Z) (fun i => s (wc i j) (j - 1)%Z)); [lia| |].
  - intros i Hi. cbv beta. f_equal. unfold wc. destruct (Z.eqb_spec (tu m (Ui m i j)) (-2)) as [E|E]; [|reflexivity].
    destruct (ok_u_west m T i j ltac:(lia) ltac:(lia) E); lia.
  - cbv beta. unfold u. rewrite !eu_in by lia. unfold wc, own_u.
    pose proof (ok_u m T 0 j ltac:(lia) ltac:(lia)) as C0. pose proof (ok_u m T (nx m - 1) j ltac:(lia) ltac:(lia)) as C1.
    destruct (Z.eq_dec (tu m (Ui m 0 j)) (-2)) as [E|E].
    + rewrite (ok_u_west_partner m T j Hj E), E. cbn [Z.eqb Pos.eqb orb].
      rewrite (Sh j ltac:(lia) (ok_u_west_partner m T j Hj E)). replace (nx m - 1 - 1)%Z with (nx m - 2)%Z by lia. reflexivity.
    + replace (tu m (Ui m 0 j) =? -1)%Z with false by (symmetry; apply Z.eqb_neq; intros K; destruct (ok_u_inner m T 0 j ltac:(lia) ltac:(lia) K); lia).
      replace (tu m (Ui m 0 j) =? -12)%Z with false by (symmetry; apply Z.eqb_neq; intros K; destruct (ok_u_east m T 0 j ltac:(lia) ltac:(lia) K); lia).
      rewrite (proj2 (Z.eqb_neq _ _) E). cbn [orb].
      replace (tu m (Ui m (nx m - 1) j) =? -1)%Z with false by (symmetry; apply Z.eqb_neq; intros K; destruct (ok_u_inner m T (nx m - 1) j ltac:(lia) ltac:(lia) K); lia).
      replace (tu m (Ui m (nx m - 1) j) =? -12)%Z with false by (symmetry; apply Z.eqb_neq; intros K; destruct (ok_u_east m T (nx m - 1) j ltac:(lia) ltac:(lia) K) as (_ & _ & K'); contradiction).
      replace (tu m (Ui m (nx m - 1) j) =? -2)%Z with false by (symmetry; apply Z.eqb_neq; intros K; destruct (ok_u_west m T (nx m - 1) j ltac:(lia) ltac:(lia) K); lia).
      cbn [orb]. ring.
Qed.
Lemma z_normal w (s : Z -> Z -> R) i : (0 < i < nx m)%Z ->
  sumZ (nz m) (fun j => hv w i j * (s (i - 1)%Z j - s (i - 1)%Z (j - 1)%Z)) =
  - sumZ (nz m - 1) (fun c => s (i - 1)%Z c * (v w i (c + 1)%Z - v w i c)).
Proof.
  intros Hi. pose proof (ok_nz m T) as Hnz.
  replace (nz m) with (nz m - 1 + 1)%Z at 1 by lia.
  rewrite (sumZ_abel0 (nz m - 1) (fun j => hv w i j) (fun j => s (i - 1)%Z j)); [| lia | apply hv_ends; lia | apply hv_ends; lia].
  f_equal. apply sumZ_ext. intros c Hc. cbv beta. now rewrite !hv_v by lia.
Qed.
(** Shear: each vertex collects its four neighbours. *)
Definition hgam w i j := (hu w i (j + 1)%Z - hu w i j) / dz m + (hv w (i + 1)%Z j - hv w i j) / dx m.
Lemma x_shear w (t : Z -> Z -> R) i : (0 <= i < nx m)%Z ->
  sumZ (nz m + 1) (fun j => hu w i j * (t i j - t i (j - 1)%Z)) = - sumZ (nz m) (fun c => t i c * (hu w i (c + 1)%Z - hu w i c)).
Proof.
  intros Hi. pose proof (ok_nz m T). apply (sumZ_abel0 (nz m) (fun j => hu w i j) (fun j => t i j)); [lia| |]; apply hu_ends; lia.
Qed.
Lemma z_shear w (t : Z -> Z -> R) j : (0 <= j < nz m)%Z ->
  sumZ (nx m + 1) (fun i => hv w i j * (t i j - t (i - 1)%Z j)) = - sumZ (nx m) (fun c => t c j * (hv w (c + 1)%Z j - hv w c j)).
Proof.
  intros Hj. pose proof (ok_nx m T). apply (sumZ_abel0 (nx m) (fun i => hv w i j) (fun i => t i j)); [lia| |]; apply hv_ends; lia.
Qed.

(** ** The power as a sum over cells and vertices *)
Lemma sumZ_opp n f : sumZ n (fun i => - f i) = - sumZ n f.
Proof. rewrite <- (Rmult_1_l (sumZ n f)), <- Ropp_mult_distr_l_reverse, <- sumZ_scal. apply sumZ_ext. intros; ring. Qed.
Lemma sumZ_zero n f : (forall i, (0 <= i < n)%Z -> f i = 0) -> sumZ n f = 0.
Proof. intros H. apply sum_zero. intros i Hi. apply H. lia. Qed.

Lemma x_normal_total w (s : Z -> Z -> R) :
  sumZ (nx m) (fun i => sumZ (nz m + 1) (fun j => hu w i j * (s i (j - 1)%Z - s (wc i j) (j - 1)%Z))) =
  - sumZ (nx m - 1) (fun i => sumZ (nz m - 1) (fun j => s i j * (ex w i j * dx m))).
Proof.
  pose proof (ok_nx m T) as Hnx. pose proof (ok_nz m T) as Hnz. pose proof (ok_dx m T) as Hdx.
  rewrite sumZ_swap. rewrite sumZ_last by lia.
  rewrite (sumZ_zero (nx m)) by (intros i Hi; rewrite hu_ends by lia; ring). rewrite Rplus_0_r.
  rewrite sumZ_first by lia. rewrite (sumZ_zero (nx m)) by (intros i Hi; rewrite hu_ends by lia; ring). rewrite Rplus_0_l.
  rewrite (sumZ_ext _ _ (fun j => - sumZ (nx m - 1) (fun c => s c j * (ex w c j * dx m)))).
  - rewrite sumZ_opp. f_equal. apply sumZ_swap.
  - intros j Hj. cbv beta. rewrite x_normal by lia. f_equal. apply sumZ_ext. intros c Hc. cbv beta.
    replace (j + 1 - 1)%Z with j by lia. unfold ex. field. exact Hdx.
Qed.
Lemma z_normal_total w (s : Z -> Z -> R) :
  sumZ (nx m + 1) (fun i => sumZ (nz m) (fun j => hv w i j * (s (i - 1)%Z j - s (i - 1)%Z (j - 1)%Z))) =
  - sumZ (nx m - 1) (fun i => sumZ (nz m - 1) (fun j => s i j * (ez w i j * dz m))).
Proof.
  pose proof (ok_nx m T) as Hnx. pose proof (ok_nz m T) as Hnz. pose proof (ok_dz m T) as Hdz.
  rewrite sumZ_last by lia. rewrite (sumZ_zero (nz m)) by (intros i Hi; rewrite hv_ends by lia; ring). rewrite Rplus_0_r.
  rewrite sumZ_first by lia. rewrite (sumZ_zero (nz m)) by (intros i Hi; rewrite hv_ends by lia; ring). rewrite Rplus_0_l.
  rewrite <- sumZ_opp. apply sumZ_ext. intros i Hi. cbv beta.
  replace (sumZ (nz m) _) with (sumZ (nz m) (fun j => hv w (i + 1) j * (s (i + 1 - 1)%Z j - s (i + 1 - 1)%Z (j - 1)%Z))) by reflexivity.
  rewrite z_normal by lia. f_equal. apply sumZ_ext. intros c Hc. cbv beta.
  replace (i + 1 - 1)%Z with i by lia. unfold ez. field. exact Hdz.
Qed.
Lemma shear_total w (t : Z -> Z -> R) :
  sumZ (nx m) (fun i => sumZ (nz m + 1) (fun j => hu w i j * (t i j - t i (j - 1)%Z))) / dz m +
  sumZ (nx m + 1) (fun i => sumZ (nz m) (fun j => hv w i j * (t i j - t (i - 1)%Z j))) / dx m =
  - sumZ (nx m) (fun i => sumZ (nz m) (fun j => t i j * hgam w i j)).
Proof.
  rewrite (sumZ_ext (nx m) (fun i => sumZ (nz m + 1) _) (fun i => - sumZ (nz m) (fun c => t i c * (hu w i (c + 1)%Z - hu w i c))))
    by (intros i Hi; now apply x_shear).
  rewrite (sumZ_swap (nx m + 1)).
  rewrite (sumZ_ext (nz m) (fun j => sumZ (nx m + 1) _) (fun j => - sumZ (nx m) (fun c => t c j * (hv w (c + 1)%Z j - hv w c j))))
    by (intros j Hj; now apply z_shear).
  rewrite !sumZ_opp. rewrite (sumZ_swap (nz m)).
  unfold Rdiv. rewrite !Ropp_mult_distr_l_reverse, <- Ropp_plus_distr. f_equal.
  rewrite !(Rmult_comm _ (/ _)), <- !sumZ_scal, <- sumZ_plus. apply sumZ_ext. intros i Hi. cbv beta.
  rewrite <- !sumZ_scal, <- sumZ_plus. apply sumZ_ext. intros j Hj. cbv beta. unfold hgam.
  field. split; [apply (ok_dx m T)|apply (ok_dz m T)].
Qed.

Definition cells (w z : Z -> R) : R := sumZ (nx m - 1) (fun i => sumZ (nz m - 1) (fun j => sx z i j * ex w i j + sz z i j * ez w i j)).
Definition press (w z : Z -> R) : R := sumZ (nx m - 1) (fun i => sumZ (nz m - 1) (fun j => p z i j * (ex w i j + ez w i j))).
Definition verts (w z : Z -> R) : R := sumZ (nx m) (fun i => sumZ (nz m) (fun j => tau z i j * hgam w i j)).
Definition corrs (w z : Z -> R) : R :=
  sumZ (nx m) (fun i => sumZ (nz m + 1) (fun j => x_corr m i j * (hu w i j * hu z i j))) +
  sumZ (nx m + 1) (fun i => sumZ (nz m) (fun j => z_corr m i j * (hv w i j * hv z i j))).

Lemma sum2_plus n k f g : sumZ n (fun i => sumZ k (fun j => f i j + g i j)) = sumZ n (fun i => sumZ k (fun j => f i j)) + sumZ n (fun i => sumZ k (fun j => g i j)).
Proof. rewrite <- sumZ_plus. apply sumZ_ext. intros; apply sumZ_plus. Qed.
Lemma sum2_scal n k a f : sumZ n (fun i => sumZ k (fun j => a * f i j)) = a * sumZ n (fun i => sumZ k (fun j => f i j)).
Proof. rewrite <- sumZ_scal. apply sumZ_ext. intros; apply sumZ_scal. Qed.
Lemma sum2_ext n k f g : (forall i j, (0 <= i < n)%Z -> (0 <= j < k)%Z -> f i j = g i j) -> sumZ n (fun i => sumZ k (fun j => f i j)) = sumZ n (fun i => sumZ k (fun j => g i j)).
Proof. intros H. apply sumZ_ext. intros i Hi. apply sumZ_ext. intros j Hj. now apply H. Qed.

Lemma power_eq w z : power m eu ev ep w z = celvol m * (cells w z - press w z + verts w z + corrs w z).
Proof.
  pose proof (ok_nx m T) as Hnx. pose proof (ok_nz m T) as Hnz. pose proof (ok_dx m T) as Hdx. pose proof (ok_dz m T) as Hdz.
  unfold power.
  rewrite (sum2_ext (nx m) (nz m + 1) _ (fun i j =>
    - celvol m * (/ dx m * (hu w i j * (sx z i (j - 1)%Z - sx z (wc i j) (j - 1)%Z)))
    + (celvol m * (/ dx m * (hu w i j * (p z i (j - 1)%Z - p z (wc i j) (j - 1)%Z)))
    + (- celvol m * (/ dz m * (hu w i j * (tau z i j - tau z i (j - 1)%Z)))
    + celvol m * (x_corr m i j * (hu w i j * hu z i j)))))).
  2:{ intros i j Hi Hj. unfold hu at 1 2 3 4. destruct (unk_u m (Ui m i j)) eqn:K; [|ring].
      assert (Hj' : (0 < j < nz m)%Z).
      { destruct (Z.eq_dec j 0) as [Q|Q]; [|destruct (Z.eq_dec j (nz m)) as [Q'|Q']; [|lia]].
        - unfold unk_u in K. apply orb_prop in K. destruct K as [K|K]; apply Z.eqb_eq in K;
            [destruct (ok_u_inner m T i j Hi ltac:(lia) K)|destruct (ok_u_west m T i j Hi ltac:(lia) K)]; lia.
        - unfold unk_u in K. apply orb_prop in K. destruct K as [K|K]; apply Z.eqb_eq in K;
            [destruct (ok_u_inner m T i j Hi ltac:(lia) K)|destruct (ok_u_west m T i j Hi ltac:(lia) K)]; lia. }
      rewrite x_val by assumption.
      assert (Hi' : (0 <= i < nx m - 1)%Z).
      { unfold unk_u in K. apply orb_prop in K. destruct K as [K|K]; apply Z.eqb_eq in K;
            [destruct (ok_u_inner m T i j Hi ltac:(lia) K)|destruct (ok_u_west m T i j Hi ltac:(lia) K)]; lia. }
      rewrite <- (hu_u z i j) by lia. field. auto. }
  rewrite (sum2_ext (nx m + 1) (nz m) _ (fun i j =>
    - celvol m * (/ dz m * (hv w i j * (sz z (i - 1)%Z j - sz z (i - 1)%Z (j - 1)%Z)))
    + (celvol m * (/ dz m * (hv w i j * (p z (i - 1)%Z j - p z (i - 1)%Z (j - 1)%Z)))
    + (- celvol m * (/ dx m * (hv w i j * (tau z i j - tau z (i - 1)%Z j)))
    + celvol m * (z_corr m i j * (hv w i j * hv z i j)))))).
  2:{ intros i j Hi Hj. unfold hv at 1 2 3 4. destruct (unk_v m (Vi m i j)) eqn:K; [|ring].
      pose proof K as K'. apply Z.eqb_eq in K'. destruct (ok_v_inner m T i j ltac:(lia) Hj K') as (Hi' & Hj').
      rewrite z_val by assumption. rewrite <- (hv_v z i j) by lia. field. auto. }
  rewrite !sum2_plus, !sum2_scal, !x_normal_total, !z_normal_total.
  pose proof (shear_total w (tau z)) as ST.
  set (XS := sumZ (nx m) (fun i => sumZ (nz m + 1) (fun j => hu w i j * (tau z i j - tau z i (j - 1)%Z)))) in *.
  set (ZS := sumZ (nx m + 1) (fun i => sumZ (nz m) (fun j => hv w i j * (tau z i j - tau z (i - 1)%Z j)))) in *.
  fold (verts w z) in ST.
  assert (CE : cells w z = / dx m * sumZ (nx m - 1) (fun i => sumZ (nz m - 1) (fun j => sx z i j * (ex w i j * dx m)))
                         + / dz m * sumZ (nx m - 1) (fun i => sumZ (nz m - 1) (fun j => sz z i j * (ez w i j * dz m)))).
  { unfold cells. rewrite <- !sum2_scal, <- sum2_plus. apply sum2_ext. intros. field. auto. }
  assert (PE : press w z = / dx m * sumZ (nx m - 1) (fun i => sumZ (nz m - 1) (fun j => p z i j * (ex w i j * dx m)))
                         + / dz m * sumZ (nx m - 1) (fun i => sumZ (nz m - 1) (fun j => p z i j * (ez w i j * dz m)))).
  { unfold press. rewrite <- !sum2_scal, <- sum2_plus. apply sum2_ext. intros. field. auto. }
  unfold corrs. replace (verts w z) with (- (XS / dz m + ZS / dx m)) by lra. rewrite CE, PE. field. auto.
Qed.

(** ** Symmetry of the vertex part *)
Lemma closed_u j : (0 <= j < nz m)%Z -> tv m (Vi m 0 j) <> (-12)%Z ->
  (D33 m (Ui m 0 j) = 0 /\ D33 m (Ui m (nx m - 1) j) = 0) \/
  (forall w j', (j' = j \/ j' = j + 1)%Z -> (0 < j' < nz m)%Z -> u w 0 j' = 0 /\ u w (nx m - 1) j' = 0 /\ hu w 0 j' = 0).
Proof.
  intros Hj Nv. pose proof (ok_nx m T) as Hnx.
  assert (Q : forall j', (j' = j \/ j' = j + 1)%Z -> (0 < j' < nz m)%Z -> tu m (Ui m 0 j') = (-2)%Z -> D33 m (Ui m 0 j) = 0 /\ D33 m (Ui m (nx m - 1) j) = 0).
  { intros j' Ej Hj' K. destruct (ok_periodic m T j' Hj' K j ltac:(lia)) as [G|G]; [|contradiction].
    assert (D0 : D33 m (Ui m 0 j) = 0) by (unfold D33; rewrite G; reflexivity). split; [exact D0|].
    rewrite <- (si_eta m Sd j Hj), D0; [reflexivity|]. right. exists j'. auto. }
  assert (D : forall j', {tu m (Ui m 0 j') = (-2)%Z} + {tu m (Ui m 0 j') <> (-2)%Z}) by (intros; apply Z.eq_dec).
  assert (Z0 : forall j', (0 < j' < nz m)%Z -> tu m (Ui m 0 j') <> (-2)%Z -> forall w, u w 0 j' = 0 /\ u w (nx m - 1) j' = 0 /\ hu w 0 j' = 0).
  { intros j' Hj' N2 w.
    assert (N1 : tu m (Ui m 0 j') <> (-1)%Z) by (intros K; destruct (ok_u_inner m T 0 j' ltac:(lia) ltac:(lia) K); lia).
    assert (N12 : tu m (Ui m 0 j') <> (-12)%Z) by (intros K; destruct (ok_u_east m T 0 j' ltac:(lia) ltac:(lia) K); lia).
    assert (M2 : tu m (Ui m (nx m - 1) j') <> (-2)%Z) by (intros K; destruct (ok_u_west m T (nx m - 1) j' ltac:(lia) ltac:(lia) K); lia).
    assert (M1 : tu m (Ui m (nx m - 1) j') <> (-1)%Z) by (intros K; destruct (ok_u_inner m T (nx m - 1) j' ltac:(lia) ltac:(lia) K); lia).
    assert (M12 : tu m (Ui m (nx m - 1) j') <> (-12)%Z).
    { intros K. destruct (ok_u_east m T (nx m - 1) j' ltac:(lia) ltac:(lia) K) as (_ & _ & K'). contradiction. }
    unfold u, hu, unk_u. rewrite !eu_in by lia. unfold own_u.
    apply Z.eqb_neq in N1, N2, N12, M1, M2, M12. rewrite N1, N2, N12, M1, M2, M12. auto. }
  destruct (Z_lt_dec 0 j) as [H0|H0]; destruct (Z_lt_dec (j + 1) (nz m)) as [H1|H1].
  - destruct (D j) as [K|K]; [left; apply (Q j); lia || assumption|]. destruct (D (j + 1)%Z) as [K'|K']; [left; apply (Q (j + 1)%Z); lia || assumption|].
    right. intros w j' [-> | ->] Hj'; now apply Z0.
  - destruct (D j) as [K|K]; [left; apply (Q j); lia || assumption|]. right. intros w j' [-> | ->] Hj'; [now apply Z0|lia].
  - destruct (D (j + 1)%Z) as [K|K]; [left; apply (Q (j + 1)%Z); lia || assumption|]. right. intros w j' [-> | ->] Hj'; [lia|now apply Z0].
  - right. intros w j' [-> | ->] Hj'; lia.
Qed.

Lemma v_side z i j : (0 <= j < nz m)%Z -> i = 0%Z \/ i = nx m ->
  v z i j = let nb := if (i =? 0)%Z then v z 1 j else v z (nx m - 1) j in
            let far := if (i =? 0)%Z then v z (nx m - 1) j else v z 1 j in
            if (tv m (Vi m i j) =? 13)%Z then nb else if (tv m (Vi m i j) =? 11)%Z then - nb
            else if (tv m (Vi m i j) =? -12)%Z then far else 0.
Proof.
  intros Hj Hi. pose proof (ok_nx m T) as Hnx. unfold v. rewrite !(ev_in z 1 j), !(ev_in z (nx m - 1) j) by lia.
  assert (E0 : own_v z (Vi m i j) = 0).
  { unfold own_v. destruct (Z.eqb_spec (tv m (Vi m i j)) (-1)) as [K|K]; [|reflexivity].
    destruct (ok_v_inner m T i j ltac:(lia) Hj K); lia. }
  unfold ext_v. rewrite (Vi_mod i j) by lia. rewrite E0. cbv zeta. destruct Hi as [-> | ->].
  - cbn [Z.eqb]. replace (Vi m 0 j + 1)%Z with (Vi m 1 j) by (unfold Vi; ring).
    replace (Vi m 0 j + (nx m - 1))%Z with (Vi m (nx m - 1) j) by (unfold Vi; ring). reflexivity.
  - replace (nx m =? 0)%Z with false by lia. replace (Vi m (nx m) j - 1)%Z with (Vi m (nx m - 1) j) by (unfold Vi; ring).
    replace (Vi m (nx m) j - (nx m - 1))%Z with (Vi m 1 j) by (unfold Vi; ring). reflexivity.
Qed.
Lemma v_ends z i j : (0 <= i <= nx m)%Z -> j = 0%Z \/ j = (nz m - 1)%Z -> v z i j = 0.
Proof.
  intros Hi Hj. pose proof (ok_nx m T) as Hnx. pose proof (ok_nz m T) as Hnz.
  assert (Q : forall i', (0 < i' < nx m)%Z -> v z i' j = 0).
  { intros i' Hi'. rewrite <- hv_v by lia. apply hv_ends; lia. }
  destruct (Z.eq_dec i 0) as [E|E]; [|destruct (Z.eq_dec i (nx m)) as [E'|E']; [|apply Q; lia]].
  - rewrite v_side by lia. cbv zeta. rewrite !Q by lia. destruct (i =? 0)%Z, (tv m (Vi m i j) =? 13)%Z, (tv m (Vi m i j) =? 11)%Z, (tv m (Vi m i j) =? -12)%Z; ring.
  - rewrite v_side by lia. cbv zeta. rewrite !Q by lia. destruct (i =? 0)%Z, (tv m (Vi m i j) =? 13)%Z, (tv m (Vi m i j) =? 11)%Z, (tv m (Vi m i j) =? -12)%Z; ring.
Qed.
Lemma v_west j : (0 <= j < nz m)%Z -> tv m (Vi m 0 j) <> (-12)%Z -> exists k, 0 <= k /\ forall z, v z 1 j - v z 0 j = k * v z 1 j.
Proof.
  intros Hj N. apply Z.eqb_neq in N.
  destruct (Z.eqb_spec (tv m (Vi m 0 j)) 13) as [E|E]; [exists 0|destruct (Z.eqb_spec (tv m (Vi m 0 j)) 11) as [E'|E']; [exists 2|exists 1]];
  (split; [lra|]; intros z; rewrite (v_side z 0 j) by lia; cbv zeta; cbn [Z.eqb]).
  - rewrite E. cbn. ring.
  - rewrite E'. cbn. ring.
  - apply Z.eqb_neq in E, E'. rewrite E, E', N. ring.
Qed.
Lemma v_east j : (0 <= j < nz m)%Z -> tv m (Vi m (nx m) j) <> (-12)%Z -> exists k, 0 <= k /\ forall z, v z (nx m) j - v z (nx m - 1) j = - k * v z (nx m - 1) j.
Proof.
  intros Hj N. apply Z.eqb_neq in N. pose proof (ok_nx m T) as Hnx. assert (Q : (nx m =? 0)%Z = false) by lia.
  destruct (Z.eqb_spec (tv m (Vi m (nx m) j)) 13) as [E|E]; [exists 0|destruct (Z.eqb_spec (tv m (Vi m (nx m) j)) 11) as [E'|E']; [exists 2|exists 1]];
  (split; [lra|]; intros z; rewrite (v_side z (nx m) j) by lia; cbv zeta; rewrite Q).
  - rewrite E. cbn. ring.
  - rewrite E'. cbn. ring.
  - apply Z.eqb_neq in E, E'. rewrite E, E', N. ring.
Qed.
Lemma u_south i : (0 <= i < nx m)%Z -> exists k, 0 <= k /\ forall z, u z i 1 - u z i 0 = k * u z i 1.
Proof.
  intros Hi. pose proof (ok_nz m T) as Hnz. unfold u.
  assert (Nb : (Ui m i 0 <? nx m)%Z = true) by (unfold Ui; lia).
  assert (Nb' : (Ui m i 0 + nx m)%Z = Ui m i 1) by (unfold Ui; ring).
  assert (E0 : forall z, own_u z (Ui m i 0) = 0).
  { intros z. unfold own_u. destruct (Z.eqb_spec (tu m (Ui m i 0)) (-1)) as [K|K]; [destruct (ok_u_inner m T i 0 Hi ltac:(lia) K); lia|].
    destruct (Z.eqb_spec (tu m (Ui m i 0)) (-2)) as [K'|K']; [destruct (ok_u_west m T i 0 Hi ltac:(lia) K'); lia|].
    destruct (Z.eqb_spec (tu m (Ui m i 0)) (-12)) as [K2|K2]; [destruct (ok_u_east m T i 0 Hi ltac:(lia) K2); lia|]. reflexivity. }
  destruct (Z.eqb_spec (tu m (Ui m i 0)) 13) as [E|E]; [exists 0|destruct (Z.eqb_spec (tu m (Ui m i 0)) 11) as [E'|E']; [exists 2|exists 1]];
  (split; [lra|]; intros z; rewrite (eu_in z i 1) by lia; unfold ext_u; rewrite Nb, Nb').
  - rewrite E. cbn. ring.
  - rewrite E'. cbn. ring.
  - apply Z.eqb_neq in E, E'. rewrite E, E', E0. ring.
Qed.
Lemma u_north i : (0 <= i < nx m)%Z -> exists k, 0 <= k /\ forall z, u z i (nz m) - u z i (nz m - 1) = - k * u z i (nz m - 1).
Proof.
  intros Hi. pose proof (ok_nz m T) as Hnz. unfold u.
  assert (Nb : (Ui m i (nz m) <? nx m)%Z = false) by (unfold Ui; nia).
  assert (Nb' : (Ui m i (nz m) - nx m)%Z = Ui m i (nz m - 1)) by (unfold Ui; ring).
  assert (E0 : forall z, own_u z (Ui m i (nz m)) = 0).
  { intros z. unfold own_u. destruct (Z.eqb_spec (tu m (Ui m i (nz m))) (-1)) as [K|K]; [destruct (ok_u_inner m T i (nz m) Hi ltac:(lia) K); lia|].
    destruct (Z.eqb_spec (tu m (Ui m i (nz m))) (-2)) as [K'|K']; [destruct (ok_u_west m T i (nz m) Hi ltac:(lia) K'); lia|].
    destruct (Z.eqb_spec (tu m (Ui m i (nz m))) (-12)) as [K2|K2]; [destruct (ok_u_east m T i (nz m) Hi ltac:(lia) K2); lia|]. reflexivity. }
  destruct (Z.eqb_spec (tu m (Ui m i (nz m))) 13) as [E|E]; [exists 0|destruct (Z.eqb_spec (tu m (Ui m i (nz m))) 11) as [E'|E']; [exists 2|exists 1]];
  (split; [lra|]; intros z; rewrite (eu_in z i (nz m - 1)) by lia; unfold ext_u; rewrite Nb, Nb').
  - rewrite E. cbn. ring.
  - rewrite E'. cbn. ring.
  - apply Z.eqb_neq in E, E'. rewrite E, E', E0. ring.
Qed.

(** A form that is symmetric, and non-negative for non-negative viscosity. *)
Definition good (F : (Z -> R) -> (Z -> R) -> R) : Prop :=
  (forall w z, F w z = F z w) /\ ((forall c, 0 <= D33 m c) -> forall w, 0 <= F w w).
Lemma good_ext F G : (forall w z, F w z = G w z) -> good G -> good F.
Proof. intros E (S1 & S2). split; intros; rewrite !E; auto. Qed.
Lemma good_plus F G : good F -> good G -> good (fun w z => F w z + G w z).
Proof. intros (S1 & S2) (S3 & S4). split; [intros; now rewrite S1, S3|]. intros H w. specialize (S2 H w). specialize (S4 H w). lra. Qed.
Lemma good_sum n F : (forall i, (0 <= i < n)%Z -> good (F i)) -> good (fun w z => sumZ n (fun i => F i w z)).
Proof.
  intros H. split.
  - intros w z. apply sumZ_ext. intros i Hi. apply H. exact Hi.
  - intros Hv w. apply sumZ_nonneg. intros i Hi. now apply (proj2 (H i Hi)).
Qed.
Lemma good_sq c k (L : (Z -> R) -> R) : 0 <= k -> good (fun w z => D33 m c * (k * L z) * L w).
Proof.
  intros Hk. split; [intros; ring|]. intros H w. specialize (H c).
  replace (D33 m c * (k * L w) * L w) with (D33 m c * k * (L w * L w)) by ring.
  apply Rmult_le_pos; [now apply Rmult_le_pos|]. apply Rle_0_sqr.
Qed.
Lemma good_zero : good (fun _ _ => 0). Proof. split; [reflexivity|intros; lra]. Qed.

(** The strain rate seen by the stress is proportional to the one the node
    velocities do work on. *)
Lemma gam_ends i j : (0 <= i < nx m - 1)%Z -> j = 0%Z \/ j = (nz m - 1)%Z -> exists k, 0 <= k /\ forall z, gam z i j = k * hgam z i j.
Proof.
  intros Hi Hj. pose proof (ok_nx m T) as Hnx. pose proof (ok_nz m T) as Hnz. pose proof (ok_dx m T) as Hdx. pose proof (ok_dz m T) as Hdz.
  destruct Hj as [-> | ->].
  - destruct (u_south i ltac:(lia)) as (k & Hk & E). exists k. split; [exact Hk|]. intros z. unfold gam, hgam.
    rewrite !(v_ends z) by lia. rewrite !(hv_ends z) by lia. rewrite (hu_ends z i 0) by lia.
    replace (0 + 1)%Z with 1%Z by lia. rewrite hu_u by lia. rewrite E. field. auto.
  - destruct (u_north i ltac:(lia)) as (k & Hk & E). exists k. split; [exact Hk|]. intros z. unfold gam, hgam.
    rewrite !(v_ends z) by lia. rewrite !(hv_ends z) by lia. replace (nz m - 1 + 1)%Z with (nz m) by lia. rewrite (hu_ends z i (nz m)) by lia.
    rewrite hu_u by lia. rewrite E. field. auto.
Qed.
Lemma hgam_corner w j : j = 0%Z \/ j = (nz m - 1)%Z -> hgam w (nx m - 1) j = 0.
Proof.
  intros Hj. pose proof (ok_nx m T) as Hnx. pose proof (ok_nz m T) as Hnz. unfold hgam. rewrite !hu_east, !hv_ends by lia.
  unfold Rdiv. ring.
Qed.
Lemma gam_inner z i j : (0 < i < nx m - 1)%Z -> (0 < j < nz m - 1)%Z -> gam z i j = hgam z i j.
Proof. intros Hi Hj. unfold gam, hgam. rewrite !hu_u, !hv_v by lia. reflexivity. Qed.
Lemma row_good j : (0 <= j < nz m)%Z -> good (fun w z => sumZ (nx m) (fun i => tau z i j * hgam w i j)).
Proof.
  intros Hj. pose proof (ok_nx m T) as Hnx. pose proof (ok_nz m T) as Hnz. pose proof (ok_dx m T) as Hdx. pose proof (ok_dz m T) as Hdz.
  apply (good_ext _ (fun w z => (tau z 0 j * hgam w 0 j + tau z (nx m - 1) j * hgam w (nx m - 1) j)
                              + sumZ (nx m - 2) (fun i => tau z (i + 1) j * hgam w (i + 1) j))).
  { intros w z. rewrite sumZ_first by lia. replace (nx m - 1)%Z with (nx m - 2 + 1)%Z at 1 by lia.
    rewrite sumZ_last by lia. replace (nx m - 2 + 1)%Z with (nx m - 1)%Z by lia. ring. }
  apply good_plus.
  - destruct (Z.eq_dec j 0) as [J0|J0]; [|destruct (Z.eq_dec j (nz m - 1)) as [J1|J1]].
    + destruct (gam_ends 0 j ltac:(lia) ltac:(lia)) as (k & Hk & E).
      apply (good_ext _ (fun w z => D33 m (Ui m 0 j) * (k * hgam z 0 j) * hgam w 0 j)); [|now apply (good_sq _ k (fun q => hgam q 0 j))].
      intros w z. rewrite (hgam_corner w j) by lia. unfold tau. rewrite E. ring.
    + destruct (gam_ends 0 j ltac:(lia) ltac:(lia)) as (k & Hk & E).
      apply (good_ext _ (fun w z => D33 m (Ui m 0 j) * (k * hgam z 0 j) * hgam w 0 j)); [|now apply (good_sq _ k (fun q => hgam q 0 j))].
      intros w z. rewrite (hgam_corner w j) by lia. unfold tau. rewrite E. ring.
    + destruct (Z.eq_dec (tv m (Vi m 0 j)) (-12)) as [P|P].
      * assert (P' := proj1 (si_per m Sd j Hj) P). assert (DE := si_eta m Sd j Hj (or_introl P)).
        assert (UE : forall z j', (0 < j' < nz m)%Z -> j' = j \/ j' = (j + 1)%Z -> D33 m (Ui m 0 j) = 0 \/ u z (nx m - 1) j' = u z 0 j').
        { intros z j' Hj' _. right. unfold u. rewrite !eu_in by lia.
          destruct (Z.eq_dec (tu m (Ui m 0 j')) (-2)) as [K|K].
          - unfold own_u. rewrite K, (ok_u_west_partner m T j' Hj' K). cbn. f_equal. apply Sh; [lia|]. now apply (ok_u_west_partner m T).
          - unfold own_u.
            assert (N1 : tu m (Ui m 0 j') <> (-1)%Z) by (intros Q; destruct (ok_u_inner m T 0 j' ltac:(lia) ltac:(lia) Q); lia).
            assert (N12 : tu m (Ui m 0 j') <> (-12)%Z) by (intros Q; destruct (ok_u_east m T 0 j' ltac:(lia) ltac:(lia) Q); lia).
            assert (M2 : tu m (Ui m (nx m - 1) j') <> (-2)%Z) by (intros Q; destruct (ok_u_west m T (nx m - 1) j' ltac:(lia) ltac:(lia) Q); lia).
            assert (M1 : tu m (Ui m (nx m - 1) j') <> (-1)%Z) by (intros Q; destruct (ok_u_inner m T (nx m - 1) j' ltac:(lia) ltac:(lia) Q); lia).
            assert (M12 : tu m (Ui m (nx m - 1) j') <> (-12)%Z).
            { intros Q. destruct (ok_u_east m T (nx m - 1) j' ltac:(lia) ltac:(lia) Q) as (_ & _ & Q'). contradiction. }
            apply Z.eqb_neq in N1, K, N12, M1, M2, M12. rewrite N1, K, N12, M1, M2, M12. reflexivity. }
        assert (VW : forall z, v z 0 j = v z (nx m - 1) j) by (intros z; rewrite (v_side z 0 j) by lia; cbv zeta; rewrite P; reflexivity).
        assert (VE : forall z, v z (nx m) j = v z 1 j).
        { intros z. rewrite (v_side z (nx m) j) by lia. cbv zeta. rewrite P'. replace (nx m =? 0)%Z with false by lia. reflexivity. }
        apply (good_ext _ (fun w z => D33 m (Ui m 0 j) * (1 * (hgam z 0 j + hgam z (nx m - 1) j)) * (hgam w 0 j + hgam w (nx m - 1) j)));
          [|apply (good_sq _ 1 (fun q => hgam q 0 j + hgam q (nx m - 1) j)); lra].
        intros w z. unfold tau. rewrite <- DE.
        destruct (UE z j ltac:(lia) ltac:(lia)) as [D0|U0]; [rewrite D0; ring|].
        destruct (UE z (j + 1)%Z ltac:(lia) ltac:(lia)) as [D0|U1]; [rewrite D0; ring|].
        assert (G1 : gam z (nx m - 1) j = gam z 0 j).
        { unfold gam. rewrite U0, U1. replace (nx m - 1 + 1)%Z with (nx m) by lia. rewrite VE, VW. replace (0 + 1)%Z with 1%Z by lia. reflexivity. }
        assert (G0 : gam z 0 j = hgam z 0 j + hgam z (nx m - 1) j).
        { unfold gam, hgam. rewrite !hu_east by lia. rewrite (hv_ends z 0 j) by lia. replace (nx m - 1 + 1)%Z with (nx m) by lia.
          rewrite (hv_ends z (nx m) j) by lia. rewrite !hu_u, !hv_v by lia. rewrite VW. field. auto. }
        rewrite G1, G0. ring.
      * assert (P' : tv m (Vi m (nx m) j) <> (-12)%Z) by (intros Q; apply P; now apply (si_per m Sd j Hj)).
        destruct (closed_u j Hj P) as [(D0 & D1)|U0].
        { apply (good_ext _ (fun _ _ => 0)); [|apply good_zero]. intros w z. unfold tau. rewrite D0, D1. ring. }
        destruct (v_west j Hj P) as (kw & Hkw & EW). destruct (v_east j Hj P') as (ke & Hke & EE).
        apply good_plus.
        -- apply (good_ext _ (fun w z => D33 m (Ui m 0 j) * (kw * hgam z 0 j) * hgam w 0 j)); [|now apply (good_sq _ kw (fun q => hgam q 0 j))].
           intros w z. unfold tau. replace (gam z 0 j) with (kw * hgam z 0 j); [ring|].
           destruct (U0 z j ltac:(lia) ltac:(lia)) as (A1 & _ & A3). destruct (U0 z (j + 1)%Z ltac:(lia) ltac:(lia)) as (B1 & _ & B3).
           unfold gam, hgam. rewrite A1, A3, B1, B3. rewrite (hv_ends z 0 j) by lia. replace (0 + 1)%Z with 1%Z by lia.
           rewrite EW, hv_v by lia. field. auto.
        -- apply (good_ext _ (fun w z => D33 m (Ui m (nx m - 1) j) * (ke * hgam z (nx m - 1) j) * hgam w (nx m - 1) j));
             [|now apply (good_sq _ ke (fun q => hgam q (nx m - 1) j))].
           intros w z. unfold tau. replace (gam z (nx m - 1) j) with (ke * hgam z (nx m - 1) j); [ring|].
           destruct (U0 z j ltac:(lia) ltac:(lia)) as (_ & A2 & _). destruct (U0 z (j + 1)%Z ltac:(lia) ltac:(lia)) as (_ & B2 & _).
           unfold gam, hgam. rewrite A2, B2, !hu_east by lia. replace (nx m - 1 + 1)%Z with (nx m) by lia. rewrite (hv_ends z (nx m) j) by lia.
           rewrite EE, hv_v by lia. field. auto.
  - apply good_sum. intros i Hi. destruct (Z.eq_dec j 0) as [J0|J0]; [|destruct (Z.eq_dec j (nz m - 1)) as [J1|J1]].
    + destruct (gam_ends (i + 1) j ltac:(lia) ltac:(lia)) as (k & Hk & E).
      apply (good_ext _ (fun w z => D33 m (Ui m (i + 1) j) * (k * hgam z (i + 1) j) * hgam w (i + 1) j)); [|now apply (good_sq _ k (fun q => hgam q (i + 1)%Z j))].
      intros w z. unfold tau. rewrite E. ring.
    + destruct (gam_ends (i + 1) j ltac:(lia) ltac:(lia)) as (k & Hk & E).
      apply (good_ext _ (fun w z => D33 m (Ui m (i + 1) j) * (k * hgam z (i + 1) j) * hgam w (i + 1) j)); [|now apply (good_sq _ k (fun q => hgam q (i + 1)%Z j))].
      intros w z. unfold tau. rewrite E. ring.
    + apply (good_ext _ (fun w z => D33 m (Ui m (i + 1) j) * (1 * hgam z (i + 1) j) * hgam w (i + 1) j)); [|apply (good_sq _ 1 (fun q => hgam q (i + 1)%Z j)); lra].
      intros w z. unfold tau. rewrite gam_inner by lia. ring.
Qed.
Lemma verts_good : good verts.
Proof.
  apply (good_ext _ (fun w z => sumZ (nz m) (fun j => sumZ (nx m) (fun i => tau z i j * hgam w i j)))).
  - intros w z. unfold verts. apply sumZ_swap.
  - apply (good_sum (nz m) (fun j w z => sumZ (nx m) (fun i => tau z i j * hgam w i j))). intros j Hj. now apply row_good.
Qed.

(** ** Cells *)
Lemma cells_sym w z : cells w z = cells z w.
Proof. apply sum2_ext. intros i j _ _. unfold sx, sz. change (D22 m (Pi m i j)) with (D11 m (Pi m i j)). ring. Qed.
Lemma cells_nonneg w : (forall c, 0 <= eta_n m c) -> 0 <= cells w w.
Proof.
  intros H. unfold cells. apply sumZ_nonneg. intros i Hi. apply sumZ_nonneg. intros j Hj. unfold sx, sz. change (D22 m (Pi m i j)) with (D11 m (Pi m i j)).
  set (a := ex w i j). set (b := ez w i j).
  assert (Dp : 0 <= D11 m (Pi m i j)) by (unfold D11; destruct (air _); [lra|]; specialize (H (Pi m i j)); lra).
  assert (T1 : third = 0 \/ third = / 3 \/ third = / 2).
  { unfold third, cp, OOP, b2R. destruct (comp m), (oop m); lra. }
  replace (D11 m (Pi m i j) * (a - third * (a + b)) * a + D11 m (Pi m i j) * (b - third * (a + b)) * b)
    with (D11 m (Pi m i j) * (a * a + b * b - third * ((a + b) * (a + b)))) by ring.
  apply Rmult_le_pos; [exact Dp|].
  assert (0 <= (a - b) * (a - b)) by apply Rle_0_sqr. assert (0 <= (a + b) * (a + b)) by apply Rle_0_sqr.
  destruct T1 as [-> | [-> | ->]]; nra.
Qed.
Lemma corrs_sym w z : corrs w z = corrs z w.
Proof. unfold corrs. f_equal; apply sum2_ext; intros; ring. Qed.

Lemma press_zero w z : velocity_vector ep z -> press w z = 0.
Proof.
  intros H. unfold press. apply sumZ_zero. intros i Hi. apply sumZ_zero. intros j Hj. unfold p. destruct (_ =? -1)%Z; [rewrite H|]; ring.
Qed.

Lemma power_sym w z : velocity_vector ep w -> velocity_vector ep z -> power m eu ev ep w z = power m eu ev ep z w.
Proof.
  intros Hw Hz. rewrite !power_eq, !press_zero by assumption.
  rewrite (cells_sym w z), (corrs_sym w z), (proj1 verts_good w z). reflexivity.
Qed.
Lemma power_nonneg w : velocity_vector ep w -> 0 <= celvol m -> stab m = false ->
  (forall c, 0 <= eta_n m c) -> (forall c, 0 <= eta_s m c) -> 0 <= power m eu ev ep w w.
Proof.
  intros Hw Hc Hs He Hes. rewrite power_eq, press_zero by assumption.
  assert (V := proj2 verts_good). assert (HD : forall c, 0 <= D33 m c) by (intros c; unfold D33; destruct (_ =? 30)%Z; [lra|apply Hes]).
  specialize (V HD w). pose proof (cells_nonneg w He).
  assert (corrs w w = 0).
  { unfold corrs. rewrite (sum2_ext _ _ _ (fun _ _ => 0)); [rewrite (sum2_ext (nx m + 1) _ _ (fun _ _ => 0))|].
    - rewrite !(sumZ_zero _ (fun _ => sumZ _ _)); [ring| |]; intros; now apply sumZ_zero.
    - intros. unfold z_corr. rewrite Hs. ring.
    - intros. unfold x_corr. rewrite Hs. ring. }
  apply Rmult_le_pos; lra.
Qed.

(** ** Gradient and divergence *)
Definition hom1 : mesh := {|
  nx := nx m; nz := nz m; dx := dx m; dz := dz m; tu := tu m; tv := tv m; tp := tp m; tg := tg m;
  eta_n := eta_n m; eta_s := eta_s m; exx0 := exx0 m; ezz0 := ezz0 m; exz0 := exz0 m;
  valu := fun _ => 0; valv := fun _ => 0; rho_n := rho_n m; gx := gx m; gz := gz m;
  comp := comp m; oop := oop m; stab := stab m; om := om m; dt := 1; bx := bx m; bz := bz m;
  ccomp := ccomp m; bet := bet m; p0 := p0 m; bp := bp m |}.
Lemma hom1_tags : tags_ok hom1. Proof. destruct T. split; assumption. Qed.
Lemma hom1_bc f : bc_ok hom f -> bc_ok hom1 f. Proof. intros []. split; assumption. Qed.
Lemma hom1_inc z f f' : incremented hom eu ev ep z f f' -> incremented hom1 eu ev ep z f f'. Proof. intros []. split; assumption. Qed.

Lemma c_val z i j : faces_ok m -> velocity_vector ep z ->
  (0 <= i < nx m - 1)%Z -> (0 <= j < nz m - 1)%Z -> tp m (Pi m i j) = (-1)%Z ->
  row_dot eu ev ep (c_row m i j) z = celvol m * OOP m * (ex z i j + ez z i j).
Proof.
  intros Fo Hz Hi Hj Ty. destruct (Fo i j Hi Hj Ty) as (F1 & F2 & F3 & F4).
  pose proof (c_linearisation hom1 eu ev ep z zero (field z) hom1_tags (hom1_bc _ zero_bc) (hom1_bc _ (field_bc z))
    (hom1_inc _ _ _ (field_inc z)) i j Hi Hj Ty ltac:(cbn [hom1 dt]; lra) F1 F2 F3 F4) as E.
  rewrite Hz in E. change (row_dot eu ev ep (c_row hom1 i j) z) with (row_dot eu ev ep (c_row m i j) z) in E.
  rewrite Rmult_0_r, Rplus_0_r in E. rewrite <- E. clear E.
  unfold c_residual. change (cc2 hom1 i j) with (Pi m i j).
  assert (A : air (tp m (Pi m i j)) = false) by (unfold air; rewrite Ty; reflexivity).
  pose proof (d_div hom1 zero (field z) hom1_tags i j Hi A) as DD. change (Pi hom1) with (Pi m) in DD.
  replace (div_u hom1 (field z) (Pi m i j)) with (div_u hom1 zero (Pi m i j) + OOP m * (ex z i j + ez z i j)).
  2:{ revert DD. change (OOP hom1) with (OOP m). unfold dex, dez, delta, ex, ez, u, v. cbn [hom1 nx dx dz field zero fu fv].
      change (Ui hom1) with (Ui m); change (Vi hom1) with (Vi m). rewrite !Rminus_0_r. intros. lra. }
  cbn [hom1 ccomp bet dt p0 bp field zero fp]. rewrite Ty. cbn [Z.eqb Pos.eqb]. rewrite Hz. change (celvol hom1) with (celvol m). field.
Qed.
Lemma flux_eq q w : faces_ok m -> velocity_vector ep w -> flux m eu ev ep q w = celvol m * OOP m * press w q.
Proof.
  intros Fo Hw. unfold flux, press. rewrite <- sum2_scal. apply sum2_ext. intros i j Hi Hj. unfold p.
  destruct (Z.eqb_spec (tp m (Pi m i j)) (-1)) as [Ty|Ty]; [|ring]. rewrite c_val by assumption. ring.
Qed.
Lemma ext_zero q : pressure_vector eu ev q -> (forall i j, u q i j = 0) /\ (forall i j, v q i j = 0).
Proof.
  intros H. assert (forall c, own_u q c = 0) as Ou by (intros c; unfold own_u; destruct (_ || _); [apply H|reflexivity]).
  assert (forall c, own_v q c = 0) as Ov by (intros c; unfold own_v; destruct (_ =? -1)%Z; [apply H|reflexivity]).
  split; intros i j.
  - unfold u, ext_u. cbv zeta. rewrite !Ou. destruct (_ =? 13)%Z; [reflexivity|]. destruct (_ =? 11)%Z; lra.
  - unfold v, ext_v. cbv zeta. rewrite !Ov. destruct (_ =? 13)%Z; [reflexivity|]. destruct (_ =? 11)%Z; [lra|]. destruct (_ =? -12)%Z; reflexivity.
Qed.
Lemma gradient_transpose q w : faces_ok m -> velocity_vector ep w -> pressure_vector eu ev q ->
  OOP m * power m eu ev ep w q = - flux m eu ev ep q w.
Proof.
  intros Fo Hw Hq. rewrite power_eq, flux_eq by assumption. destruct (ext_zero q Hq) as (U0 & V0).
  assert (E1 : cells w q = 0).
  { unfold cells. apply sumZ_zero. intros i Hi. apply sumZ_zero. intros j Hj. unfold sx, sz, ex at 1 2 4, ez at 1 2 3.
    rewrite !U0, !V0. unfold Rdiv. ring. }
  assert (E2 : verts w q = 0).
  { unfold verts. apply sumZ_zero. intros i Hi. apply sumZ_zero. intros j Hj. unfold tau, gam. rewrite !U0, !V0. unfold Rdiv. ring. }
  assert (E3 : corrs w q = 0).
  { unfold corrs. rewrite !(sumZ_zero _ (fun _ => sumZ _ _)); [ring| |]; intros i Hi; apply sumZ_zero; intros j Hj.
    - unfold hv at 2. destruct (unk_v m _); [destruct (Hq (Vi m i j)) as (_ & ->)|]; ring.
    - unfold hu at 2. destruct (unk_u m _); [destruct (Hq (Ui m i j)) as (-> & _)|]; ring. }
  rewrite E1, E2, E3. ring.
Qed.
End Sym.
