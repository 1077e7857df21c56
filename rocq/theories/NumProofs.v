(** Lemmas: numbering, transfer, scaling. *)
From Coq Require Import List ZArith Reals Bool Arith Lia Lra.
Import ListNotations.
From Verif Require Import GridModel GridProofs NumModel.

(** ** Specification *)

(** Number of unknowns among the first [n] nodes. *)
Fixpoint count (p : nat -> bool) (n : nat) : nat :=
  match n with 0 => 0 | S k => count p k + (if p k then 1 else 0) end.

(** ** Loops *)

Lemma loop_split {S} (f : S -> nat -> S) a n m s : loop a (n + m) f s = loop (a + n) m f (loop a n f s).
Proof. unfold loop. now rewrite seq_app, fold_left_app. Qed.

Lemma loop_shift {S} (f : S -> nat -> S) : forall n a c s, loop a n (fun s k => f s (k + c)) s = loop (a + c) n f s.
Proof.
  induction n as [|n IH]; intros a c s; [reflexivity|]. unfold loop in *. cbn. now rewrite (IH (Datatypes.S a) c).
Qed.

(** A double loop over rows is a loop over flat indices. *)
Lemma loop_nest {S} (f : S -> nat -> S) a : forall b s,
  loop 0 b (fun s l => loop 0 a (fun s k => f s (k + l * a)) s) s = loop 0 (b * a) f s.
Proof.
  induction b as [|b IH]; intros s; [reflexivity|].
  replace (Datatypes.S b) with (1 + b) by lia. rewrite loop_S, IH, Nat.add_0_l.
  rewrite (loop_shift f a 0 (b * a)). replace ((1 + b) * a) with (b * a + a) by lia. now rewrite loop_split.
Qed.

(** In-place update of every selected entry. *)
Lemma loop_map_if {A} (p : nat -> bool) (g : nat -> A -> A) n a c :
  loop 0 n (fun a c => if p c then upd a c (g c (a c)) else a) a c =
  if (c <? n) && p c then g c (a c) else a c.
Proof.
  pose proof (loop_ind (fun m a' => forall c, a' c = if (c <? m) && p c then g c (a c) else a c)
    (fun a c => if p c then upd a c (g c (a c)) else a) n 0 a) as L.
  cbv beta in L. apply L; clear L.
  - intros k. reflexivity.
  - intros i s Hi IH k. destruct (Nat.eq_dec k i) as [->|Hk].
    + rewrite (proj2 (Nat.ltb_lt i (1 + i))) by lia. specialize (IH i). rewrite Nat.ltb_irrefl in IH. cbn [andb] in *.
      destruct (p i); [rewrite upd_same, IH; reflexivity|exact IH].
    + replace (k <? 1 + i) with (k <? i).
      * rewrite <- IH. destruct (p i); [now apply upd_other|reflexivity].
      * destruct (Nat.ltb_spec k i), (Nat.ltb_spec k (1 + i)); try reflexivity; lia.
Qed.

(** ** Counting *)

Lemma count_S p n : count p (1 + n) = count p n + (if p n then 1 else 0).
Proof. reflexivity. Qed.
Lemma count_mono p : forall n m, n <= m -> count p n <= count p m.
Proof. induction 1; [lia|]. cbn. lia. Qed.
Lemma count_lt p c n : c < n -> p c = true -> count p c < count p n.
Proof. intros H P. pose proof (count_mono p (1 + c) n H) as M. rewrite count_S, P in M. lia. Qed.
Lemma count_inj p c c' : p c = true -> p c' = true -> count p c = count p c' -> c = c'.
Proof.
  intros P P' E. destruct (Nat.lt_trichotomy c c') as [L|[L|L]]; [|exact L|].
  - pose proof (count_lt p c c' L P). lia.
  - pose proof (count_lt p c' c L P'). lia.
Qed.
Lemma count_surj p : forall n e, e < count p n -> exists c, c < n /\ p c = true /\ count p c = e.
Proof.
  induction n as [|n IH]; intros e H; [cbn in H; lia|]. cbn in H. destruct (p n) eqn:P.
  - destruct (Nat.eq_dec e (count p n)) as [->|]; [exists n; repeat split; auto|].
    destruct (IH e ltac:(lia)) as (c & Hc & R). exists c. split; [lia|exact R].
  - destruct (IH e ltac:(lia)) as (c & Hc & R). exists c. split; [lia|exact R].
Qed.

(** ** Numbering *)

Lemma number_u_spec Nx Nz t s : 2 <= Nx ->
  (forall c, c < (Nz + 1) * Nx -> tu t c = (-12)%Z -> c mod Nx = Nx - 1) ->
  let pu := fun c => num_u (tu t c) in
  let s' := number_u Nx Nz t s in
  inc s' = (inc s + Z.of_nat (count pu ((Nz + 1) * Nx)))%Z /\
  (forall c, c < (Nz + 1) * Nx ->
     (pu c = true -> eqn_u s' c = (inc s + Z.of_nat (count pu c))%Z) /\
     (tu t c = (-12)%Z -> eqn_u s' c = eqn_u s' (c + 1 - Nx)) /\
     (pu c = false -> tu t c <> (-12)%Z -> eqn_u s' c = (-1)%Z)) /\
  incP s' = incP s /\ eqn_v s' = eqn_v s /\ eqn_p s' = eqn_p s /\ neq_mom s' = neq_mom s.
Proof.
  intros Hx Hper pu s'. unfold s', number_u.
  rewrite (loop_nest (step_u Nx t) Nx (Nz + 1) s).
  set (body := step_u Nx t).
  set (N := (Nz + 1) * Nx) in *.
  pose proof (loop_ind (fun m s' => m <= N ->
    inc s' = (inc s + Z.of_nat (count pu m))%Z /\
    (forall c, c < m ->
     (pu c = true -> eqn_u s' c = (inc s + Z.of_nat (count pu c))%Z) /\
     (tu t c = (-12)%Z -> eqn_u s' c = eqn_u s' (c + 1 - Nx)) /\
     (pu c = false -> tu t c <> (-12)%Z -> eqn_u s' c = (-1)%Z)) /\
    incP s' = incP s /\ eqn_v s' = eqn_v s /\ eqn_p s' = eqn_p s /\ neq_mom s' = neq_mom s) body N 0 s) as L.
  cbv beta in L. apply L; clear L; [| |lia].
  - intros _. cbn [count]. repeat split; try lia; intros; lia.
  - intros m s1 Hm IH Hle. destruct (IH ltac:(lia)) as (I1 & I2 & I3 & I4 & I5 & I6). clear IH.
    unfold body, step_u. cbv zeta.
    set (s2 := Numbering (inc s1) (incP s1) (upd (eqn_u s1) m (-1)%Z) (eqn_v s1) (eqn_p s1) (neq_mom s1)).
    set (s3 := if num_u (tu t m) then Numbering (inc s2 + 1) (incP s2) (upd (eqn_u s2) m (inc s2)) (eqn_v s2) (eqn_p s2) (neq_mom s2) else s2).
    set (s4 := if Z.eqb (tu t m) (-12) then Numbering (inc s3) (incP s3) (upd (eqn_u s3) m (eqn_u s3 (m + 1 - Nx))) (eqn_v s3) (eqn_p s3) (neq_mom s3) else s3).
    assert (Hinc3 : inc s3 = (inc s + Z.of_nat (count pu (1 + m)))%Z).
    { rewrite count_S. unfold s3, pu at 2. destruct (num_u (tu t m)); cbn [inc s2]; rewrite I1; lia. }
    assert (H3 : forall c, c <> m -> eqn_u s3 c = eqn_u s1 c).
    { intros c Hc. unfold s3. destruct (num_u (tu t m)); cbn [eqn_u]; unfold s2; cbn [eqn_u]; rewrite ?upd_other by exact Hc; reflexivity. }
    assert (H3m : eqn_u s3 m = if pu m then (inc s + Z.of_nat (count pu m))%Z else (-1)%Z).
    { unfold s3, pu at 1. destruct (num_u (tu t m)); cbn [eqn_u]; unfold s2; cbn [eqn_u inc]; rewrite upd_same; congruence. }
    assert (H4 : forall c, c <> m -> eqn_u s4 c = eqn_u s1 c).
    { intros c Hc. unfold s4. destruct (Z.eqb _ _); cbn [eqn_u]; rewrite ?upd_other by exact Hc; now apply H3. }
    assert (Hinc4 : inc s4 = inc s3 /\ incP s4 = incP s3 /\ eqn_v s4 = eqn_v s3 /\ eqn_p s4 = eqn_p s3 /\ neq_mom s4 = neq_mom s3)
      by (unfold s4; destruct (Z.eqb _ _); repeat split).
    assert (Hs3 : incP s3 = incP s1 /\ eqn_v s3 = eqn_v s1 /\ eqn_p s3 = eqn_p s1 /\ neq_mom s3 = neq_mom s1)
      by (unfold s3; destruct (num_u _); repeat split).
    destruct Hinc4 as (J1 & J2 & J3 & J4 & J5). destruct Hs3 as (K1 & K2 & K3 & K4).
    split; [congruence|]. split; [|repeat split; congruence].
    intros c Hc.
    assert (P12 : forall c, c <= m -> tu t c = (-12)%Z -> c + 1 - Nx < c).
    { intros c0 H0 H12. pose proof (Hper c0 ltac:(lia) H12). pose proof (Nat.mod_le c0 Nx ltac:(lia)). lia. }
    destruct (Nat.eq_dec c m) as [->|Hn].
    + assert (Hexcl : tu t m = (-12)%Z -> pu m = false) by (intros E; unfold pu; rewrite E; reflexivity).
      split; [|split].
      * intros P. unfold s4. destruct (Z.eqb_spec (tu t m) (-12)) as [E|]; [rewrite (Hexcl E) in P; discriminate|].
        rewrite H3m, P. reflexivity.
      * intros E. pose proof (P12 m (le_n m) E). rewrite (H4 (m + 1 - Nx)) by lia.
        unfold s4. rewrite E, Z.eqb_refl. cbn [eqn_u]. rewrite upd_same.
        apply H3; lia.
      * intros P E. unfold s4. rewrite (proj2 (Z.eqb_neq _ _) E), H3m, P. reflexivity.
    + destruct (I2 c ltac:(lia)) as (Q1 & Q2 & Q3). rewrite (H4 c Hn). split; [exact Q1|split; [|exact Q3]].
      intros E. rewrite (Q2 E). symmetry. apply H4. pose proof (P12 c ltac:(lia) E). lia.
Qed.

(** The other two grids follow one pattern. *)
Lemma number_v_spec Nx Nz t s :
  let pv := fun c => num_v (tv t c) in
  let s' := number_v Nx Nz t s in
  inc s' = (inc s + Z.of_nat (count pv (Nz * (Nx + 1))))%Z /\
  (forall c, c < Nz * (Nx + 1) -> eqn_v s' c = if pv c then (inc s + Z.of_nat (count pv c))%Z else (-1)%Z) /\
  incP s' = incP s /\ eqn_u s' = eqn_u s /\ eqn_p s' = eqn_p s /\ neq_mom s' = inc s'.
Proof.
  intros pv s'. unfold s', number_v.
  rewrite (loop_nest (step_v t) (Nx + 1) Nz s).
  set (body := step_v t). set (N := Nz * (Nx + 1)) in *.
  cbn [inc incP eqn_u eqn_v eqn_p neq_mom].
  assert (G : inc (loop 0 N body s) = (inc s + Z.of_nat (count pv N))%Z /\
    (forall c, c < N -> eqn_v (loop 0 N body s) c = if pv c then (inc s + Z.of_nat (count pv c))%Z else (-1)%Z) /\
    incP (loop 0 N body s) = incP s /\ eqn_u (loop 0 N body s) = eqn_u s /\ eqn_p (loop 0 N body s) = eqn_p s).
  { pose proof (loop_ind (fun m s' =>
      inc s' = (inc s + Z.of_nat (count pv m))%Z /\
      (forall c, c < m -> eqn_v s' c = if pv c then (inc s + Z.of_nat (count pv c))%Z else (-1)%Z) /\
      incP s' = incP s /\ eqn_u s' = eqn_u s /\ eqn_p s' = eqn_p s) body N 0 s) as L.
    cbv beta in L. apply L; clear L.
    - cbn [count]. repeat split; try lia; intros; lia.
    - intros m s1 Hm (I1 & I2 & I3 & I4 & I5). unfold body, step_v. cbv zeta. rewrite count_S. unfold pv at 2.
      assert (E : forall c, c < 1 + m -> c <> m -> c < m) by (intros; lia).
      destruct (num_v (tv t m)) eqn:P; cbn [inc incP eqn_u eqn_v eqn_p]; (split; [lia|]); (split; [|auto]).
      + intros c Hc. destruct (Nat.eq_dec c m) as [->|Hn].
        * rewrite upd_same. unfold pv at 1. rewrite P. exact I1.
        * rewrite !upd_other by exact Hn. auto.
      + intros c Hc. destruct (Nat.eq_dec c m) as [->|Hn].
        * rewrite upd_same. unfold pv at 1. now rewrite P.
        * rewrite !upd_other by exact Hn. auto. }
  destruct G as (G1 & G2 & G3 & G4 & G5). auto 10.
Qed.

Lemma number_p_spec Nx Nz t s :
  let pp := fun c => num_p (tp t c) in
  let N := (Nz - 1) * (Nx - 1) in
  let s' := number_p Nx Nz t s in
  inc s' = (inc s + Z.of_nat (count pp N))%Z /\ incP s' = (incP s + Z.of_nat (count pp N))%Z /\
  (forall c, c < N -> eqn_p s' c = if pp c then (inc s + Z.of_nat (count pp c))%Z else (-1)%Z) /\
  eqn_u s' = eqn_u s /\ eqn_v s' = eqn_v s /\ neq_mom s' = neq_mom s.
Proof.
  intros pp N s'. unfold s', number_p.
  rewrite (loop_nest (step_p t) (Nx - 1) (Nz - 1) s).
  set (body := step_p t). fold N.
  pose proof (loop_ind (fun m s' =>
      inc s' = (inc s + Z.of_nat (count pp m))%Z /\ incP s' = (incP s + Z.of_nat (count pp m))%Z /\
      (forall c, c < m -> eqn_p s' c = if pp c then (inc s + Z.of_nat (count pp c))%Z else (-1)%Z) /\
      eqn_u s' = eqn_u s /\ eqn_v s' = eqn_v s /\ neq_mom s' = neq_mom s) body N 0 s) as L.
  cbv beta in L. apply L; clear L.
  - cbn [count]. repeat split; try lia; intros; lia.
  - intros m s1 Hm (I1 & I0 & I2 & I3 & I4 & I5). unfold body, step_p. cbv zeta. rewrite count_S. unfold pp at 2 4.
    assert (E : forall c, c < 1 + m -> c <> m -> c < m) by (intros; lia).
    destruct (num_p (tp t m)) eqn:P; cbn [inc incP eqn_u eqn_v eqn_p neq_mom]; (split; [lia|]); (split; [lia|]); (split; [|auto]).
    + intros c Hc. destruct (Nat.eq_dec c m) as [->|Hn].
      * rewrite upd_same. unfold pp at 1. rewrite P. exact I1.
      * rewrite !upd_other by exact Hn. auto.
    + intros c Hc. destruct (Nat.eq_dec c m) as [->|Hn].
      * rewrite upd_same. unfold pp at 1. now rewrite P.
      * rewrite !upd_other by exact Hn. auto.
Qed.

(** Periodic nodes of the Vx grid are on its east side. *)
Definition periodic_east (Nx Nz : nat) (t : types) : Prop :=
  forall c, c < (Nz + 1) * Nx -> tu t c = (-12)%Z -> c mod Nx = Nx - 1.

Definition pu (t : types) c := num_u (tu t c).
Definition pv (t : types) c := num_v (tv t c).
Definition pp (t : types) c := num_p (tp t c).
Definition nu Nx Nz t := count (pu t) ((Nz + 1) * Nx).
Definition nv Nx Nz t := count (pv t) (Nz * (Nx + 1)).
Definition np Nx Nz t := count (pp t) ((Nz - 1) * (Nx - 1)).

Lemma number_spec Nx Nz t eu0 ev0 ep0 : 2 <= Nx -> periodic_east Nx Nz t ->
  let s := number Nx Nz t eu0 ev0 ep0 in
  neq_mom s = Z.of_nat (nu Nx Nz t + nv Nx Nz t) /\ incP s = Z.of_nat (np Nx Nz t) /\
  inc s = Z.of_nat (nu Nx Nz t + nv Nx Nz t + np Nx Nz t) /\
  (forall c, c < (Nz + 1) * Nx ->
     (pu t c = true -> eqn_u s c = Z.of_nat (count (pu t) c)) /\
     (tu t c = (-12)%Z -> eqn_u s c = eqn_u s (c + 1 - Nx)) /\
     (pu t c = false -> tu t c <> (-12)%Z -> eqn_u s c = (-1)%Z)) /\
  (forall c, c < Nz * (Nx + 1) -> eqn_v s c = if pv t c then Z.of_nat (nu Nx Nz t + count (pv t) c) else (-1)%Z) /\
  (forall c, c < (Nz - 1) * (Nx - 1) ->
     eqn_p s c = if pp t c then Z.of_nat (nu Nx Nz t + nv Nx Nz t + count (pp t) c) else (-1)%Z).
Proof.
  intros Hx Hper s. unfold s, number.
  set (s0 := Numbering 0 0 eu0 ev0 ep0 0).
  destruct (number_u_spec Nx Nz t s0 Hx Hper) as (U1 & U2 & U3 & U4 & U5 & U6).
  set (s1 := number_u Nx Nz t s0) in *.
  destruct (number_v_spec Nx Nz t s1) as (V1 & V2 & V3 & V4 & V5 & V6).
  set (s2 := number_v Nx Nz t s1) in *.
  destruct (number_p_spec Nx Nz t s2) as (P1 & P2 & P3 & P4 & P5 & P6).
  set (s3 := number_p Nx Nz t s2) in *.
  cbn [inc incP s0] in *. clearbody s1 s2 s3.
  change (fun c => num_u (tu t c)) with (pu t) in *. change (fun c => num_v (tv t c)) with (pv t) in *.
  change (fun c => num_p (tp t c)) with (pp t) in *. fold (nu Nx Nz t) in *. fold (nv Nx Nz t) in *. fold (np Nx Nz t) in *.
  split; [lia|]. split; [lia|]. split; [lia|]. split; [|split].
  - intros c Hc. rewrite P4, V4. destruct (U2 c Hc) as (Q1 & Q2 & Q3). split; [|split; assumption].
    intros P. rewrite (Q1 P). lia.
  - intros c Hc. rewrite P5, V2 by exact Hc. unfold pv at 2. destruct (num_v (tv t c)); [|reflexivity]. lia.
  - intros c Hc. rewrite P3 by exact Hc. unfold pp at 2. destruct (num_p (tp t c)); [|reflexivity]. lia.
Qed.

(** ** Transfer *)

Lemma updZ_same {A} (a : Z -> A) i v : updZ a i v i = v.
Proof. unfold updZ. now rewrite Z.eqb_refl. Qed.
Lemma updZ_other {A} (a : Z -> A) i v j : j <> i -> updZ a i v j = a j.
Proof. intros H. unfold updZ. now rewrite (proj2 (Z.eqb_neq j i) H). Qed.

Lemma put_loop sel ty eqn a n x :
  (forall c c', c < n -> c' < n -> sel (ty c) = true -> sel (ty c') = true -> eqn c = eqn c' -> c = c') ->
  let x' := loop 0 n (put sel ty eqn a) x in
  (forall c, c < n -> sel (ty c) = true -> x' (eqn c) = a c) /\
  (forall e, (forall c, c < n -> sel (ty c) = true -> eqn c <> e) -> x' e = x e).
Proof.
  intros Hinj x'.
  pose proof (loop_ind (fun m x' => m <= n ->
    (forall c, c < m -> sel (ty c) = true -> x' (eqn c) = a c) /\
    (forall e, (forall c, c < m -> sel (ty c) = true -> eqn c <> e) -> x' e = x e)) (put sel ty eqn a) n 0 x) as L.
  cbv beta in L. apply L; clear L; [| |lia].
  - intros _. split; [intros; lia|reflexivity].
  - intros m x1 Hm IH Hle. destruct (IH ltac:(lia)) as [I1 I2]. unfold put. split.
    + intros c Hc S. destruct (Nat.eq_dec c m) as [->|Hn].
      * rewrite S. apply updZ_same.
      * destruct (sel (ty m)) eqn:Sm; [|apply I1; [lia|exact S]].
        rewrite updZ_other; [apply I1; [lia|exact S]|]. intros E. apply Hn, Hinj; auto; lia.
    + intros e He. destruct (sel (ty m)) eqn:Sm.
      * rewrite updZ_other; [|apply not_eq_sym, He; [lia|exact Sm]]. apply I2. intros; apply He; [lia|assumption].
      * apply I2. intros; apply He; [lia|assumption].
Qed.

Section Transfer.
Context (Nx Nz : nat) (t : types) (eu0 ev0 ep0 : nat -> Z) (Hx : 2 <= Nx) (Hper : periodic_east Nx Nz t).
Let s := number Nx Nz t eu0 ev0 ep0.

Lemma eu_val c : c < (Nz + 1) * Nx -> num_u (tu t c) = true ->
  eqn_u s c = Z.of_nat (count (pu t) c) /\ (0 <= eqn_u s c < Z.of_nat (nu Nx Nz t))%Z.
Proof.
  intros Hc P. destruct (number_spec Nx Nz t eu0 ev0 ep0 Hx Hper) as (_ & _ & _ & U & _).
  destruct (U c Hc) as (Q & _). fold s in Q. specialize (Q P). pose proof (count_lt (pu t) c _ Hc P). fold (nu Nx Nz t) in *. lia.
Qed.
Lemma ev_val c : c < Nz * (Nx + 1) -> num_v (tv t c) = true ->
  eqn_v s c = Z.of_nat (nu Nx Nz t + count (pv t) c) /\ (Z.of_nat (nu Nx Nz t) <= eqn_v s c < Z.of_nat (nu Nx Nz t + nv Nx Nz t))%Z.
Proof.
  intros Hc P. destruct (number_spec Nx Nz t eu0 ev0 ep0 Hx Hper) as (_ & _ & _ & _ & V & _).
  specialize (V c Hc). fold s in V. unfold pv at 1 in V. rewrite P in V.
  pose proof (count_lt (pv t) c _ Hc P). fold (nv Nx Nz t) in *. lia.
Qed.
Lemma ep_val c : c < (Nz - 1) * (Nx - 1) -> num_p (tp t c) = true ->
  eqn_p s c = Z.of_nat (nu Nx Nz t + nv Nx Nz t + count (pp t) c) /\
  (Z.of_nat (nu Nx Nz t + nv Nx Nz t) <= eqn_p s c < Z.of_nat (nu Nx Nz t + nv Nx Nz t + np Nx Nz t))%Z.
Proof.
  intros Hc P. destruct (number_spec Nx Nz t eu0 ev0 ep0 Hx Hper) as (_ & _ & _ & _ & _ & V).
  specialize (V c Hc). fold s in V. unfold pp at 1 in V. rewrite P in V.
  pose proof (count_lt (pp t) c _ Hc P). fold (np Nx Nz t) in *. lia.
Qed.

Lemma init_vector_spec f x :
  let x' := init_vector Nx Nz t s f x in
  (forall c, c < (Nz + 1) * Nx -> num_u (tu t c) = true -> x' (eqn_u s c) = u_in f c) /\
  (forall c, c < Nz * (Nx + 1) -> num_v (tv t c) = true -> x' (eqn_v s c) = v_in f c) /\
  (forall c, c < (Nz - 1) * (Nx - 1) -> num_p (tp t c) = true -> x' (eqn_p s c) = p_in f c) /\
  (forall e, (e < 0 \/ inc s <= e)%Z -> x' e = x e).
Proof.
  intros x'.
  set (x1 := loop 0 ((Nz + 1) * Nx) (put num_u (tu t) (eqn_u s) (u_in f)) x).
  set (x2 := loop 0 (Nz * (Nx + 1)) (put num_v (tv t) (eqn_v s) (v_in f)) x1).
  set (x3 := loop 0 ((Nz - 1) * (Nx - 1)) (put num_p (tp t) (eqn_p s) (p_in f)) x2).
  assert (E : x' = x3).
  { unfold x', init_vector. cbv zeta.
    rewrite (loop_nest (put num_u (tu t) (eqn_u s) (u_in f)) Nx (Nz + 1) x).
    fold x1. rewrite (loop_nest (put num_v (tv t) (eqn_v s) (v_in f)) (Nx + 1) Nz x1).
    fold x2. rewrite (loop_nest (put num_p (tp t) (eqn_p s) (p_in f)) (Nx - 1) (Nz - 1) x2). reflexivity. }
  rewrite E. clear E x'.
  destruct (put_loop num_u (tu t) (eqn_u s) (u_in f) ((Nz + 1) * Nx) x) as [A1 A2].
  { intros c c' Hc Hc' P P' E. destruct (eu_val c Hc P) as [E1 _], (eu_val c' Hc' P') as [E2 _].
    apply (count_inj (pu t)); auto. lia. }
  destruct (put_loop num_v (tv t) (eqn_v s) (v_in f) (Nz * (Nx + 1)) x1) as [B1 B2].
  { intros c c' Hc Hc' P P' E. destruct (ev_val c Hc P) as [E1 _], (ev_val c' Hc' P') as [E2 _].
    apply (count_inj (pv t)); auto. lia. }
  destruct (put_loop num_p (tp t) (eqn_p s) (p_in f) ((Nz - 1) * (Nx - 1)) x2) as [C1 C2].
  { intros c c' Hc Hc' P P' E. destruct (ep_val c Hc P) as [E1 _], (ep_val c' Hc' P') as [E2 _].
    apply (count_inj (pp t)); auto. lia. }
  fold x1 in A1, A2. fold x2 in B1, B2. fold x3 in C1, C2.
  assert (HI : inc s = Z.of_nat (nu Nx Nz t + nv Nx Nz t + np Nx Nz t)).
  { destruct (number_spec Nx Nz t eu0 ev0 ep0 Hx Hper) as (_ & _ & I & _). exact I. }
  clearbody x1 x2 x3.
  repeat split.
  - intros c Hc P. destruct (eu_val c Hc P) as [_ R]. rewrite C2, B2; [now apply A1| |].
    + intros c' Hc' P' E. destruct (ev_val c' Hc' P'). lia.
    + intros c' Hc' P' E. destruct (ep_val c' Hc' P'). lia.
  - intros c Hc P. destruct (ev_val c Hc P) as [_ R]. rewrite C2; [now apply B1|].
    intros c' Hc' P' E. destruct (ep_val c' Hc' P'). lia.
  - exact C1.
  - intros e He. rewrite C2, B2, A2; [reflexivity| | |].
    + intros c' Hc' P' E. destruct (eu_val c' Hc' P'). lia.
    + intros c' Hc' P' E. destruct (ev_val c' Hc' P'). lia.
    + intros c' Hc' P' E. destruct (ep_val c' Hc' P'). lia.
Qed.

Lemma extract_periodic_spec a c : c < (Nz + 1) * Nx ->
  extract_periodic Nx Nz t a c = if Z.eqb (tu t c) (-12) then a (c + 1 - Nx) else a c.
Proof.
  intros Hc. unfold extract_periodic.
  pose proof (loop_ind (fun m a' => forall c, c < (Nz + 1) * Nx ->
      a' c = if (c <? m * Nx) && Z.eqb (tu t c) (-12) then a (c + 1 - Nx) else a c)
    (fun a cc => let kk := cc * Nx + Nx - 1 in
      if Z.eqb (tu t kk) (-12) then upd a kk (a (kk + 1 - Nx)) else a) (Nz + 1) 0 a) as L.
  cbv beta in L. rewrite L; clear L; [| | |exact Hc].
  - rewrite (proj2 (Nat.ltb_lt _ _)) by (exact Hc). reflexivity.
  - intros k Hk. reflexivity.
  - intros i a1 Hi IH k Hk. cbv zeta. set (kk := i * Nx + Nx - 1).
    assert (Hkk : kk < (Nz + 1) * Nx) by (unfold kk; nia).
    assert (W : a1 (kk + 1 - Nx) = a (kk + 1 - Nx)).
    { replace (kk + 1 - Nx) with (i * Nx) by (unfold kk; lia).
      rewrite IH by nia. rewrite (proj2 (Nat.ltb_ge _ _)) by lia. reflexivity. }
    destruct (Nat.eq_dec k kk) as [->|Hne].
    + assert (Hlt : (kk <? (1 + i) * Nx) = true) by (apply Nat.ltb_lt; unfold kk; lia).
      assert (Hge : (kk <? i * Nx) = false) by (apply Nat.ltb_ge; unfold kk; lia).
      rewrite Hlt. cbn [andb]. destruct (Z.eqb (tu t kk) (-12)); [rewrite upd_same; exact W|].
      rewrite IH by exact Hkk. now rewrite Hge.
    + transitivity (a1 k).
      { destruct (Z.eqb (tu t kk) (-12)); [now apply upd_other|reflexivity]. }
      rewrite IH by exact Hk.
      destruct (Z.eqb_spec (tu t k) (-12)) as [E|]; [|now rewrite !andb_false_r].
      rewrite !andb_true_r.
      pose proof (Hper k Hk E) as M. pose proof (Nat.div_mod k Nx ltac:(lia)) as D.
      destruct (Nat.ltb_spec k (i * Nx)), (Nat.ltb_spec k ((1 + i) * Nx)); try reflexivity; exfalso; [lia|].
      apply Hne. unfold kk. rewrite D, M. assert (k / Nx = i) by nia. nia.
Qed.
End Transfer.

(** ** Scaling *)

Fixpoint sumf (f : nat -> R) (n : nat) : R := match n with 0 => 0 | S k => sumf f k + f k end%R.
Lemma sumf_ext f g n : (forall k, k < n -> f k = g k) -> sumf f n = sumf g n.
Proof. induction n as [|n IH]; intros H; [reflexivity|]. cbn. rewrite IH, H; auto. Qed.
Lemma sumf_scal f c n : sumf (fun k => c * f k)%R n = (c * sumf f n)%R.
Proof. induction n as [|n IH]; cbn; [lra|]. rewrite IH. lra. Qed.

(** Row [i] of the block applied to a vector. *)
Definition apply_row (m : mat) (x : nat -> R) (i : nat) : R :=
  sumf (fun k => A m (Ic m i + k) * x (J m (Ic m i + k)))%R (Ic m (i + 1) - Ic m i).

(** Rows of a sparse matrix follow each other; columns below [ncol]. *)
Definition csr (m : mat) (ncol : nat) : Prop :=
  (forall i, i < neq m -> Ic m i <= Ic m (i + 1)) /\
  (forall i k, i < neq m -> Ic m i <= k < Ic m (i + 1) -> J m k < ncol).

Lemma Ic_mono m ncol : csr m ncol -> forall i j, i <= j <= neq m -> Ic m i <= Ic m j.
Proof.
  intros [H _] i j [Hij Hj]. induction Hij as [|j Hij IH]; [lia|].
  pose proof (H j ltac:(lia)). rewrite Nat.add_1_r in H0. specialize (IH ltac:(lia)). lia.
Qed.

Lemma scale_row_inner i di dj : forall n m,
  let m' := loop 0 n (fun m J1 => let k := Ic m i + J1 in let j := J m k in
      Mat (neq m) (Ic m) (J m) (upd (A m) k (A m k * (di i * dj j))%R) (b m) (F m) (d m)) m in
  neq m' = neq m /\ Ic m' = Ic m /\ J m' = J m /\ b m' = b m /\ F m' = F m /\ d m' = d m /\
  forall k, A m' k = if (Ic m i <=? k) && (k <? Ic m i + n) then (A m k * (di i * dj (J m k)))%R else A m k.
Proof.
  intros n m m'.
  pose proof (loop_ind (fun q m' => neq m' = neq m /\ Ic m' = Ic m /\ J m' = J m /\ b m' = b m /\ F m' = F m /\ d m' = d m /\
    forall k, A m' k = if (Ic m i <=? k) && (k <? Ic m i + q) then (A m k * (di i * dj (J m k)))%R else A m k)
    (fun m J1 => let k := Ic m i + J1 in let j := J m k in
      Mat (neq m) (Ic m) (J m) (upd (A m) k (A m k * (di i * dj j))%R) (b m) (F m) (d m)) n 0 m) as L.
  cbv beta in L. apply L; clear L.
  - repeat split. intros k. destruct (Nat.leb_spec (Ic m i) k), (Nat.ltb_spec k (Ic m i + 0)); try reflexivity; lia.
  - intros q m1 Hq (I1 & I2 & I3 & I4 & I5 & I6 & I7). cbv zeta. cbn [neq Ic J b F d A]. repeat split; auto.
    intros k. rewrite I2, I3. destruct (Nat.eq_dec k (Ic m i + q)) as [->|Hn].
    + rewrite upd_same, I7. rewrite (proj2 (Nat.ltb_ge (Ic m i + q) (Ic m i + q))) by lia. rewrite andb_false_r.
      rewrite (proj2 (Nat.leb_le _ _)) by lia. now rewrite (proj2 (Nat.ltb_lt _ _)) by lia.
    + rewrite upd_other by exact Hn. rewrite I7.
      destruct (Nat.leb_spec (Ic m i) k); [|reflexivity]. cbn [andb].
      destruct (Nat.ltb_spec k (Ic m i + q)), (Nat.ltb_spec k (Ic m i + (1 + q))); try reflexivity; lia.
Qed.

Lemma scale_block_spec ncol m di dj drhs : csr m ncol ->
  let m' := scale_block (neq m) m di dj drhs in
  neq m' = neq m /\ Ic m' = Ic m /\ J m' = J m /\ d m' = d m /\
  (forall i, i < neq m -> b m' i = (b m i * drhs i)%R /\ F m' i = (F m i * drhs i)%R) /\
  (forall i k, i < neq m -> Ic m i <= k < Ic m (i + 1) -> A m' k = (A m k * (di i * dj (J m k)))%R).
Proof.
  intros HC m'. unfold m', scale_block.
  set (body := fun m i => _).
  pose proof (loop_ind (fun q m' => q <= neq m ->
    neq m' = neq m /\ Ic m' = Ic m /\ J m' = J m /\ d m' = d m /\
    (forall i, i < q -> b m' i = (b m i * drhs i)%R /\ F m' i = (F m i * drhs i)%R) /\
    (forall i, q <= i -> b m' i = b m i /\ F m' i = F m i) /\
    (forall i k, i < q -> Ic m i <= k < Ic m (i + 1) -> A m' k = (A m k * (di i * dj (J m k)))%R) /\
    (forall k, Ic m q <= k -> A m' k = A m k)) body (neq m) 0 m) as L.
  cbv beta in L. destruct L as (L1 & L2 & L3 & L4 & L5 & _ & L7 & _); [| |lia|repeat split; auto; apply L5; auto].
  - intros _. repeat split; intros; lia.
  - intros q m1 Hq IH Hle. destruct (IH ltac:(lia)) as (I1 & I2 & I3 & I4 & I5 & I6 & I7 & I8). clear IH.
    unfold body. cbv zeta.
    set (m2 := Mat (neq m1) (Ic m1) (J m1) (A m1) (upd (b m1) q (b m1 q * drhs q)%R) (upd (F m1) q (F m1 q * drhs q)%R) (d m1)).
    destruct (scale_row_inner q di dj (Ic m2 (q + 1) - Ic m2 q) m2) as (S1 & S2 & S3 & S4 & S5 & S6 & S7).
    set (m3 := loop 0 (Ic m2 (q + 1) - Ic m2 q) _ m2) in *.
    pose proof (proj1 HC q ltac:(lia)) as Hmono.
    assert (A2 : A m2 = A m1 /\ J m2 = J m /\ Ic m2 = Ic m) by (unfold m2; cbn [A J Ic]; auto).
    destruct A2 as (A21 & A22 & A23).
    assert (A3 : forall k, A m3 k = if (Ic m q <=? k) && (k <? Ic m (q + 1)) then (A m1 k * (di q * dj (J m k)))%R else A m1 k).
    { intros k. rewrite S7, A21, A22, A23. replace (Ic m q + (Ic m (q + 1) - Ic m q)) with (Ic m (q + 1)) by lia. reflexivity. }
    clearbody m3.
    split; [rewrite S1; exact I1|]. split; [rewrite S2; exact I2|]. split; [rewrite S3; exact I3|].
    split; [rewrite S6; unfold m2; cbn [d]; exact I4|].
    split; [|split; [|split]].
    + intros i Hi. rewrite S4, S5. unfold m2; cbn [b F]. destruct (Nat.eq_dec i q) as [->|Hn].
      * rewrite !upd_same. destruct (I6 q (le_n q)) as [-> ->]. auto.
      * rewrite !upd_other by exact Hn. apply I5. lia.
    + intros i Hi. rewrite S4, S5. unfold m2; cbn [b F]. rewrite !upd_other by lia. apply I6. lia.
    + intros i k Hi Hk. rewrite A3. destruct (Nat.eq_dec i q) as [->|Hn].
      * rewrite (proj2 (Nat.leb_le _ _)), (proj2 (Nat.ltb_lt _ _)) by lia. cbn [andb]. rewrite I8 by lia. reflexivity.
      * pose proof (Ic_mono m ncol HC (i + 1) q ltac:(lia)).
        rewrite (proj2 (Nat.leb_gt _ _)) by lia. cbn [andb]. apply I7; [lia|exact Hk].
    + intros k Hk. rewrite A3. replace (1 + q) with (q + 1) in Hk by lia.
      rewrite (proj2 (Nat.ltb_ge _ _)) by lia. rewrite andb_false_r. apply I8. lia.
Qed.

Lemma scale_block_row ncol m di dj drhs y i : csr m ncol -> i < neq m ->
  apply_row (scale_block (neq m) m di dj drhs) y i = (di i * apply_row m (fun j => dj j * y j)%R i)%R.
Proof.
  intros HC Hi. destruct (scale_block_spec ncol m di dj drhs HC) as (_ & S2 & S3 & _ & _ & S6).
  unfold apply_row. rewrite S2, S3, <- sumf_scal. apply sumf_ext. intros k Hk.
  rewrite (S6 i) by lia. lra.
Qed.

Lemma apply_row_ext m ncol x y i : csr m ncol -> i < neq m -> (forall j, j < ncol -> x j = y j) ->
  apply_row m x i = apply_row m y i.
Proof.
  intros HC Hi H. apply sumf_ext. intros k Hk. rewrite H; [reflexivity|]. apply (proj2 HC i); [exact Hi|lia].
Qed.

Lemma copy_d_at n dst src i : i < n -> copy_d n dst src i = src i.
Proof.
  intros H. unfold copy_d.
  destruct (loop_write (fun i => i) src 0 n dst) as [W _]; [auto|]. apply W. lia.
Qed.

Lemma scale_back_at s x :
  (forall k, k < neq (mA s) -> scale_back s x k = (x k * d (mA s) k)%R) /\
  (forall k, k < neq (mD s) -> scale_back s x (neq (mA s) + k) = Rmult (x (neq (mA s) + k)) (d (mD s) k)).
Proof.
  unfold scale_back. set (n := neq (mA s)).
  set (x1 := loop 0 n _ x).
  assert (X1 : forall k, x1 k = if (k <? n) && true then (x k * d (mA s) k)%R else x k).
  { intros k. apply (loop_map_if (fun _ => true) (fun k v => (v * d (mA s) k)%R) n x k). }
  clearbody x1.
  pose proof (loop_ind (fun m x' => (forall k, k < n -> x' k = x1 k) /\ (forall k, k < m -> x' (n + k) = Rmult (x1 (n + k)) (d (mD s) k)) /\
     (forall k, m <= k -> x' (n + k) = x1 (n + k)))
    (fun x k => let kk := n + k in upd x kk (x kk * d (mD s) k)%R) (neq (mD s)) 0 x1) as L.
  cbv beta in L. destruct L as (L1 & L2 & _).
  - repeat split; intros; lia.
  - intros m x2 Hm (I1 & I2 & I3). cbv zeta. repeat split.
    + intros k Hk. rewrite upd_other by lia. auto.
    + intros k Hk. destruct (Nat.eq_dec k m) as [->|]; [rewrite upd_same, I3; auto|]. rewrite upd_other by lia. apply I2. lia.
    + intros k Hk. rewrite upd_other by lia. apply I3. lia.
  - split.
    + intros k Hk. rewrite L1, X1 by exact Hk. now rewrite (proj2 (Nat.ltb_lt k n)) by exact Hk.
    + intros k Hk. rewrite L2, X1 by exact Hk. now rewrite (proj2 (Nat.ltb_ge (n + k) n)) by lia.
Qed.

Lemma extract_diagonal_empty m : (forall i, i < neq m -> Ic m (i + 1) = Ic m i) -> extract_diagonal m = d m.
Proof.
  intros H. unfold extract_diagonal.
  pose proof (loop_ind (fun q dd => dd = d m) (fun dd i =>
    loop 0 (Ic m (i + 1) - Ic m i) (fun dd J1 =>
      if Nat.eqb i (J m (Ic m i + J1)) then upd dd i (A m (Ic m i + J1)) else dd) dd) (neq m) 0 (d m)) as L.
  cbv beta in L. apply L; [reflexivity|]. intros i dd Hi ->. rewrite H by lia. now rewrite Nat.sub_diag.
Qed.
