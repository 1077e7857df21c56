(** * Properties C28-C30: numbering, transfer, diagonal scaling *)
From Coq Require Import List ZArith Reals Bool Arith Lia Lra.
Import ListNotations.
From Verif Require Import GridModel GridProofs NumModel NumProofs.

(** ** Specification: the unknowns of a type map *)

Inductive node := U (c : nat) | V (c : nat) | P (c : nat).

Definition on_grid (Nx Nz : nat) (n : node) : Prop :=
  match n with
  | U c => c < (Nz + 1) * Nx
  | V c => c < Nz * (Nx + 1)
  | P c => c < (Nz - 1) * (Nx - 1)
  end.

(** Free nodes: inside (-1), stress boundary (2) and west periodic (-2) for the
    horizontal velocity; inside and stress boundary for the vertical velocity;
    inside for the pressure. *)
Definition unknown_node (t : types) (n : node) : Prop :=
  match n with
  | U c => In (tu t c) [-1; 2; -2]%Z
  | V c => In (tv t c) [-1; 2]%Z
  | P c => tp t c = (-1)%Z
  end.

Definition equation (s : numbering) (n : node) : Z :=
  match n with U c => eqn_u s c | V c => eqn_v s c | P c => eqn_p s c end.

Lemma num_u_in t : num_u t = true <-> In t [-1; 2; -2]%Z.
Proof.
  unfold num_u. rewrite !orb_true_iff, !Z.eqb_eq. cbn [In]. intuition.
Qed.
Lemma num_v_in t : num_v t = true <-> In t [-1; 2]%Z.
Proof. unfold num_v. rewrite !orb_true_iff, !Z.eqb_eq. cbn [In]. intuition. Qed.
Lemma num_p_in t : num_p t = true <-> t = (-1)%Z.
Proof. apply Z.eqb_eq. Qed.

(** ** C28 *)

Theorem C28_numbering_is_a_bijection Nx Nz t eu0 ev0 ep0 : 2 <= Nx -> periodic_east Nx Nz t ->
  let s := number Nx Nz t eu0 ev0 ep0 in
  let neq := inc s in
  (0 <= neq_mom s <= neq)%Z /\ (neq = neq_mom s + incP s)%Z /\
  (* velocities first, then pressures *)
  (forall n, on_grid Nx Nz n -> unknown_node t n ->
     match n with P _ => (neq_mom s <= equation s n < neq)%Z | _ => (0 <= equation s n < neq_mom s)%Z end) /\
  (* no number twice *)
  (forall n n', on_grid Nx Nz n -> on_grid Nx Nz n' -> unknown_node t n -> unknown_node t n' ->
     equation s n = equation s n' -> n = n') /\
  (* no gap *)
  (forall e, (0 <= e < neq)%Z -> exists n, on_grid Nx Nz n /\ unknown_node t n /\ equation s n = e) /\
  (* all others have none, except the east copy of a periodic node *)
  (forall n, on_grid Nx Nz n -> ~ unknown_node t n ->
     match n with
     | U c => if Z.eqb (tu t c) (-12) then equation s n = equation s (U (c + 1 - Nx)) else equation s n = (-1)%Z
     | _ => equation s n = (-1)%Z
     end).
Proof.
  intros Hx Hper s neq.
  destruct (number_spec Nx Nz t eu0 ev0 ep0 Hx Hper) as (M & IP & I & EU & EV & EP). fold s in M, IP, I, EU, EV, EP.
  assert (Uv : forall c, on_grid Nx Nz (U c) -> unknown_node t (U c) ->
    eqn_u s c = Z.of_nat (count (pu t) c) /\ count (pu t) c < nu Nx Nz t /\ pu t c = true).
  { intros c G F. apply num_u_in in F. destruct (EU c G) as (Q & _). pose proof (count_lt (pu t) c _ G F). repeat split; auto. }
  assert (Vv : forall c, on_grid Nx Nz (V c) -> unknown_node t (V c) ->
    eqn_v s c = Z.of_nat (nu Nx Nz t + count (pv t) c) /\ count (pv t) c < nv Nx Nz t /\ pv t c = true).
  { intros c G F. apply num_v_in in F. pose proof (EV c G) as Q. unfold pv at 1 in Q. rewrite F in Q.
    pose proof (count_lt (pv t) c _ G F). repeat split; auto. }
  assert (Pv : forall c, on_grid Nx Nz (P c) -> unknown_node t (P c) ->
    eqn_p s c = Z.of_nat (nu Nx Nz t + nv Nx Nz t + count (pp t) c) /\ count (pp t) c < np Nx Nz t /\ pp t c = true).
  { intros c G F. apply num_p_in in F. pose proof (EP c G) as Q. unfold pp at 1 in Q. rewrite F in Q.
    pose proof (count_lt (pp t) c _ G F). repeat split; auto. }
  split; [unfold neq; lia|]. split; [unfold neq; lia|]. split; [|split; [|split]].
  - intros [c|c|c] G F; cbn [equation].
    + destruct (Uv c G F) as (E & L & _). lia.
    + destruct (Vv c G F) as (E & L & _). lia.
    + destruct (Pv c G F) as (E & L & _). unfold neq. lia.
  - intros [c|c|c] [c'|c'|c'] G G' F F' E; cbn [equation] in E;
      repeat match goal with
      | G : on_grid _ _ (U ?c), F : unknown_node _ (U ?c) |- _ => destruct (Uv c G F) as (? & ? & ?); clear F
      | G : on_grid _ _ (V ?c), F : unknown_node _ (V ?c) |- _ => destruct (Vv c G F) as (? & ? & ?); clear F
      | G : on_grid _ _ (P ?c), F : unknown_node _ (P ?c) |- _ => destruct (Pv c G F) as (? & ? & ?); clear F
      end; try lia; f_equal.
    + apply (count_inj (pu t)); auto; lia.
    + apply (count_inj (pv t)); auto; lia.
    + apply (count_inj (pp t)); auto; lia.
  - intros e He. unfold neq in He.
    destruct (Z.lt_ge_cases e (Z.of_nat (nu Nx Nz t))) as [L1|L1].
    + destruct (count_surj (pu t) ((Nz + 1) * Nx) (Z.to_nat e)) as (c & Hc & Pc & Ec); [fold (nu Nx Nz t); lia|].
      exists (U c). split; [exact Hc|]. apply num_u_in in Pc. split; [exact Pc|]. destruct (Uv c Hc Pc) as (E & _). cbn [equation]. lia.
    + destruct (Z.lt_ge_cases e (Z.of_nat (nu Nx Nz t + nv Nx Nz t))) as [L2|L2].
      * destruct (count_surj (pv t) (Nz * (Nx + 1)) (Z.to_nat e - nu Nx Nz t)) as (c & Hc & Pc & Ec); [fold (nv Nx Nz t); lia|].
        exists (V c). split; [exact Hc|]. apply num_v_in in Pc. split; [exact Pc|]. destruct (Vv c Hc Pc) as (E & _). cbn [equation]. lia.
      * destruct (count_surj (pp t) ((Nz - 1) * (Nx - 1)) (Z.to_nat e - (nu Nx Nz t + nv Nx Nz t))) as (c & Hc & Pc & Ec); [fold (np Nx Nz t); lia|].
        exists (P c). split; [exact Hc|]. apply num_p_in in Pc. split; [exact Pc|]. destruct (Pv c Hc Pc) as (E & _). cbn [equation]. lia.
  - intros [c|c|c] G F; cbn [equation unknown_node] in *.
    + destruct (EU c G) as (_ & Q2 & Q3). destruct (Z.eqb_spec (tu t c) (-12)) as [E|E]; [auto|].
      apply Q3; [|exact E]. destruct (pu t c) eqn:X; [|reflexivity]. exfalso. apply F. now apply num_u_in.
    + rewrite (EV c G). destruct (pv t c) eqn:X; [|reflexivity]. exfalso. apply F. now apply num_v_in.
    + rewrite (EP c G). destruct (pp t c) eqn:X; [|reflexivity]. exfalso. apply F. now apply num_p_in.
Qed.
Print Assumptions C28_numbering_is_a_bijection.

(** Numbers increase with the node index on each grid, so the rows of the
    matrix are in node order (hypothesis of C26). *)
Theorem C28_numbers_follow_node_order Nx Nz t eu0 ev0 ep0 n n' : 2 <= Nx -> periodic_east Nx Nz t ->
  let s := number Nx Nz t eu0 ev0 ep0 in
  on_grid Nx Nz n -> on_grid Nx Nz n' -> unknown_node t n -> unknown_node t n' ->
  match n, n' with U c, U c' | V c, V c' | P c, P c' => c < c' | U _, V _ | U _, P _ | V _, P _ => True | _, _ => False end ->
  (equation s n < equation s n')%Z.
Proof.
  intros Hx Hper s G G' F F' O.
  destruct (C28_numbering_is_a_bijection Nx Nz t eu0 ev0 ep0 Hx Hper) as (_ & _ & R & _). fold s in R.
  destruct n as [c|c|c], n' as [c'|c'|c']; try contradiction; cbn [equation unknown_node] in *.
  - apply num_u_in in F, F'. destruct (eu_val Nx Nz t eu0 ev0 ep0 Hx Hper c G F) as (E & _).
    destruct (eu_val Nx Nz t eu0 ev0 ep0 Hx Hper c' G' F') as (E' & _). fold s in E, E'.
    pose proof (count_lt (pu t) c c' O F). lia.
  - apply num_u_in in F. apply num_v_in in F'. destruct (eu_val Nx Nz t eu0 ev0 ep0 Hx Hper c G F) as (_ & E).
    destruct (ev_val Nx Nz t eu0 ev0 ep0 Hx Hper c' G' F') as (_ & E'). fold s in E, E'. lia.
  - pose proof (R (U c) G F). pose proof (R (P c') G' F'). cbn [equation] in *. lia.
  - apply num_v_in in F, F'. destruct (ev_val Nx Nz t eu0 ev0 ep0 Hx Hper c G F) as (E & _).
    destruct (ev_val Nx Nz t eu0 ev0 ep0 Hx Hper c' G' F') as (E' & _). fold s in E, E'.
    pose proof (count_lt (pv t) c c' O F). lia.
  - pose proof (R (V c) G F). pose proof (R (P c') G' F'). cbn [equation] in *. lia.
  - apply num_p_in in F, F'. destruct (ep_val Nx Nz t eu0 ev0 ep0 Hx Hper c G F) as (E & _).
    destruct (ep_val Nx Nz t eu0 ev0 ep0 Hx Hper c' G' F') as (E' & _). fold s in E, E'.
    pose proof (count_lt (pp t) c c' O F). lia.
Qed.
Print Assumptions C28_numbers_follow_node_order.

(** 3 x 3 vertices, laterally periodic; one pressure cell in the air. *)
Definition ex_types : types := Types
  (fun c => nth c [13;13;13; -2;-1;-12; -2;-1;-12; 30;30;30]%Z 30%Z)
  (fun c => nth c [-12;0;0;-12; -12;-1;2;-12; 30;30;30;30]%Z 30%Z)
  (fun c => nth c [-1;-1;31;-1]%Z 30%Z).
Example C28_types_ex : periodic_east 3 3 ex_types /\
  let s := number 3 3 ex_types (fun _ => 7%Z) (fun _ => 7%Z) (fun _ => 7%Z) in
  map (eqn_u s) (seq 0 12) = [-1;-1;-1; 0;1;0; 2;3;2; -1;-1;-1]%Z /\
  map (eqn_v s) (seq 0 12) = [-1;-1;-1;-1; -1;4;5;-1; -1;-1;-1;-1]%Z /\
  map (eqn_p s) (seq 0 4) = [6;7;-1;8]%Z /\ neq_mom s = 6%Z /\ inc s = 9%Z /\ incP s = 3%Z.
Proof.
  split.
  - intros c Hc E. cbn in Hc. do 12 (destruct c as [|c]; [vm_compute in E |- *; (reflexivity || discriminate)|]). lia.
  - vm_compute. repeat split.
Qed.

(** ** C29 *)

(** Documented codes. *)
Definition codes_u : list Z := [-1; 2; -2; 0; 11; 13; -12; 30]%Z.
Definition codes_v : list Z := [-1; 2; 0; 11; 13; -12; 30]%Z.
Definition codes_p : list Z := [-1; 0; 30; 31]%Z.

(** The update takes exactly the numbered nodes if, and only if, all codes are
    documented ones. *)
Theorem C29_predicates_agree_exactly_on_documented_codes t :
  (upd_uv t = num_u t <-> In t codes_u) /\ (upd_uv t = num_v t <-> In t codes_v) /\ (upd_p t = num_p t <-> In t codes_p).
Proof.
  unfold upd_uv, upd_p, num_u, num_v, num_p, codes_u, codes_v, codes_p. cbn [In].
  repeat match goal with |- context [Z.eqb t ?c] => destruct (Z.eqb_spec t c); [subst t; cbn; intuition (try discriminate; try lia)|] end;
  cbn; intuition (try discriminate; try lia).
Qed.
Print Assumptions C29_predicates_agree_exactly_on_documented_codes.

Definition documented Nx Nz t : Prop :=
  (forall c, c < (Nz + 1) * Nx -> In (tu t c) codes_u) /\
  (forall c, c < Nz * (Nx + 1) -> In (tv t c) codes_v) /\
  (forall c, c < (Nz - 1) * (Nx - 1) -> In (tp t c) codes_p).

Definition value (f : fields) (n : node) : R := match n with U c => u_in f c | V c => v_in f c | P c => p_in f c end.

Lemma extract_grid_at n sel ty eqn dx alpha a c : c < n ->
  extract_grid n sel ty eqn dx alpha a c = if sel (ty c) then (a c + alpha * dx (eqn c))%R else a c.
Proof.
  intros Hc. unfold extract_grid.
  rewrite (loop_map_if (fun c => sel (ty c)) (fun c v => v + alpha * dx (eqn c))%R n a c).
  now rewrite (proj2 (Nat.ltb_lt _ _) Hc).
Qed.

Theorem C29_update_touches_only_unknowns Nx Nz t eu0 ev0 ep0 dx alpha f :
  2 <= Nx -> periodic_east Nx Nz t -> documented Nx Nz t ->
  let s := number Nx Nz t eu0 ev0 ep0 in
  let f' := extract Nx Nz t s dx alpha f in
  (forall n, on_grid Nx Nz n -> unknown_node t n -> value f' n = (value f n + alpha * dx (equation s n))%R) /\
  (forall n, on_grid Nx Nz n -> ~ unknown_node t n ->
     match n with
     | U c => if Z.eqb (tu t c) (-12) then value f' n = value f' (U (c + 1 - Nx)) else value f' n = value f n
     | _ => value f' n = value f n
     end) /\
  (* entries read belong to the vector *)
  (forall e, In e (reads ((Nz + 1) * Nx) upd_uv (tu t) (eqn_u s) ++ reads (Nz * (Nx + 1)) upd_uv (tv t) (eqn_v s)
                   ++ reads ((Nz - 1) * (Nx - 1)) upd_p (tp t) (eqn_p s)) -> (0 <= e < inc s)%Z).
Proof.
  intros Hx Hper (Du & Dv & Dp) s f'.
  assert (Eu : forall c, c < (Nz + 1) * Nx -> upd_uv (tu t c) = num_u (tu t c))
    by (intros; now apply C29_predicates_agree_exactly_on_documented_codes, Du).
  assert (Ev : forall c, c < Nz * (Nx + 1) -> upd_uv (tv t c) = num_v (tv t c))
    by (intros; now apply C29_predicates_agree_exactly_on_documented_codes, Dv).
  assert (Ep : forall c, c < (Nz - 1) * (Nx - 1) -> upd_p (tp t c) = num_p (tp t c))
    by (intros; now apply C29_predicates_agree_exactly_on_documented_codes, Dp).
  assert (FU : forall c, c < (Nz + 1) * Nx -> tu t c <> (-12)%Z ->
     u_in f' c = if num_u (tu t c) then (u_in f c + alpha * dx (eqn_u s c))%R else u_in f c).
  { intros c Hc N. unfold f', extract. cbn [u_in]. rewrite (extract_periodic_spec Nx Nz t Hx Hper) by exact Hc.
    rewrite (proj2 (Z.eqb_neq _ _) N). now rewrite extract_grid_at, Eu by exact Hc. }
  assert (FV : forall c, c < Nz * (Nx + 1) -> v_in f' c = if num_v (tv t c) then (v_in f c + alpha * dx (eqn_v s c))%R else v_in f c).
  { intros c Hc. unfold f', extract. cbn [v_in]. now rewrite extract_grid_at, Ev by exact Hc. }
  assert (FP : forall c, c < (Nz - 1) * (Nx - 1) -> p_in f' c = if num_p (tp t c) then (p_in f c + alpha * dx (eqn_p s c))%R else p_in f c).
  { intros c Hc. unfold f', extract. cbn [p_in]. now rewrite extract_grid_at, Ep by exact Hc. }
  split; [|split].
  - intros [c|c|c] G F; cbn [value equation on_grid unknown_node] in *.
    + rewrite FU; [|exact G|intros E; rewrite E in F; cbn [In] in F; intuition discriminate].
      apply num_u_in in F. now rewrite F.
    + rewrite FV by exact G. apply num_v_in in F. now rewrite F.
    + rewrite FP by exact G. apply num_p_in in F. now rewrite F.
  - intros [c|c|c] G F; cbn [value on_grid unknown_node] in *.
    + destruct (Z.eqb_spec (tu t c) (-12)) as [E|E].
      * assert (West : tu t (c + 1 - Nx) <> (-12)%Z).
        { intros E'. pose proof (Hper c G E) as M. pose proof (Nat.div_mod c Nx ltac:(lia)) as D. rewrite M in D.
          assert (c + 1 - Nx < (Nz + 1) * Nx) as G' by lia. pose proof (Hper _ G' E') as M'.
          replace (c + 1 - Nx) with (c / Nx * Nx) in M' by lia.
          rewrite Nat.mod_mul in M' by lia. lia. }
        unfold f', extract. cbn [u_in]. rewrite !(extract_periodic_spec Nx Nz t Hx Hper) by lia.
        rewrite E, Z.eqb_refl. now rewrite (proj2 (Z.eqb_neq _ _) West).
      * rewrite FU by assumption. destruct (num_u (tu t c)) eqn:N; [|reflexivity].
        exfalso. apply F. now apply num_u_in.
    + rewrite FV by exact G. destruct (num_v (tv t c)) eqn:N; [|reflexivity]. exfalso. apply F. now apply num_v_in.
    + rewrite FP by exact G. destruct (num_p (tp t c)) eqn:N; [|reflexivity]. exfalso. apply F. now apply num_p_in.
  - intros e He. destruct (number_spec Nx Nz t eu0 ev0 ep0 Hx Hper) as (_ & _ & I & _). fold s in I.
    unfold reads in He. rewrite !in_app_iff in He. destruct He as [He|[He|He]];
      apply in_map_iff in He as (c & <- & He); apply filter_In in He as [He S]; apply in_seq in He.
    + rewrite Eu in S by lia. destruct (eu_val Nx Nz t eu0 ev0 ep0 Hx Hper c ltac:(lia) S) as (_ & R). fold s in R. lia.
    + rewrite Ev in S by lia. destruct (ev_val Nx Nz t eu0 ev0 ep0 Hx Hper c ltac:(lia) S) as (_ & R). fold s in R. lia.
    + rewrite Ep in S by lia. destruct (ep_val Nx Nz t eu0 ev0 ep0 Hx Hper c ltac:(lia) S) as (_ & R). fold s in R. lia.
Qed.
Print Assumptions C29_update_touches_only_unknowns.

(** Gathering the fields into the vector and adding them to zero fields gives
    the fields back at all unknowns; entries outside the system are not written. *)
Theorem C29_gather_then_scatter_is_identity Nx Nz t eu0 ev0 ep0 f x0 :
  2 <= Nx -> periodic_east Nx Nz t -> documented Nx Nz t ->
  let s := number Nx Nz t eu0 ev0 ep0 in
  let x := init_vector Nx Nz t s f x0 in
  let zero := Fields (fun _ => 0%R) (fun _ => 0%R) (fun _ => 0%R) in
  (forall n, on_grid Nx Nz n -> unknown_node t n ->
     x (equation s n) = value f n /\ value (extract Nx Nz t s x 1 zero) n = value f n) /\
  (forall e, (e < 0 \/ inc s <= e)%Z -> x e = x0 e).
Proof.
  intros Hx Hper D s x zero.
  destruct (init_vector_spec Nx Nz t eu0 ev0 ep0 Hx Hper f x0) as (A & B & C & O).
  fold s in A, B, C, O. fold x in A, B, C, O.
  split; [|exact O]. intros n G F.
  assert (E : x (equation s n) = value f n).
  { destruct n as [c|c|c]; cbn [equation value unknown_node on_grid] in *.
    - apply A; [exact G|now apply num_u_in]. - apply B; [exact G|now apply num_v_in]. - apply C; [exact G|now apply num_p_in]. }
  split; [exact E|].
  destruct (C29_update_touches_only_unknowns Nx Nz t eu0 ev0 ep0 x 1 zero Hx Hper D) as (X & _).
  fold s in X. rewrite (X n G F), E. destruct n; cbn [value zero u_in v_in p_in]; lra.
Qed.
Print Assumptions C29_gather_then_scatter_is_identity.

(** A code outside the documented ones (here the free-surface code 31 on a
    velocity node) makes the update read the vector at index -1. *)
Theorem C29_undocumented_code_reads_out_of_range_refuted :
  exists Nx Nz t, 2 <= Nx /\ periodic_east Nx Nz t /\
  let s := number Nx Nz t (fun _ => 0%Z) (fun _ => 0%Z) (fun _ => 0%Z) in
  In (-1)%Z (reads ((Nz + 1) * Nx) upd_uv (tu t) (eqn_u s)).
Proof.
  exists 2, 2, (Types (fun _ => 31%Z) (fun _ => 0%Z) (fun _ => 0%Z)). split; [lia|]. split.
  - intros c _ E. discriminate.
  - vm_compute. now left.
Qed.
Print Assumptions C29_undocumented_code_reads_out_of_range_refuted.

Example C29_documented_ex : documented 3 3 ex_types.
Proof.
  repeat split; intros c Hc; cbn in Hc.
  - do 12 (destruct c as [|c]; [vm_compute; tauto|]). lia.
  - do 12 (destruct c as [|c]; [vm_compute; tauto|]). lia.
  - do 4 (destruct c as [|c]; [vm_compute; tauto|]). lia.
Qed.

(** ** C30 *)

(** Specification: [(u, p)] solves the block system with right-hand sides taken
    from the momentum and continuity blocks. *)
Definition solves (s : blocks) (x : nat -> R) : Prop :=
  let n := neq (mA s) in let u := x in let p := fun j => x (n + j) in
  (forall i, i < n -> (apply_row (mA s) u i + apply_row (mB s) p i)%R = b (mA s) i) /\
  (forall i, i < neq (mC s) -> (apply_row (mC s) u i + apply_row (mD s) p i)%R = b (mC s) i).

(** Shapes of the four blocks. *)
Definition shaped (s : blocks) : Prop :=
  let n := neq (mA s) in let m := neq (mD s) in
  neq (mB s) = n /\ neq (mC s) = m /\
  csr (mA s) n /\ csr (mB s) m /\ csr (mC s) n /\ csr (mD s) m.

Definition same_matrices (s s' : blocks) : Prop :=
  forall f, In f [mA; mB; mC; mD] -> neq (f s') = neq (f s) /\ Ic (f s') = Ic (f s) /\ J (f s') = J (f s) /\ A (f s') = A (f s) /\ b (f s') = b (f s).

(** If the scale vectors of B and C agree with those of A and D, the scaled
    system is solved by [y] exactly when the original is solved by the vector
    scaled back. *)
Theorem C30_scaled_system_is_equivalent (s : blocks) y : shaped s ->
  (forall i, i < neq (mA s) -> d (mA s) i <> 0%R /\ d (mB s) i = d (mA s) i) ->
  (forall i, i < neq (mD s) -> d (mD s) i <> 0%R /\ d (mC s) i = d (mD s) i) ->
  solves (scale_matrix s) y <-> solves s (scale_back s y).
Proof.
  intros (nB & nC & SA & SB & SC & SD) HA HD.
  destruct (scale_back_at s y) as [X1 X2].
  set (x := scale_back s y) in *. clearbody x.
  destruct (scale_block_spec _ (mA s) (d (mA s)) (d (mA s)) (d (mA s)) SA) as (A1 & _ & _ & _ & A5 & _).
  destruct (scale_block_spec _ (mC s) (d (mD s)) (d (mA s)) (d (mC s)) SC) as (C1 & _ & _ & _ & C5 & _).
  unfold solves, scale_matrix. cbn [mA mB mC mD]. rewrite A1, C1.
  assert (RowM : forall i, i < neq (mA s) ->
    (apply_row (scale_block (neq (mA s)) (mA s) (d (mA s)) (d (mA s)) (d (mA s))) y i +
     apply_row (scale_block (neq (mB s)) (mB s) (d (mA s)) (d (mD s)) (d (mB s))) (fun j => y (neq (mA s) + j)%nat) i =
     d (mA s) i * (apply_row (mA s) x i + apply_row (mB s) (fun j => x (neq (mA s) + j)%nat) i))%R).
  { intros i Hi. rewrite (scale_block_row _ (mA s) _ _ _ y i SA Hi).
    rewrite (scale_block_row _ (mB s) _ _ _ _ i SB) by (rewrite nB; exact Hi).
    rewrite (apply_row_ext (mA s) _ (fun j => d (mA s) j * y j)%R x i SA Hi).
    2:{ intros j Hj. rewrite X1 by exact Hj. lra. }
    rewrite (apply_row_ext (mB s) _ (fun j => d (mD s) j * y (neq (mA s) + j)%nat)%R (fun j => x (neq (mA s) + j)) i SB).
    2:{ rewrite nB; exact Hi. } 2:{ intros j Hj. rewrite X2 by exact Hj. lra. }
    lra. }
  assert (RowC : forall i, i < neq (mC s) ->
    (apply_row (scale_block (neq (mC s)) (mC s) (d (mD s)) (d (mA s)) (d (mC s))) y i +
     apply_row (scale_block (neq (mC s)) (mD s) (d (mD s)) (d (mD s)) (d (mD s))) (fun j => y (neq (mA s) + j)%nat) i =
     d (mD s) i * (apply_row (mC s) x i + apply_row (mD s) (fun j => x (neq (mA s) + j)%nat) i))%R).
  { intros i Hi. rewrite (scale_block_row _ (mC s) _ _ _ y i SC Hi).
    rewrite nC in *. rewrite (scale_block_row _ (mD s) _ _ _ _ i SD Hi).
    rewrite (apply_row_ext (mC s) _ (fun j => d (mA s) j * y j)%R x i SC).
    2:{ rewrite nC; exact Hi. } 2:{ intros j Hj. rewrite X1 by exact Hj. lra. }
    rewrite (apply_row_ext (mD s) _ (fun j => d (mD s) j * y (neq (mA s) + j)%nat)%R (fun j => x (neq (mA s) + j)) i SD Hi).
    2:{ intros j Hj. rewrite X2 by exact Hj. lra. }
    lra. }
  split; intros [E1 E2]; split; intros i Hi.
  - specialize (E1 i Hi). rewrite RowM in E1 by exact Hi. rewrite (proj1 (A5 i Hi)) in E1.
    destruct (HA i Hi) as [N _]. apply (Rmult_eq_reg_l (d (mA s) i)); [|exact N]. lra.
  - specialize (E2 i Hi). rewrite RowC in E2 by exact Hi. rewrite (proj1 (C5 i Hi)) in E2.
    rewrite nC in Hi. destruct (HD i Hi) as [N E]. rewrite E in E2. apply (Rmult_eq_reg_l (d (mD s) i)); [|exact N]. lra.
  - rewrite RowM by exact Hi. rewrite (proj1 (A5 i Hi)), (E1 i Hi). lra.
  - rewrite RowC by exact Hi. rewrite (proj1 (C5 i Hi)), (E2 i Hi). rewrite nC in Hi. destruct (HD i Hi) as [_ ->]. lra.
Qed.
Print Assumptions C30_scaled_system_is_equivalent.

(** Every solution of the original system arises from one of the scaled system. *)
Theorem C30_every_solution_arises (s : blocks) x : shaped s ->
  (forall i, i < neq (mA s) -> d (mA s) i <> 0%R /\ d (mB s) i = d (mA s) i) ->
  (forall i, i < neq (mD s) -> d (mD s) i <> 0%R /\ d (mC s) i = d (mD s) i) ->
  solves s x ->
  exists y, solves (scale_matrix s) y /\
    (forall i, i < neq (mA s) + neq (mD s) -> scale_back s y i = x i).
Proof.
  intros Sh HA HD Sol.
  set (n := neq (mA s)).
  set (y := fun i => if i <? n then (x i / d (mA s) i)%R else (x i / d (mD s) (i - n))%R).
  exists y.
  assert (E : forall i, i < n + neq (mD s) -> scale_back s y i = x i).
  { destruct (scale_back_at s y) as [X1 X2]. intros i Hi. destruct (Nat.lt_ge_cases i n) as [L|L].
    - rewrite X1 by exact L. unfold y. rewrite (proj2 (Nat.ltb_lt i n) L). destruct (HA i L) as [N _]. field. exact N.
    - replace i with (n + (i - n)) by lia. fold n in X2. rewrite X2 by lia. unfold y.
      rewrite (proj2 (Nat.ltb_ge (n + (i - n)) n)) by lia. replace (n + (i - n) - n) with (i - n) by lia.
      destruct (HD (i - n) ltac:(lia)) as [N _]. field. exact N. }
  split; [|exact E].
  apply (C30_scaled_system_is_equivalent s y Sh HA HD).
  destruct Sh as (nB & nC & SA & SB & SC & SD). destruct Sol as [S1 S2].
  split; intros i Hi.
  - rewrite <- (S1 i Hi). f_equal.
    + apply (apply_row_ext (mA s) n); [exact SA|exact Hi|]. intros j Hj. apply E. unfold n. lia.
    + apply (apply_row_ext (mB s) (neq (mD s))); [exact SB|rewrite nB; exact Hi|]. intros j Hj. apply E. unfold n. lia.
  - rewrite <- (S2 i Hi). rewrite nC in Hi. f_equal.
    + apply (apply_row_ext (mC s) n); [exact SC|rewrite nC; exact Hi|]. intros j Hj. apply E. unfold n. lia.
    + apply (apply_row_ext (mD s) (neq (mD s))); [exact SD|exact Hi|]. intros j Hj. apply E. unfold n. lia.
Qed.
Print Assumptions C30_every_solution_arises.

(** The code's choice of scale vectors satisfies the agreement hypotheses: for
    the Picard scheme always, in Newton mode when the pressure block is empty (as
    it is assembled) and the scale vectors are initially one. *)
Theorem C30_scale_vectors_agree (s jac : blocks) : shaped s ->
  (let s' := extract_scale s in same_matrices s s' /\
     (forall i, i < neq (mA s) -> d (mB s') i = d (mA s') i) /\ (forall i, i < neq (mD s) -> d (mC s') i = d (mD s') i)) /\
  (neq (mD jac) = neq (mD s) -> neq (mA jac) = neq (mA s) ->
   (forall i, i < neq (mD jac) -> Ic (mD jac) (i + 1) = Ic (mD jac) i /\ d (mD jac) i = 1%R /\ d (mD s) i = 1%R) ->
   let s' := newton_scales s jac in same_matrices s s' /\ (forall i, i < neq (mD s) -> d (mC s') i = d (mD s') i)).
Proof.
  intros (nB & nC & _). split.
  - intros s'. split; [intros f [<-|[<-|[<-|[<-|[]]]]]; repeat split|]. split; intros i Hi.
    + cbn. now apply copy_d_at.
    + cbn. now apply copy_d_at.
  - intros ND NA Hd s'. split; [intros f [<-|[<-|[<-|[<-|[]]]]]; repeat split|].
    intros i Hi. cbn. rewrite copy_d_at by (now rewrite nC). rewrite copy_d_at by (now rewrite ND).
    rewrite extract_diagonal_empty by (intros; now apply Hd). destruct (Hd i ltac:(lia)) as (_ & -> & ->). reflexivity.
Qed.
Print Assumptions C30_scale_vectors_agree.

(** In Newton mode the scale vector of B is not updated, so the copy of the
    momentum right-hand side held by B differs from that held by A. *)
Theorem C30_newton_scale_of_B_agrees_refuted : exists s jac i, shaped s /\ shaped jac /\
  i < neq (mA s) /\ b (mA s) i = b (mB s) i /\
  b (mA (scale_matrix (newton_scales s jac))) i <> b (mB (scale_matrix (newton_scales s jac))) i.
Proof.
  set (one := Mat 1 (fun i => i) (fun _ => 0) (fun _ => 2%R) (fun _ => 1%R) (fun _ => 0%R) (fun _ => 1%R)).
  set (s := Blocks one one one one). exists s, s, 0.
  assert (C : csr one 1) by (split; cbn; intros; lia).
  assert (Sh : shaped s) by (repeat split; cbn; intros; lia).
  split; [exact Sh|]. split; [exact Sh|]. split; [cbn; lia|]. split; [reflexivity|].
  cbn. unfold upd. cbn. lra.
Qed.
Print Assumptions C30_newton_scale_of_B_agrees_refuted.

(** Two momentum equations, one continuity equation, diagonal scale (2, 4 | 1). *)
Definition ex_A : mat := Mat 2 (fun i => 2 * i) (fun k => k mod 2) (fun k => nth k [2; 1; 1; 4]%R 0%R) (fun _ => 1%R) (fun _ => 0%R) (fun _ => 1%R).
Definition ex_B : mat := Mat 2 (fun i => i) (fun k => 0) (fun k => nth k [1; -1]%R 0%R) (fun _ => 1%R) (fun _ => 0%R) (fun _ => 1%R).
Definition ex_C : mat := Mat 1 (fun i => 2 * i) (fun k => k) (fun k => nth k [1; -1]%R 0%R) (fun _ => 0%R) (fun _ => 0%R) (fun _ => 1%R).
Definition ex_D : mat := Mat 1 (fun i => 0) (fun k => 0) (fun _ => 0%R) (fun _ => 0%R) (fun _ => 0%R) (fun _ => 1%R).
Definition ex_blocks : blocks := extract_scale (Blocks ex_A ex_B ex_C ex_D).
Example C30_blocks_ex : shaped ex_blocks /\
  (forall i, i < neq (mA ex_blocks) -> d (mA ex_blocks) i <> 0%R /\ d (mB ex_blocks) i = d (mA ex_blocks) i) /\
  (forall i, i < neq (mD ex_blocks) -> d (mD ex_blocks) i <> 0%R /\ d (mC ex_blocks) i = d (mD ex_blocks) i) /\
  d (mA ex_blocks) 0 = 2%R /\ d (mA ex_blocks) 1 = 4%R.
Proof.
  split; [|split; [|split; [|split]]].
  - assert (CA : csr (mA ex_blocks) 2) by (split; [cbn; intros; lia|intros; apply Nat.mod_upper_bound; lia]).
    assert (CC : csr (mC ex_blocks) 2).
    { split; [cbn; intros; lia|]. intros i k Hi Hk. cbn in Hi. assert (i = 0) by lia. subst. cbn in *. lia. }
    split; [reflexivity|]. split; [reflexivity|]. split; [exact CA|]. split; [|split; [exact CC|]]; split; cbn; intros; lia.
  - intros i Hi. cbn in Hi. destruct i as [|[|i]]; [| |lia]; (split; [|reflexivity]).
    + change (d (mA ex_blocks) 0) with 2%R. lra.
    + change (d (mA ex_blocks) 1) with 4%R. lra.
  - intros i Hi. cbn in Hi. destruct i as [|i]; [|lia]; (split; [|reflexivity]).
    change (d (mD ex_blocks) 0) with 1%R. lra.
  - reflexivity.
  - reflexivity.
Qed.
