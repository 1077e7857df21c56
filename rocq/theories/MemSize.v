(** Sizes after the allocations of MemModel.v. *)
From Coq Require Import List Arith NArith ZArith Bool String Lia.
From Verif Require Import MemModel MemProofs MemRun MemFit.
Import ListNotations.
Open Scope string_scope.
Open Scope list_scope.
Open Scope nat_scope.

(** ** Specification: bytes of an array, from its name *)
Definition ends (t s : string) : bool := (String.substring (String.length s - String.length t) (String.length t) s =? t)%string.
Definition is (p : string) (l : list string) (s : string) : bool := existsb (fun x => (p ++ x =? s)%string) l.
Definition mesh (l : list string) (s : string) : bool := is "mesh->" l s.
Definition bytes_by_name (o : opts) (s : string) : option N :=
  let X := nx o in let Z := nz o in
  (if prefix "particles->" s then Some (npmax o * (if is "particles->" ["phase"; "generation"; "dual"; "intag"] s then 4 else 8))
   else if prefix "Nmodel." s then Some ((nit_max o + 1) * (if (s =? "Nmodel.LogIsNewtonStep")%string then 4 else 8))
   else if prefix "topo_chain->" s || prefix "topo_chain_ini->" s then Some (50 * X * (if ends "->phase" s then 4 else 8))
   else if prefix "topo->" s || prefix "topo_ini->" s then
     Some (if ends "->vz" s then 8 * (X + 1) else if ends "->height_finer_c" s then 8 * (2 * (X - 1))
           else if ends "->a" s || ends "->b" s || ends "->a0" s || ends "->b0" s then 8 * (X - 1) else 8 * X)
   else if negb (prefix "mesh->" s) then None
   else if ends "_time" s then Some (8 * (nt o + 1))
   else if ends "_n" s then Some (8 * ((X - 1) * (Z - 1)))
   else if ends "_s" s then Some (8 * (X * Z))
   else if mesh ["p"; "rp"; "rhs_p"; "p_in"; "p_corr"; "p_start"; "p_lith"; "p_lith0"; "dp"; "div_u"; "div_u_el"; "div_u_pl"; "div_u_r"; "Qrho"; "sxxd"; "szzd"; "sxxd0"; "szzd0";
                 "exxd"; "ezzd"; "Cp"; "Qr"; "rhs_t"; "Wdiss"; "Wel"; "Wtot"; "alp"; "T"; "eII_el"; "eII_pl"; "eII_pwl"; "eII_exp"; "eII_lin"; "eII_gbs"; "eII_cst"; "comp_cells";
                 "BCp.val"; "BCt.val"; "BCc.val"] s then Some (8 * ((X - 1) * (Z - 1)))
   else if mesh ["sxz"; "exz"; "wxz"; "sxz0"; "BCg.val"] s then Some (8 * (X * Z))
   else if mesh ["u"; "ru"; "rhs_u"; "gx"; "u_in"; "u_start"; "u_adv"; "roger_x"; "kx"; "kc_x"; "VzVx"; "BCu.val"] s then Some (8 * (X * (Z + 1)))
   else if mesh ["v"; "rv"; "rhs_v"; "gz"; "v_in"; "v_start"; "v_adv"; "roger_z"; "kz"; "kc_z"; "VxVz"; "BCv.val"] s then Some (8 * ((X + 1) * Z))
   else if mesh ["BCp_exp.val"; "BCT_exp.val"; "BCC_exp.val"] s then Some (8 * ((X + 1) * (Z + 1)))
   else if mesh ["BCt_fine.val"] s then Some (8 * (2 * (X - 1) * (2 * (Z - 1))))
   else if mesh ["xg_coord"; "xg_coord0"] s then Some (8 * X)
   else if mesh ["zg_coord"; "zg_coord0"; "vert_min_z"; "vert_max_z"] s then Some (8 * Z)
   else if mesh ["xg_coord_ext"] s then Some (8 * (X + 2)) else if mesh ["zg_coord_ext"] s then Some (8 * (Z + 2))
   else if mesh ["xvz_coord"] s then Some (8 * (X + 1)) else if mesh ["zvx_coord"] s then Some (8 * (Z + 1))
   else if mesh ["xc_coord"; "szz_S"; "szz_N"] s then Some (8 * (X - 1))
   else if mesh ["zc_coord"; "sxx_W"; "sxx_E"; "cell_min_z"; "cell_max_z"] s then Some (8 * (Z - 1))
   else if mesh ["BCp.type"; "BCt.type"; "BCc.type"] s then Some ((X - 1) * (Z - 1))
   else if mesh ["BCg.type"] s then Some (X * Z)
   else if mesh ["BCu.type"] s then Some (X * (Z + 1)) else if mesh ["BCv.type"] s then Some ((X + 1) * Z)
   else if mesh ["BCp_exp.type"; "BCT_exp.type"; "BCC_exp.type"] s then Some ((X + 1) * (Z + 1))
   else if mesh ["BCt_fine.type"] s then Some (2 * (X - 1) * (2 * (Z - 1)))
   else if mesh ["kp"; "lp"; "nb_part_cell"] s then Some (4 * ((X - 1) * (Z - 1)))
   else if mesh ["kn"; "ln"; "nb_part_vert"] s then Some (4 * (X * Z))
   else if mesh ["kvx"; "lvx"] s then Some (4 * (X * (Z + 1))) else if mesh ["kvz"; "lvz"] s then Some (4 * ((X + 1) * Z))
   else if mesh ["phase_perc_n[]"; "phase_perc_s[]"; "phase_eta_n[]"; "phase_eta_s[]"] s then Some (8 * N.of_nat (nph o))
   else None)%N.

Definition family (s : string) : bool :=
  existsb (fun p => prefix p s) ["mesh->"; "particles->"; "Nmodel."; "topo_chain->"; "topo_chain_ini->"; "topo->"; "topo_ini->"].
Definition conforms (o : opts) (t : stmt) : Prop :=
  match t with
  | Do (Get f z) => family (fst f) = false \/ bytes_by_name o (fst f) = Some z
  | GetEach _ _ _ e z => family e = false \/ bytes_by_name o e = Some z
  | _ => True
  end.
Ltac conf o := cbn [conforms get fst];
  first [ exact I
        | left; vm_compute; reflexivity
        | right; unfold cells, verts, vxn, vzn, expd; let s := match goal with |- bytes_by_name _ ?s = _ => s end in
          let r := eval cbv -[N.mul N.add N.sub N.of_nat nx nz nt npmax nit_max nph] in (bytes_by_name o s) in change (bytes_by_name o s) with r; f_equal; lia ].
Lemma rest1_conforms o : Forall (fun q => Forall (conforms o) (snd q)) (sections1 o).
Proof.
  unfold sections1. repeat (apply Forall_app; split); (apply Forall_cons; [|apply Forall_nil]); cbn [snd];
    unfold AllocatePhaseDiagrams, ReadTables, table, AllocateMarkerChain; cbn [app]; repeat (apply Forall_cons; [conf o|]); apply Forall_nil.
Qed.

Lemma live_from x l n : lrun x l = Some (SLive n) -> x = SLive n \/ exists f, In (Get f n) l.
Proof.
  revert x. induction l as [|p l IH]; intros x; cbn [lrun].
  - intros H. injection H as ->. auto.
  - destruct (lstep x p) as [y|] eqn:E; [|discriminate]. intros H. destruct (IH y H) as [->|[f Hf]]; [|right; exists f; right; exact Hf].
    destruct p as [f m|f|f k|f]; cbn in E.
    + destruct x; try discriminate; injection E as ->; right; exists f; left; reflexivity.
    + destruct x; discriminate.
    + destruct x; try discriminate. destruct (_ <=? _)%N; [|discriminate]. injection E as ->. auto.
    + destruct x; try discriminate.
Qed.
Lemma loc_get f t g n : In (Get g n) (loc f t) -> t = Do (Get f n) \/ exists m c b, t = GetEach m c b (fst f) n.
Proof.
  destruct t as [p|m c b e z|m c b e]; cbn [loc].
  - unfold on. destruct (var_eqb_spec (subject p) f) as [E|]; [|intros []]. intros [->|[]]. cbn in E. subst. auto.
  - destruct (var_eqb_spec (b, 0) f); [intros H; apply in_map_iff in H; destruct H as [k [K _]]; discriminate|].
    destruct (String.eqb_spec e (fst f)) as [->|]; [|intros []]. destruct (_ && _); [|intros []]. intros [H|[]]. injection H as _ <-. eauto.
  - destruct (var_eqb_spec (b, 0) f); [intros H; apply in_map_iff in H; destruct H as [k [K _]]; discriminate|].
    destruct (String.eqb_spec e (fst f)) as [->|]; [|intros []]. destruct (_ && _); [|intros []]. intros [H|[]]. discriminate.
Qed.
Lemma sizes o s f b n : exec initial (ops (startup o)) = Some s -> family (fst f) = true -> value s f = Block b -> size_of s b = Some n ->
  bytes_by_name o (fst f) = Some n.
Proof.
  intros E F V Sz. destruct (startup_ok o) as [s' [E' Iv]]. rewrite E in E'. injection E' as <-.
  assert (NF : ~ In (fst f) four) by (intros K; cbn in K; destruct K as [K|[K|[K|[K|[]]]]]; rewrite <- K in F; discriminate).
  pose proof (i_agrees _ _ Iv f) as A. destruct (after o f) eqn:Ea; cbn in A.
  - congruence.
  - congruence.
  - congruence.
  - destruct A as [c [A1 A2]]. rewrite V in A1. injection A1 as <-. rewrite Sz in A2. injection A2 as <-.
    pose proof (part1_run o f) as P. rewrite Ea in P. destruct f as [x i]. unfold part1 in P. rewrite read_part in P by exact NF. cbn [app] in P.
    destruct (live_from _ _ _ P) as [K|[g G]]; [unfold start in K; destruct (zeroed _); discriminate|].
    apply in_flat_map in G. destruct G as [t [Ht G]]. rewrite sections1_spec in Ht. apply in_flat_map in Ht. destruct Ht as [q [Hq Ht]].
    pose proof (rest1_conforms o) as C. rewrite Forall_forall in C. specialize (C q Hq). rewrite Forall_forall in C.
    assert (Ht' : In t (snd q)) by (destruct (flags o (fst q)); [exact Ht|destruct Ht]). specialize (C t Ht').
    destruct (loc_get _ _ _ _ G) as [->|(m & c & b' & ->)]; cbn [conforms fst] in *; (destruct C as [C|C]; [congruence|exact C]).
  - destruct A as [c [A1 A2]]. rewrite V in A1. injection A1 as <-. congruence.
Qed.
