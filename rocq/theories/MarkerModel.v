(** * Marker inflow, initial layout and transmutation

    Transcription of
    - MDLIB/ParticleRoutines.c 549-682 (ParticleInflowCheck) with 758-828
      (AssignMarkerPropertiesInflow, direct_neighbour = 1),
    - MDLIB/ParticleRoutines.c 1261-1353 (PutPartInBox) with
      MDLIB/AdvectionRoutines.c 318-339 (isoutPart, [isout_part] of AdvModel) and
      MDLIB/InputOutput.c 1141-1145 (number of markers and size of the arrays),
    - MDLIB/ParticleRoutines.c 3570-3587 (TransmutateMarkers).
    Doubles are reals. *)
From Coq Require Import ZArith Reals List Bool.
Import ListNotations.
From Verif Require Import P2GModel AdvModel ReseedModel.
Local Open Scope R_scope.

(** ** Inflow *)
(** Position, phase, in-flow tag, and one value for all properties that are copied
    (758-815). The angle callback for incoming anisotropic markers (816-830) is left
    out. *)
Record inp : Type := Inp { ix : R; iz : R; iph : Z; itag : Z; ival : R }.
(** xg_coord[0], xg_coord[Nx-1], model.dx/2, Nb_part_max. *)
Record strip : Type := Strip { xw : R; xe : R; half : R; imax : nat }.

Definition between (a x b : R) : bool := Rgeb x a && Rgeb b x.

(** 573-604 (flag 0), one marker; the loop runs over all markers. *)
Definition tag_marker (g : strip) (m : inp) : inp :=
  Inp (ix m) (iz m) (iph m)
    (if negb (iph m =? -1)%Z && (between (xw g) (ix m) (xw g + half g) || between (xe g - half g) (ix m) (xe g)) then 1 else 0)%Z
    (ival m).

(** 557-571: ip_reuse. *)
Definition reusable (n : nat) (ms : nat -> inp) : list nat := filter (fun k => (iph (ms k) =? -1)%Z) (seq 0 n).

(** [free] is ip_reuse[0..np_reuse-1]; [fresh] is NewIndex, [None] before it is first set. *)
Record istate : Type := IState { icount : nat; iarr : nat -> inp; free : list nat; fresh : option nat }.

(** 624-637 (= 651-664): choice of the slot. *)
Definition take (g : strip) (st : istate) : istate :=
  match rev (free st) with
  | k :: r => IState (icount st) (iarr st) (rev r) (Some k)
  | [] => if (icount st <? imax g)%nat then IState (S (icount st)) (iarr st) [] (Some (icount st))
          else st
  end.
(** 621-644 (sign -1), 648-671 (sign +1). *)
Definition add_copy (g : strip) (shift : R) (k : nat) (st : istate) : result istate :=
  let m := iarr st k in
  let arr1 := nupd (iarr st) k (Inp (ix m) (iz m) (iph m) 2 (ival m)) in
  let st1 := take g (IState (icount st) arr1 (free st) (fresh st)) in
  match fresh st1 with
  | None => UB
  | Some j =>
      let s := arr1 k in
      Done (IState (icount st1) (nupd arr1 j (Inp (ix s + shift) (iz s) (iph s) (itag (arr1 j)) (ival s))) (free st1) (Some j))
  end.
(** 614-672: one marker. *)
Definition inflow_one (g : strip) (k : nat) (st : istate) : result istate :=
  let xW := xw g + half g in let xE := xe g - half g in
  if negb (iph (iarr st k) =? -1)%Z && (itag (iarr st k) =? 1)%Z then
    match (if between xW (ix (iarr st k)) (xW + half g) then add_copy g (- half g) k st else Done st) with
    | Done st1 => if between (xE - half g) (ix (iarr st1 k)) xE then add_copy g (half g) k st1 else Done st1
    | Exits c => Exits c
    | UB => UB
    end
  else Done st.
(** The loop runs while k < Nb_part, which grows inside it; [fuel] bounds the number of
    turns (Nb_part never exceeds Nb_part_max). *)
Fixpoint inflow_loop (g : strip) (fuel k : nat) (st : istate) : result istate :=
  match fuel with
  | O => Done st
  | S f => if (k <? icount st)%nat then
             match inflow_one g k st with Done st1 => inflow_loop g f (S k) st1 | Exits c => Exits c | UB => UB end
           else Done st
  end.
Definition inflow (g : strip) (n : nat) (ms : nat -> inp) : result istate :=
  inflow_loop g (S (imax g)) 0 (IState n ms (reusable n ms) None).

(** ** Initial layout *)
Record layout : Type := Layout {
  lNx : nat; lNz : nat; px_cell : nat; pz_cell : nat;   (** model.Nx, Nz, Nx_part, Nz_part *)
  ldom : dom;
  lsurf : option ((nat -> R) * (nat -> R));             (** topo.a, topo.b *)
  lnoise : bool }.
Definition lhx (l : layout) : R := (xmax (ldom l) - xmin (ldom l)) / INR (lNx l - 1).
Definition lhz (l : layout) : R := (zmax (ldom l) - zmin (ldom l)) / INR (lNz l - 1).
Definition dxp (l : layout) : R := lhx l / INR (px_cell l).
Definition dzp (l : layout) : R := lhz l / INR (pz_cell l).

(** 1280-1290: the sites in loop order: cell column j, cell row i, kj, ki. *)
Definition sites (l : layout) : list ((nat * nat) * (nat * nat)) :=
  list_prod (list_prod (seq 0 (lNx l - 1)) (seq 0 (lNz l - 1))) (list_prod (seq 0 (px_cell l)) (seq 0 (pz_cell l))).
Definition site_x (l : layout) (s : (nat * nat) * (nat * nat)) : R :=
  (xmin (ldom l) + INR (fst (fst s)) * lhx l) + dxp l * (INR (fst (snd s)) + 1 / 2).
Definition site_z (l : layout) (s : (nat * nat) * (nat * nat)) : R :=
  (zmin (ldom l) + INR (snd (fst s)) * lhz l) + dzp l * (INR (snd (snd s)) + 1 / 2).
(** 1297-1299 *)
Definition site_used (l : layout) (s : (nat * nat) * (nat * nat)) : bool :=
  match lsurf l with
  | None => true
  | Some (a, b) => Rltb (site_z l s) (b (fst (fst s)) + a (fst (fst s)) * site_x l s)
  end.
(** 1300-1316: marker number [np]; [rnd] are the successive values of
    rand()/RAND_MAX. PartInit has set the phase to 0 before. *)
Definition place (l : layout) (rnd : nat -> R) (np : nat) (s : (nat * nat) * (nat * nat)) : AdvModel.part :=
  if lnoise l then
    isout_part (ldom l) (AdvModel.Part (site_x l s + (2 * rnd (2 * np)%nat - 1) * dxp l * (1 / 10))
                              (site_z l s + (2 * rnd (2 * np + 1)%nat - 1) * dzp l * (1 / 10)) 0 0 0)
  else AdvModel.Part (site_x l s) (site_z l s) 0 0 0.
Fixpoint place_all (l : layout) (rnd : nat -> R) (np : nat) (ss : list ((nat * nat) * (nat * nat))) : list AdvModel.part :=
  match ss with
  | [] => []
  | s :: ss => if site_used l s then place l rnd np s :: place_all l rnd (S np) ss else place_all l rnd np ss
  end.
Definition put_in_box (l : layout) (rnd : nat -> R) : list AdvModel.part := place_all l rnd 0 (sites l).
(** InputOutput.c 1144-1145: size of the marker arrays (4.1*Nb_part truncated). *)
Definition array_size (l : layout) : Z := (up (41 / 10 * INR ((lNx l - 1) * (lNz l - 1) * px_cell l * pz_cell l)) - 1)%Z.

(** ** Transmutation *)
Record tmark : Type := Tmark { tph : Z; tdual : Z; tT : R }.
Record tmat : Type := Tmat { tkind : Z -> Z; tphase : Z -> Z; ttemp : Z -> R }.
(** Arrays of 20 phases (mdoodz.h 158-159): any other index is outside. *)
Definition transmute_one (t : tmat) (m : tmark) : result tmark :=
  let p := tph m in
  if (0 <=? p)%Z && (p <? 20)%Z then
    if ((tkind t p =? -1)%Z && Rgeb (ttemp t p) (tT m)) || ((tkind t p =? 1)%Z && Rgeb (tT m) (ttemp t p))
    then Done (Tmark (tphase t p) (tphase t p) (tT m)) else Done m
  else UB.
(** 3573: every k < Nb_part - 1, in any order [ks]. *)
Fixpoint transmute (t : tmat) (ks : list nat) (ms : nat -> tmark) : result (nat -> tmark) :=
  match ks with
  | [] => Done ms
  | k :: ks => match transmute_one t (ms k) with
               | Done m => transmute t ks (nupd ms k m) | Exits c => Exits c | UB => UB end
  end.
Definition transmute_loop (n : nat) : list nat := seq 0 (n - 1).
