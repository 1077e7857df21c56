(** Checkpoint ("Breakpoint") files: MakeBreakpointParticles and
    LoadBreakpointParticles (MDLIB/InputOutput.c 145-495 and 502-1002).

    Memory is modelled as raw bytes: every C array or scalar that the two
    functions touch is a named object holding its bytes.  fwrite copies the
    first size*count bytes of an object to the file, fread copies them back.
    Multiplication and division of a double by a unit are left abstract
    (arbitrary functions on 8-byte words), so results hold for the real
    IEEE operations with their rounding.

    Simplifications:
    - distinct names are distinct objects (no aliasing);
    - the scaling loops are given per array instead of interleaved per index;
      every loop touches each listed element exactly once;
    - a failing fopen (printf, then exit) is not modelled. *)
From Coq Require Import List Arith Bool String.
From Coq Require Import Init.Byte.
Import ListNotations.
Open Scope string_scope.
Open Scope list_scope.

Definition fid := (string * nat)%type.     (* name, index of a pointer array *)
Definition fid_eqb (a b : fid) : bool := (fst a =? fst b)%string && (snd a =? snd b)%nat.
Definition mem := fid -> list byte.
Definition upd (m : mem) (f : fid) (v : list byte) : mem :=
  fun g => if fid_eqb f g then v else m g.

(* little-endian unsigned value of an int object (x86: mdoodz targets) *)
Fixpoint le_nat (l : list byte) : nat :=
  match l with [] => 0 | b :: r => Byte.to_nat b + 256 * le_nat r end.
Definition int_of (m : mem) (f : string) : nat := le_nat (firstn 4 (m (f, 0))).

(* switches and sizes in force: model->Nx, Nz, Nt, Nb_phases and the tests
   "== 1" on the five flags *)
Record cfg := mkcfg { c_Nx : nat; c_Nz : nat; c_Nt : nat; c_nph : nat;
  c_fs : bool; c_el : bool; c_fst : bool; c_an : bool; c_tr : bool }.

(* number of elements given to fread/fwrite, or loop extent *)
Inductive count :=
| one | cells (* (Nx-1)*(Nz-1), Ncx*Ncz *) | verts (* Nx*Nz *)
| vxn (* Nx*(Nz+1) *) | vzn (* (Nx+1)*Nz *) | nx | ncx (* Nx-1 *) | nxp1 (* Nx+1 *)
| ntp1 (* Nt+1 *) | nb (f : string) (* the int stored in object f *).

Definition count_val (c : cfg) (m : mem) (n : count) : nat :=
  match n with
  | one => 1
  | cells => (c_Nx c - 1) * (c_Nz c - 1)
  | verts => c_Nx c * c_Nz c
  | vxn => c_Nx c * (c_Nz c + 1)
  | vzn => (c_Nx c + 1) * c_Nz c
  | nx => c_Nx c
  | ncx => c_Nx c - 1
  | nxp1 => c_Nx c + 1
  | ntp1 => c_Nt c + 1
  | nb f => int_of m f
  end.

(* element size: the literal 1 or one of the local ints s1..s4 *)
Inductive esize := SzLit (n : nat) | SzVar (v : string).
Definition size_val (m : mem) (s : esize) : nat :=
  match s with SzLit n => n | SzVar v => int_of m v end.

Record item := mkitem { i_name : fid; i_size : esize; i_count : count }.
Definition it (s : string) := mkitem (s, 0).
Definition bytes_of (c : cfg) (m : mem) (i : item) : nat :=
  size_val m (i_size i) * count_val c m (i_count i).

(* fwrite: None = reads beyond the object *)
Definition fwrite (c : cfg) (m : mem) (i : item) : option (list byte) :=
  let n := bytes_of c m i in
  if (n <=? List.length (m (i_name i)))%nat then Some (firstn n (m (i_name i))) else None.

Fixpoint fwrite_all (c : cfg) (m : mem) (l : list item) : option (list byte) :=
  match l with
  | [] => Some []
  | i :: r => match fwrite c m i, fwrite_all c m r with
              | Some a, Some b => Some (a ++ b)
              | _, _ => None
              end
  end.

(* fread: stops silently at end of file; None = writes beyond the object *)
Definition fread (c : cfg) (m : mem) (file : list byte) (i : item)
  : option (mem * list byte) :=
  let n := bytes_of c m i in
  let got := firstn n file in
  if (List.length got <=? List.length (m (i_name i)))%nat
  then Some (upd m (i_name i) (got ++ skipn (List.length got) (m (i_name i))), skipn n file)
  else None.

Fixpoint fread_all (c : cfg) (m : mem) (file : list byte) (l : list item)
  : option (mem * list byte) :=
  match l with
  | [] => Some (m, file)
  | i :: r => match fread c m file i with
              | Some (m', file') => fread_all c m' file' r
              | None => None
              end
  end.

Definition sec (b : bool) (l : list item) : list item := if b then l else [].

(* units of the scaling loops *)
Inductive unit_ := u_t | u_L | u_S | u_T | u_E | u_rho | u_V | u_eta | u_1 | u_rhoEL2.
Record scl := mkscl { s_name : fid; s_count : count; s_unit : unit_ }.
Definition sc (s : string) := mkscl (s, 0).
Definition secs (b : bool) (l : list scl) : list scl := if b then l else [].

(* apply a word operation to the first n doubles of an object *)
Fixpoint map_words (n : nat) (f : list byte -> list byte) (l : list byte) : list byte :=
  match n with
  | 0 => l
  | S k => f (firstn 8 l) ++ map_words k f (skipn 8 l)
  end.

Definition scale1 (op : unit_ -> list byte -> list byte) (c : cfg) (m : mem) (s : scl) : mem :=
  upd m (s_name s) (map_words (count_val c m (s_count s)) (op (s_unit s)) (m (s_name s))).
Definition scale_all op c (m : mem) (l : list scl) : mem := fold_left (scale1 op c) l m.

(** ** Transcribed statement lists; the number is the line in InputOutput.c *)
Definition w_header : list item := [
  it "s1"                   (SzLit 1)    one (* 677 *);
  it "s2"                   (SzLit 1)    one (* 678 *);
  it "s3"                   (SzLit 1)    one (* 679 *);
  it "s4"                   (SzLit 1)    one (* 680 *) ].

Definition w_pre (c : cfg) : list item :=
 [ it "model.dt"               (SzVar "s2") one (* 681 *);
   it "model.dt0"              (SzVar "s2") one (* 682 *);
   it "model.time"             (SzVar "s2") one (* 683 *);
   it "model.xmin"             (SzVar "s2") one (* 684 *);
   it "model.xmax"             (SzVar "s2") one (* 685 *);
   it "model.zmin"             (SzVar "s2") one (* 686 *);
   it "model.zmax"             (SzVar "s2") one (* 687 *) ] ++
 sec (c_fs c)
 [ it "topo_chain->Nb_part"    (SzVar "s1") one (* 690 *);
   it "topo_chain->x"          (SzVar "s3") (nb "topo_chain->Nb_part") (* 691 *);
   it "topo_chain->z"          (SzVar "s3") (nb "topo_chain->Nb_part") (* 692 *);
   it "topo_chain->Vx"         (SzVar "s3") (nb "topo_chain->Nb_part") (* 693 *);
   it "topo_chain->Vz"         (SzVar "s3") (nb "topo_chain->Nb_part") (* 694 *);
   it "topo_chain_ini->Nb_part" (SzVar "s1") one (* 696 *);
   it "topo_chain_ini->x"      (SzVar "s3") (nb "topo_chain_ini->Nb_part") (* 697 *);
   it "topo_chain_ini->z"      (SzVar "s3") (nb "topo_chain_ini->Nb_part") (* 698 *);
   it "topo_chain_ini->Vx"     (SzVar "s3") (nb "topo_chain_ini->Nb_part") (* 699 *);
   it "topo_chain_ini->Vz"     (SzVar "s3") (nb "topo_chain_ini->Nb_part") (* 700 *) ] ++
 [ it "particles->Nb_part"     (SzVar "s1") one (* 703 *);
   it "particles->x"           (SzVar "s3") (nb "particles->Nb_part") (* 704 *);
   it "particles->z"           (SzVar "s3") (nb "particles->Nb_part") (* 705 *);
   it "particles->P"           (SzVar "s3") (nb "particles->Nb_part") (* 706 *);
   it "particles->rho"         (SzVar "s3") (nb "particles->Nb_part") (* 707 *);
   it "particles->Vx"          (SzVar "s3") (nb "particles->Nb_part") (* 708 *);
   it "particles->Vz"          (SzVar "s3") (nb "particles->Nb_part") (* 709 *);
   it "particles->phi"         (SzVar "s3") (nb "particles->Nb_part") (* 710 *);
   it "particles->X"           (SzVar "s3") (nb "particles->Nb_part") (* 711 *);
   it "particles->noise"       (SzVar "s3") (nb "particles->Nb_part") (* 712 *);
   it "particles->phase"       (SzVar "s1") (nb "particles->Nb_part") (* 713 *);
   it "particles->dual"        (SzVar "s1") (nb "particles->Nb_part") (* 714 *) ] ++
 sec (c_el c)
 [ it "particles->sxxd"        (SzVar "s3") (nb "particles->Nb_part") (* 717 *);
   it "particles->szzd"        (SzVar "s3") (nb "particles->Nb_part") (* 718 *);
   it "particles->sxz"         (SzVar "s3") (nb "particles->Nb_part") (* 719 *);
   it "mesh->eta_n"            (SzVar "s3") cells (* 724 *);
   it "mesh->VE_n"             (SzVar "s3") cells (* 725 *);
   it "mesh->eta_s"            (SzVar "s3") verts (* 726 *);
   it "mesh->VE_s"             (SzVar "s3") verts (* 727 *) ] ++
 [ it "particles->strain"      (SzVar "s3") (nb "particles->Nb_part") (* 730 *);
   it "particles->strain_el"   (SzVar "s3") (nb "particles->Nb_part") (* 731 *);
   it "particles->strain_pl"   (SzVar "s3") (nb "particles->Nb_part") (* 732 *);
   it "particles->strain_pwl"  (SzVar "s3") (nb "particles->Nb_part") (* 733 *);
   it "particles->strain_exp"  (SzVar "s3") (nb "particles->Nb_part") (* 734 *);
   it "particles->strain_lin"  (SzVar "s3") (nb "particles->Nb_part") (* 735 *);
   it "particles->strain_gbs"  (SzVar "s3") (nb "particles->Nb_part") (* 736 *);
   it "particles->d"           (SzVar "s3") (nb "particles->Nb_part") (* 737 *) ] ++
 sec (c_fst c)
 [ it "particles->Fxx"         (SzVar "s3") (nb "particles->Nb_part") (* 740 *);
   it "particles->Fxz"         (SzVar "s3") (nb "particles->Nb_part") (* 741 *);
   it "particles->Fzx"         (SzVar "s3") (nb "particles->Nb_part") (* 742 *);
   it "particles->Fzz"         (SzVar "s3") (nb "particles->Nb_part") (* 743 *) ] ++
 sec (c_an c)
 [ it "particles->nx"          (SzVar "s3") (nb "particles->Nb_part") (* 747 *);
   it "particles->nz"          (SzVar "s3") (nb "particles->Nb_part") (* 748 *) ] ++
 sec (c_tr c)
 [ it "particles->T0"          (SzVar "s3") (nb "particles->Nb_part") (* 752 *);
   it "particles->P0"          (SzVar "s3") (nb "particles->Nb_part") (* 753 *);
   it "particles->x0"          (SzVar "s3") (nb "particles->Nb_part") (* 754 *);
   it "particles->z0"          (SzVar "s3") (nb "particles->Nb_part") (* 755 *);
   it "particles->Tmax"        (SzVar "s3") (nb "particles->Nb_part") (* 756 *);
   it "particles->Pmax"        (SzVar "s3") (nb "particles->Nb_part") (* 757 *) ] ++
 [ it "particles->divth"       (SzVar "s3") (nb "particles->Nb_part") (* 760 *);
   it "particles->T"           (SzVar "s3") (nb "particles->Nb_part") (* 761 *);
   it "mesh->p0_n"             (SzVar "s3") cells (* 762 *);
   it "mesh->T0_n"             (SzVar "s3") cells (* 763 *);
   it "mesh->divth0_n"         (SzVar "s3") cells (* 764 *);
   it "mesh->X0_n"             (SzVar "s3") cells (* 765 *);
   it "mesh->d0_n"             (SzVar "s3") cells (* 766 *);
   it "mesh->phi0_n"           (SzVar "s3") cells (* 767 *);
   it "mesh->rho0_n"           (SzVar "s3") cells (* 768 *);
   it "mesh->sxxd0"            (SzVar "s3") cells (* 769 *);
   it "mesh->szzd0"            (SzVar "s3") cells (* 770 *);
   it "mesh->X0_s"             (SzVar "s3") verts (* 772 *);
   it "mesh->sxz0"             (SzVar "s3") verts (* 773 *);
   it "mesh->eta_phys_n"       (SzVar "s3") cells (* 775 *);
   it "mesh->eta_phys_s"       (SzVar "s3") verts (* 776 *);
   it "mesh->u_in"             (SzVar "s3") vxn (* 778 *);
   it "mesh->v_in"             (SzVar "s3") vzn (* 779 *);
   it "mesh->p_in"             (SzVar "s3") cells (* 780 *);
   it "mesh->p_lith"           (SzVar "s3") cells (* 781 *);
   it "mesh->p_lith0"          (SzVar "s3") cells (* 782 *);
   it "mesh->Uthermal"         (SzVar "s3") one (* 784 *);
   it "mesh->Work"             (SzVar "s3") one (* 785 *);
   it "model.L0"               (SzVar "s3") one (* 786 *) ] ++
 sec (c_fs c)
 [ it "topo->height"           (SzVar "s3") nx (* 791 *);
   it "topo->height0"          (SzVar "s3") nx (* 792 *);
   it "topo->a"                (SzVar "s3") ncx (* 793 *);
   it "topo->a0"               (SzVar "s3") ncx (* 794 *);
   it "topo->b"                (SzVar "s3") ncx (* 795 *);
   it "topo->b0"               (SzVar "s3") ncx (* 796 *);
   it "topo->vx"               (SzVar "s3") nx (* 797 *);
   it "topo->vz"               (SzVar "s3") nxp1 (* 798 *);
   it "topo_ini->height"       (SzVar "s3") nx (* 799 *);
   it "topo_ini->height0"      (SzVar "s3") nx (* 800 *);
   it "topo_ini->a"            (SzVar "s3") ncx (* 801 *);
   it "topo_ini->a0"           (SzVar "s3") ncx (* 802 *);
   it "topo_ini->b"            (SzVar "s3") ncx (* 803 *);
   it "topo_ini->b0"           (SzVar "s3") ncx (* 804 *);
   it "topo_ini->vx"           (SzVar "s3") nx (* 805 *);
   it "topo_ini->vz"           (SzVar "s3") nxp1 (* 806 *) ] ++
 [ it "mesh->BCt.type"         (SzVar "s4") cells (* 809 *);
   it "mesh->BCp.type"         (SzVar "s4") cells (* 810 *);
   it "mesh->BCu.type"         (SzVar "s4") vxn (* 811 *);
   it "mesh->BCv.type"         (SzVar "s4") vzn (* 812 *);
   it "mesh->BCg.type"         (SzVar "s4") verts (* 813 *);
   it "mesh->BCp.val"          (SzVar "s3") cells (* 814 *);
   it "mesh->BCu.val"          (SzVar "s3") vxn (* 815 *);
   it "mesh->BCv.val"          (SzVar "s3") vzn (* 816 *);
   it "mesh->BCg.val"          (SzVar "s3") verts (* 817 *) ].

Definition w_post (c : cfg) : list item :=
 [ it "mesh->nb_part_cell"     (SzVar "s1") cells (* 826 *);
   it "mesh->nb_part_vert"     (SzVar "s1") verts (* 827 *) ].

Definition w_series (c : cfg) : list item :=
 [ it "mesh->Time_time"        (SzVar "s3") ntp1 (* 830 *);
   it "mesh->Short_time"       (SzVar "s3") ntp1 (* 831 *);
   it "mesh->Work_time"        (SzVar "s3") ntp1 (* 832 *);
   it "mesh->Uthermal_time"    (SzVar "s3") ntp1 (* 833 *);
   it "mesh->Uelastic_time"    (SzVar "s3") ntp1 (* 834 *);
   it "mesh->T_mean_time"      (SzVar "s3") ntp1 (* 835 *);
   it "mesh->P_mean_time"      (SzVar "s3") ntp1 (* 836 *);
   it "mesh->sxxd_mean_time"   (SzVar "s3") ntp1 (* 837 *);
   it "mesh->szzd_mean_time"   (SzVar "s3") ntp1 (* 838 *);
   it "mesh->sxz_mean_time"    (SzVar "s3") ntp1 (* 839 *);
   it "mesh->Tii_mean_time"    (SzVar "s3") ntp1 (* 840 *);
   it "mesh->exxd_mean_time"   (SzVar "s3") ntp1 (* 841 *);
   it "mesh->ezzd_mean_time"   (SzVar "s3") ntp1 (* 842 *);
   it "mesh->exz_mean_time"    (SzVar "s3") ntp1 (* 843 *);
   it "mesh->Eii_mean_time"    (SzVar "s3") ntp1 (* 844 *) ].

Definition w_phase (k : nat) : list item :=
 [ mkitem ("mesh->phase_perc_n", k) (SzVar "s3") cells (* 823 *);
   mkitem ("mesh->phase_perc_s", k) (SzVar "s3") verts (* 824 *) ].

Definition r_header : list item := [
  it "s1"                   (SzLit 1)    one (* 166 *);
  it "s2"                   (SzLit 1)    one (* 167 *);
  it "s3"                   (SzLit 1)    one (* 168 *);
  it "s4"                   (SzLit 1)    one (* 169 *) ].

Definition r_pre (c : cfg) : list item :=
 [ it "model.dt"               (SzVar "s2") one (* 170 *);
   it "model.dt0"              (SzVar "s2") one (* 171 *);
   it "model.time"             (SzVar "s2") one (* 172 *);
   it "model.xmin"             (SzVar "s2") one (* 173 *);
   it "model.xmax"             (SzVar "s2") one (* 174 *);
   it "model.zmin"             (SzVar "s2") one (* 175 *);
   it "model.zmax"             (SzVar "s2") one (* 176 *) ] ++
 sec (c_fs c)
 [ it "topo_chain->Nb_part"    (SzVar "s1") one (* 180 *);
   it "topo_chain->x"          (SzVar "s3") (nb "topo_chain->Nb_part") (* 181 *);
   it "topo_chain->z"          (SzVar "s3") (nb "topo_chain->Nb_part") (* 182 *);
   it "topo_chain->Vx"         (SzVar "s3") (nb "topo_chain->Nb_part") (* 183 *);
   it "topo_chain->Vz"         (SzVar "s3") (nb "topo_chain->Nb_part") (* 184 *);
   it "topo_chain_ini->Nb_part" (SzVar "s1") one (* 186 *);
   it "topo_chain_ini->x"      (SzVar "s3") (nb "topo_chain_ini->Nb_part") (* 187 *);
   it "topo_chain_ini->z"      (SzVar "s3") (nb "topo_chain_ini->Nb_part") (* 188 *);
   it "topo_chain_ini->Vx"     (SzVar "s3") (nb "topo_chain_ini->Nb_part") (* 189 *);
   it "topo_chain_ini->Vz"     (SzVar "s3") (nb "topo_chain_ini->Nb_part") (* 190 *) ] ++
 [ it "particles->Nb_part"     (SzVar "s1") one (* 193 *);
   it "particles->x"           (SzVar "s3") (nb "particles->Nb_part") (* 194 *);
   it "particles->z"           (SzVar "s3") (nb "particles->Nb_part") (* 195 *);
   it "particles->P"           (SzVar "s3") (nb "particles->Nb_part") (* 196 *);
   it "particles->rho"         (SzVar "s3") (nb "particles->Nb_part") (* 197 *);
   it "particles->Vx"          (SzVar "s3") (nb "particles->Nb_part") (* 198 *);
   it "particles->Vz"          (SzVar "s3") (nb "particles->Nb_part") (* 199 *);
   it "particles->phi"         (SzVar "s3") (nb "particles->Nb_part") (* 200 *);
   it "particles->X"           (SzVar "s3") (nb "particles->Nb_part") (* 201 *);
   it "particles->noise"       (SzVar "s3") (nb "particles->Nb_part") (* 202 *);
   it "particles->phase"       (SzVar "s1") (nb "particles->Nb_part") (* 203 *);
   it "particles->dual"        (SzVar "s1") (nb "particles->Nb_part") (* 204 *) ] ++
 sec (c_el c)
 [ it "particles->sxxd"        (SzVar "s3") (nb "particles->Nb_part") (* 207 *);
   it "particles->szzd"        (SzVar "s3") (nb "particles->Nb_part") (* 208 *);
   it "particles->sxz"         (SzVar "s3") (nb "particles->Nb_part") (* 209 *);
   it "mesh->eta_n"            (SzVar "s3") cells (* 214 *);
   it "mesh->VE_n"             (SzVar "s3") cells (* 215 *);
   it "mesh->eta_s"            (SzVar "s3") verts (* 216 *);
   it "mesh->VE_s"             (SzVar "s3") verts (* 217 *) ] ++
 [ it "particles->strain"      (SzVar "s3") (nb "particles->Nb_part") (* 220 *);
   it "particles->strain_el"   (SzVar "s3") (nb "particles->Nb_part") (* 221 *);
   it "particles->strain_pl"   (SzVar "s3") (nb "particles->Nb_part") (* 222 *);
   it "particles->strain_pwl"  (SzVar "s3") (nb "particles->Nb_part") (* 223 *);
   it "particles->strain_exp"  (SzVar "s3") (nb "particles->Nb_part") (* 224 *);
   it "particles->strain_lin"  (SzVar "s3") (nb "particles->Nb_part") (* 225 *);
   it "particles->strain_gbs"  (SzVar "s3") (nb "particles->Nb_part") (* 226 *);
   it "particles->d"           (SzVar "s3") (nb "particles->Nb_part") (* 227 *) ] ++
 sec (c_fst c)
 [ it "particles->Fxx"         (SzVar "s3") (nb "particles->Nb_part") (* 230 *);
   it "particles->Fxz"         (SzVar "s3") (nb "particles->Nb_part") (* 231 *);
   it "particles->Fzx"         (SzVar "s3") (nb "particles->Nb_part") (* 232 *);
   it "particles->Fzz"         (SzVar "s3") (nb "particles->Nb_part") (* 233 *) ] ++
 sec (c_an c)
 [ it "particles->nx"          (SzVar "s3") (nb "particles->Nb_part") (* 237 *);
   it "particles->nz"          (SzVar "s3") (nb "particles->Nb_part") (* 238 *) ] ++
 sec (c_tr c)
 [ it "particles->T0"          (SzVar "s3") (nb "particles->Nb_part") (* 242 *);
   it "particles->P0"          (SzVar "s3") (nb "particles->Nb_part") (* 243 *);
   it "particles->x0"          (SzVar "s3") (nb "particles->Nb_part") (* 244 *);
   it "particles->z0"          (SzVar "s3") (nb "particles->Nb_part") (* 245 *);
   it "particles->Tmax"        (SzVar "s3") (nb "particles->Nb_part") (* 246 *);
   it "particles->Pmax"        (SzVar "s3") (nb "particles->Nb_part") (* 247 *) ] ++
 [ it "particles->divth"       (SzVar "s3") (nb "particles->Nb_part") (* 250 *);
   it "particles->T"           (SzVar "s3") (nb "particles->Nb_part") (* 251 *);
   it "mesh->p0_n"             (SzVar "s3") cells (* 253 *);
   it "mesh->T0_n"             (SzVar "s3") cells (* 254 *);
   it "mesh->divth0_n"         (SzVar "s3") cells (* 255 *);
   it "mesh->X0_n"             (SzVar "s3") cells (* 256 *);
   it "mesh->d0_n"             (SzVar "s3") cells (* 257 *);
   it "mesh->phi0_n"           (SzVar "s3") cells (* 258 *);
   it "mesh->rho0_n"           (SzVar "s3") cells (* 259 *);
   it "mesh->sxxd"             (SzVar "s3") cells (* 260 *);
   it "mesh->szzd"             (SzVar "s3") cells (* 261 *);
   it "mesh->X0_s"             (SzVar "s3") verts (* 263 *);
   it "mesh->sxz"              (SzVar "s3") verts (* 264 *);
   it "mesh->eta_phys_n"       (SzVar "s3") cells (* 266 *);
   it "mesh->eta_phys_s"       (SzVar "s3") verts (* 267 *);
   it "mesh->u_in"             (SzVar "s3") vxn (* 269 *);
   it "mesh->v_in"             (SzVar "s3") vzn (* 270 *);
   it "mesh->p_in"             (SzVar "s3") cells (* 271 *);
   it "mesh->p_lith"           (SzVar "s3") cells (* 272 *);
   it "mesh->p_lith0"          (SzVar "s3") cells (* 273 *);
   it "mesh->Uthermal"         (SzVar "s3") one (* 275 *);
   it "mesh->Work"             (SzVar "s3") one (* 276 *);
   it "model.L0"               (SzVar "s3") one (* 277 *) ] ++
 sec (c_fs c)
 [ it "topo->height"           (SzVar "s3") nx (* 283 *);
   it "topo->height0"          (SzVar "s3") nx (* 284 *);
   it "topo->a"                (SzVar "s3") ncx (* 285 *);
   it "topo->a0"               (SzVar "s3") ncx (* 286 *);
   it "topo->b"                (SzVar "s3") ncx (* 287 *);
   it "topo->b0"               (SzVar "s3") ncx (* 288 *);
   it "topo->vx"               (SzVar "s3") nx (* 289 *);
   it "topo->vz"               (SzVar "s3") nxp1 (* 290 *);
   it "topo_ini->height"       (SzVar "s3") nx (* 291 *);
   it "topo_ini->height0"      (SzVar "s3") nx (* 292 *);
   it "topo_ini->a"            (SzVar "s3") ncx (* 293 *);
   it "topo_ini->a0"           (SzVar "s3") ncx (* 294 *);
   it "topo_ini->b"            (SzVar "s3") ncx (* 295 *);
   it "topo_ini->b0"           (SzVar "s3") ncx (* 296 *);
   it "topo_ini->vx"           (SzVar "s3") nx (* 297 *);
   it "topo_ini->vz"           (SzVar "s3") nxp1 (* 298 *) ] ++
 [ it "mesh->BCt.type"         (SzVar "s4") cells (* 301 *);
   it "mesh->BCp.type"         (SzVar "s4") cells (* 302 *);
   it "mesh->BCu.type"         (SzVar "s4") vxn (* 303 *);
   it "mesh->BCv.type"         (SzVar "s4") vzn (* 304 *);
   it "mesh->BCg.type"         (SzVar "s4") verts (* 305 *);
   it "mesh->BCp.val"          (SzVar "s3") cells (* 306 *);
   it "mesh->BCu.val"          (SzVar "s3") vxn (* 307 *);
   it "mesh->BCv.val"          (SzVar "s3") vzn (* 308 *);
   it "mesh->BCg.val"          (SzVar "s3") verts (* 309 *) ].

Definition r_post (c : cfg) : list item :=
 [ it "mesh->nb_part_cell"     (SzVar "s1") cells (* 317 *);
   it "mesh->nb_part_vert"     (SzVar "s1") verts (* 318 *) ].

Definition r_series (c : cfg) : list item :=
 [ it "mesh->Time_time"        (SzVar "s3") ntp1 (* 321 *);
   it "mesh->Short_time"       (SzVar "s3") ntp1 (* 322 *);
   it "mesh->Work_time"        (SzVar "s3") ntp1 (* 323 *);
   it "mesh->Uthermal_time"    (SzVar "s3") ntp1 (* 324 *);
   it "mesh->Uelastic_time"    (SzVar "s3") ntp1 (* 325 *);
   it "mesh->T_mean_time"      (SzVar "s3") ntp1 (* 326 *);
   it "mesh->P_mean_time"      (SzVar "s3") ntp1 (* 327 *);
   it "mesh->sxxd_mean_time"   (SzVar "s3") ntp1 (* 328 *);
   it "mesh->szzd_mean_time"   (SzVar "s3") ntp1 (* 329 *);
   it "mesh->sxz_mean_time"    (SzVar "s3") ntp1 (* 330 *);
   it "mesh->Tii_mean_time"    (SzVar "s3") ntp1 (* 331 *);
   it "mesh->exxd_mean_time"   (SzVar "s3") ntp1 (* 332 *);
   it "mesh->ezzd_mean_time"   (SzVar "s3") ntp1 (* 333 *);
   it "mesh->exz_mean_time"    (SzVar "s3") ntp1 (* 334 *);
   it "mesh->Eii_mean_time"    (SzVar "s3") ntp1 (* 335 *) ].

Definition r_phase (k : nat) : list item :=
 [ mkitem ("mesh->phase_perc_n", k) (SzVar "s3") cells (* 314 *);
   mkitem ("mesh->phase_perc_s", k) (SzVar "s3") verts (* 315 *) ].

Definition w_mul (c : cfg) : list scl :=
 [ sc "model.dt"                 one u_t (* 510 *);
   sc "model.dt0"                one u_t (* 511 *);
   sc "model.time"               one u_t (* 512 *);
   sc "model.xmin"               one u_L (* 513 *);
   sc "model.xmax"               one u_L (* 514 *);
   sc "model.zmin"               one u_L (* 515 *);
   sc "model.zmax"               one u_L (* 516 *);
   sc "mesh->Time_time"          ntp1 u_t (* 519 *);
   sc "mesh->Short_time"         ntp1 u_1 (* 520 *);
   sc "mesh->Work_time"          ntp1 u_rhoEL2 (* 521 *);
   sc "mesh->Uthermal_time"      ntp1 u_rhoEL2 (* 522 *);
   sc "mesh->Uelastic_time"      ntp1 u_rhoEL2 (* 523 *);
   sc "mesh->T_mean_time"        ntp1 u_T (* 524 *);
   sc "mesh->P_mean_time"        ntp1 u_S (* 525 *);
   sc "mesh->sxxd_mean_time"     ntp1 u_S (* 526 *);
   sc "mesh->szzd_mean_time"     ntp1 u_S (* 527 *);
   sc "mesh->sxz_mean_time"      ntp1 u_S (* 528 *);
   sc "mesh->Tii_mean_time"      ntp1 u_S (* 529 *);
   sc "mesh->exxd_mean_time"     ntp1 u_E (* 530 *);
   sc "mesh->ezzd_mean_time"     ntp1 u_E (* 531 *);
   sc "mesh->exz_mean_time"      ntp1 u_E (* 532 *);
   sc "mesh->Eii_mean_time"      ntp1 u_E (* 533 *);
   sc "particles->x"             (nb "particles->Nb_part") u_L (* 538 *);
   sc "particles->z"             (nb "particles->Nb_part") u_L (* 539 *);
   sc "particles->P"             (nb "particles->Nb_part") u_S (* 540 *);
   sc "particles->rho"           (nb "particles->Nb_part") u_rho (* 541 *);
   sc "particles->Vx"            (nb "particles->Nb_part") u_V (* 542 *);
   sc "particles->Vz"            (nb "particles->Nb_part") u_V (* 543 *);
   sc "particles->phi"           (nb "particles->Nb_part") u_1 (* 544 *);
   sc "particles->X"             (nb "particles->Nb_part") u_1 (* 545 *) ] ++
 secs (c_el c)
 [ sc "particles->sxxd"          (nb "particles->Nb_part") u_S (* 547 *);
   sc "particles->szzd"          (nb "particles->Nb_part") u_S (* 548 *);
   sc "particles->sxz"           (nb "particles->Nb_part") u_S (* 549 *) ] ++
 [ sc "particles->divth"         (nb "particles->Nb_part") u_E (* 554 *);
   sc "particles->T"             (nb "particles->Nb_part") u_T (* 555 *);
   sc "particles->d"             (nb "particles->Nb_part") u_L (* 556 *) ] ++
 secs (c_tr c)
 [ sc "particles->T0"            (nb "particles->Nb_part") u_T (* 559 *);
   sc "particles->P0"            (nb "particles->Nb_part") u_S (* 560 *);
   sc "particles->x0"            (nb "particles->Nb_part") u_L (* 561 *);
   sc "particles->z0"            (nb "particles->Nb_part") u_L (* 562 *);
   sc "particles->Tmax"          (nb "particles->Nb_part") u_T (* 563 *);
   sc "particles->Pmax"          (nb "particles->Nb_part") u_S (* 564 *) ] ++
 [ sc "mesh->u_adv"              vxn u_V (* 572 *);
   sc "mesh->u_in"               vxn u_V (* 573 *);
   sc "mesh->v_adv"              vzn u_V (* 580 *);
   sc "mesh->v_in"               vzn u_V (* 581 *);
   sc "mesh->eta_n"              cells u_eta (* 588 *);
   sc "mesh->VE_n"               cells u_1 (* 589 *);
   sc "mesh->eta_phys_n"         cells u_eta (* 590 *);
   sc "mesh->p_in"               cells u_S (* 591 *);
   sc "mesh->p_lith"             cells u_S (* 592 *);
   sc "mesh->p_lith0"            cells u_S (* 593 *);
   sc "mesh->p0_n"               cells u_S (* 595 *);
   sc "mesh->T0_n"               cells u_T (* 596 *);
   sc "mesh->divth0_n"           cells u_E (* 597 *);
   sc "mesh->X0_n"               cells u_1 (* 598 *);
   sc "mesh->d0_n"               cells u_L (* 599 *);
   sc "mesh->phi0_n"             cells u_1 (* 600 *);
   sc "mesh->rho0_n"             cells u_rho (* 601 *);
   sc "mesh->sxxd0"              cells u_S (* 602 *);
   sc "mesh->szzd0"              cells u_S (* 603 *);
   sc "mesh->eta_phys_s"         verts u_eta (* 610 *);
   sc "mesh->eta_s"              verts u_eta (* 611 *);
   sc "mesh->VE_s"               verts u_1 (* 612 *);
   sc "mesh->X0_s"               verts u_1 (* 614 *);
   sc "mesh->sxz0"               verts u_S (* 615 *) ] ++
 secs (c_fs c)
 [ sc "topo_chain->x"            (nb "topo_chain->Nb_part") u_L (* 621 *);
   sc "topo_chain->z"            (nb "topo_chain->Nb_part") u_L (* 622 *);
   sc "topo_chain->Vx"           (nb "topo_chain->Nb_part") u_V (* 623 *);
   sc "topo_chain->Vz"           (nb "topo_chain->Nb_part") u_V (* 624 *);
   sc "topo_chain_ini->x"        (nb "topo_chain_ini->Nb_part") u_L (* 627 *);
   sc "topo_chain_ini->z"        (nb "topo_chain_ini->Nb_part") u_L (* 628 *);
   sc "topo_chain_ini->Vx"       (nb "topo_chain_ini->Nb_part") u_V (* 629 *);
   sc "topo_chain_ini->Vz"       (nb "topo_chain_ini->Nb_part") u_V (* 630 *);
   sc "topo->height"             nx u_L (* 636 *);
   sc "topo->height0"            nx u_L (* 637 *);
   sc "topo->vx"                 nx u_V (* 638 *);
   sc "topo_ini->height"         nx u_L (* 639 *);
   sc "topo_ini->height0"        nx u_L (* 640 *);
   sc "topo_ini->vx"             nx u_V (* 641 *);
   sc "topo->vz"                 nxp1 u_V (* 645 *);
   sc "topo_ini->vz"             nxp1 u_V (* 646 *);
   sc "topo->b0"                 ncx u_L (* 650 *);
   sc "topo->b"                  ncx u_L (* 651 *);
   sc "topo_ini->b0"             ncx u_L (* 652 *);
   sc "topo_ini->b"              ncx u_L (* 653 *) ] ++
 [ sc "mesh->Uthermal"           one u_rhoEL2 (* 657 *);
   sc "mesh->Work"               one u_rhoEL2 (* 658 *);
   sc "model.L0"                 one u_L (* 659 *) ].

Definition w_div (c : cfg) : list scl :=
 [ sc "model.dt"                 one u_t (* 852 *);
   sc "model.dt0"                one u_t (* 853 *);
   sc "model.time"               one u_t (* 854 *);
   sc "model.xmin"               one u_L (* 855 *);
   sc "model.xmax"               one u_L (* 856 *);
   sc "model.zmin"               one u_L (* 857 *);
   sc "model.zmax"               one u_L (* 858 *);
   sc "mesh->Time_time"          ntp1 u_t (* 861 *);
   sc "mesh->Short_time"         ntp1 u_1 (* 862 *);
   sc "mesh->Work_time"          ntp1 u_rhoEL2 (* 863 *);
   sc "mesh->Uthermal_time"      ntp1 u_rhoEL2 (* 864 *);
   sc "mesh->Uelastic_time"      ntp1 u_rhoEL2 (* 865 *);
   sc "mesh->T_mean_time"        ntp1 u_T (* 866 *);
   sc "mesh->P_mean_time"        ntp1 u_S (* 867 *);
   sc "mesh->sxxd_mean_time"     ntp1 u_S (* 868 *);
   sc "mesh->szzd_mean_time"     ntp1 u_S (* 869 *);
   sc "mesh->sxz_mean_time"      ntp1 u_S (* 870 *);
   sc "mesh->Tii_mean_time"      ntp1 u_S (* 871 *);
   sc "mesh->exxd_mean_time"     ntp1 u_E (* 872 *);
   sc "mesh->ezzd_mean_time"     ntp1 u_E (* 873 *);
   sc "mesh->exz_mean_time"      ntp1 u_E (* 874 *);
   sc "mesh->Eii_mean_time"      ntp1 u_E (* 875 *);
   sc "particles->x"             (nb "particles->Nb_part") u_L (* 880 *);
   sc "particles->z"             (nb "particles->Nb_part") u_L (* 881 *);
   sc "particles->P"             (nb "particles->Nb_part") u_S (* 882 *);
   sc "particles->rho"           (nb "particles->Nb_part") u_rho (* 883 *);
   sc "particles->Vx"            (nb "particles->Nb_part") u_V (* 884 *);
   sc "particles->Vz"            (nb "particles->Nb_part") u_V (* 885 *);
   sc "particles->phi"           (nb "particles->Nb_part") u_1 (* 886 *);
   sc "particles->X"             (nb "particles->Nb_part") u_1 (* 887 *) ] ++
 secs (c_el c)
 [ sc "particles->sxxd"          (nb "particles->Nb_part") u_S (* 890 *);
   sc "particles->szzd"          (nb "particles->Nb_part") u_S (* 891 *);
   sc "particles->sxz"           (nb "particles->Nb_part") u_S (* 892 *) ] ++
 [ sc "particles->divth"         (nb "particles->Nb_part") u_E (* 897 *);
   sc "particles->T"             (nb "particles->Nb_part") u_T (* 898 *);
   sc "particles->d"             (nb "particles->Nb_part") u_L (* 899 *) ] ++
 secs (c_tr c)
 [ sc "particles->T0"            (nb "particles->Nb_part") u_T (* 902 *);
   sc "particles->P0"            (nb "particles->Nb_part") u_S (* 903 *);
   sc "particles->x0"            (nb "particles->Nb_part") u_L (* 904 *);
   sc "particles->z0"            (nb "particles->Nb_part") u_L (* 905 *);
   sc "particles->Tmax"          (nb "particles->Nb_part") u_T (* 906 *);
   sc "particles->Pmax"          (nb "particles->Nb_part") u_S (* 907 *) ] ++
 [ sc "mesh->u_adv"              vxn u_V (* 914 *);
   sc "mesh->u_in"               vxn u_V (* 915 *);
   sc "mesh->v_adv"              vzn u_V (* 922 *);
   sc "mesh->v_in"               vzn u_V (* 923 *);
   sc "mesh->eta_n"              cells u_eta (* 930 *);
   sc "mesh->VE_n"               cells u_1 (* 931 *);
   sc "mesh->eta_phys_n"         cells u_eta (* 932 *);
   sc "mesh->p_in"               cells u_S (* 933 *);
   sc "mesh->p_lith"             cells u_S (* 934 *);
   sc "mesh->p_lith0"            cells u_S (* 935 *);
   sc "mesh->p0_n"               cells u_S (* 937 *);
   sc "mesh->T0_n"               cells u_T (* 938 *);
   sc "mesh->divth0_n"           cells u_E (* 939 *);
   sc "mesh->X0_n"               cells u_1 (* 940 *);
   sc "mesh->d0_n"               cells u_L (* 941 *);
   sc "mesh->phi0_n"             cells u_1 (* 942 *);
   sc "mesh->rho0_n"             cells u_rho (* 943 *);
   sc "mesh->sxxd0"              cells u_S (* 944 *);
   sc "mesh->szzd0"              cells u_S (* 945 *);
   sc "mesh->eta_phys_s"         verts u_eta (* 952 *);
   sc "mesh->eta_s"              verts u_eta (* 953 *);
   sc "mesh->VE_s"               verts u_1 (* 954 *);
   sc "mesh->X0_s"               verts u_1 (* 956 *);
   sc "mesh->sxz0"               verts u_S (* 957 *) ] ++
 secs (c_fs c)
 [ sc "topo_chain->x"            (nb "topo_chain->Nb_part") u_L (* 963 *);
   sc "topo_chain->z"            (nb "topo_chain->Nb_part") u_L (* 964 *);
   sc "topo_chain->Vx"           (nb "topo_chain->Nb_part") u_V (* 965 *);
   sc "topo_chain->Vz"           (nb "topo_chain->Nb_part") u_V (* 966 *);
   sc "topo_chain_ini->x"        (nb "topo_chain_ini->Nb_part") u_L (* 969 *);
   sc "topo_chain_ini->z"        (nb "topo_chain_ini->Nb_part") u_L (* 970 *);
   sc "topo_chain_ini->Vx"       (nb "topo_chain_ini->Nb_part") u_V (* 971 *);
   sc "topo_chain_ini->Vz"       (nb "topo_chain_ini->Nb_part") u_V (* 972 *);
   sc "topo->height"             nx u_L (* 978 *);
   sc "topo->height0"            nx u_L (* 979 *);
   sc "topo->vx"                 nx u_V (* 980 *);
   sc "topo_ini->height"         nx u_L (* 981 *);
   sc "topo_ini->height0"        nx u_L (* 982 *);
   sc "topo_ini->vx"             nx u_V (* 983 *);
   sc "topo->vz"                 nxp1 u_V (* 987 *);
   sc "topo_ini->vz"             nxp1 u_V (* 988 *);
   sc "topo->b0"                 ncx u_L (* 992 *);
   sc "topo->b"                  ncx u_L (* 993 *);
   sc "topo_ini->b0"             ncx u_L (* 994 *);
   sc "topo_ini->b"              ncx u_L (* 995 *) ] ++
 [ sc "mesh->Uthermal"           one u_rhoEL2 (* 999 *);
   sc "mesh->Work"               one u_rhoEL2 (* 1000 *);
   sc "model.L0"                 one u_L (* 1001 *) ].

Definition r_div (c : cfg) : list scl :=
 [ sc "model.dt"                 one u_t (* 344 *);
   sc "model.dt0"                one u_t (* 345 *);
   sc "model.time"               one u_t (* 346 *);
   sc "model.xmin"               one u_L (* 347 *);
   sc "model.xmax"               one u_L (* 348 *);
   sc "model.zmin"               one u_L (* 349 *);
   sc "model.zmax"               one u_L (* 350 *);
   sc "mesh->Time_time"          ntp1 u_t (* 353 *);
   sc "mesh->Short_time"         ntp1 u_1 (* 354 *);
   sc "mesh->Work_time"          ntp1 u_rhoEL2 (* 355 *);
   sc "mesh->Uthermal_time"      ntp1 u_rhoEL2 (* 356 *);
   sc "mesh->Uelastic_time"      ntp1 u_rhoEL2 (* 357 *);
   sc "mesh->T_mean_time"        ntp1 u_T (* 358 *);
   sc "mesh->P_mean_time"        ntp1 u_S (* 359 *);
   sc "mesh->sxxd_mean_time"     ntp1 u_S (* 360 *);
   sc "mesh->szzd_mean_time"     ntp1 u_S (* 361 *);
   sc "mesh->sxz_mean_time"      ntp1 u_S (* 362 *);
   sc "mesh->Tii_mean_time"      ntp1 u_S (* 363 *);
   sc "mesh->exxd_mean_time"     ntp1 u_E (* 364 *);
   sc "mesh->ezzd_mean_time"     ntp1 u_E (* 365 *);
   sc "mesh->exz_mean_time"      ntp1 u_E (* 366 *);
   sc "mesh->Eii_mean_time"      ntp1 u_E (* 367 *);
   sc "particles->x"             (nb "particles->Nb_part") u_L (* 372 *);
   sc "particles->z"             (nb "particles->Nb_part") u_L (* 373 *);
   sc "particles->P"             (nb "particles->Nb_part") u_S (* 374 *);
   sc "particles->rho"           (nb "particles->Nb_part") u_rho (* 375 *);
   sc "particles->Vx"            (nb "particles->Nb_part") u_V (* 376 *);
   sc "particles->Vz"            (nb "particles->Nb_part") u_V (* 377 *);
   sc "particles->phi"           (nb "particles->Nb_part") u_1 (* 378 *);
   sc "particles->X"             (nb "particles->Nb_part") u_1 (* 379 *) ] ++
 secs (c_el c)
 [ sc "particles->sxxd"          (nb "particles->Nb_part") u_S (* 381 *);
   sc "particles->szzd"          (nb "particles->Nb_part") u_S (* 382 *);
   sc "particles->sxz"           (nb "particles->Nb_part") u_S (* 383 *) ] ++
 [ sc "particles->d"             (nb "particles->Nb_part") u_L (* 389 *);
   sc "particles->divth"         (nb "particles->Nb_part") u_E (* 390 *);
   sc "particles->T"             (nb "particles->Nb_part") u_T (* 391 *) ] ++
 secs (c_tr c)
 [ sc "particles->T0"            (nb "particles->Nb_part") u_T (* 394 *);
   sc "particles->P0"            (nb "particles->Nb_part") u_S (* 395 *);
   sc "particles->x0"            (nb "particles->Nb_part") u_L (* 396 *);
   sc "particles->z0"            (nb "particles->Nb_part") u_L (* 397 *);
   sc "particles->Tmax"          (nb "particles->Nb_part") u_T (* 398 *);
   sc "particles->Pmax"          (nb "particles->Nb_part") u_S (* 399 *) ] ++
 [ sc "mesh->u_adv"              vxn u_V (* 407 *);
   sc "mesh->u_in"               vxn u_V (* 408 *);
   sc "mesh->v_adv"              vzn u_V (* 415 *);
   sc "mesh->v_in"               vzn u_V (* 416 *);
   sc "mesh->eta_n"              cells u_eta (* 423 *);
   sc "mesh->VE_n"               cells u_1 (* 424 *);
   sc "mesh->eta_phys_n"         cells u_eta (* 425 *);
   sc "mesh->p_in"               cells u_S (* 426 *);
   sc "mesh->p_lith"             cells u_S (* 427 *);
   sc "mesh->p_lith0"            cells u_S (* 428 *);
   sc "mesh->p0_n"               cells u_S (* 430 *);
   sc "mesh->T0_n"               cells u_T (* 431 *);
   sc "mesh->divth0_n"           cells u_E (* 432 *);
   sc "mesh->X0_n"               cells u_1 (* 433 *);
   sc "mesh->d0_n"               cells u_L (* 434 *);
   sc "mesh->phi0_n"             cells u_1 (* 435 *);
   sc "mesh->rho0_n"             cells u_rho (* 436 *);
   sc "mesh->sxxd"               cells u_S (* 437 *);
   sc "mesh->szzd"               cells u_S (* 438 *);
   sc "mesh->eta_phys_s"         verts u_eta (* 445 *);
   sc "mesh->eta_s"              verts u_eta (* 446 *);
   sc "mesh->VE_s"               verts u_1 (* 447 *);
   sc "mesh->X0_s"               verts u_1 (* 449 *);
   sc "mesh->sxz"                verts u_S (* 450 *) ] ++
 secs (c_fs c)
 [ sc "topo_chain->x"            (nb "topo_chain->Nb_part") u_L (* 456 *);
   sc "topo_chain->z"            (nb "topo_chain->Nb_part") u_L (* 457 *);
   sc "topo_chain->Vx"           (nb "topo_chain->Nb_part") u_V (* 458 *);
   sc "topo_chain->Vz"           (nb "topo_chain->Nb_part") u_V (* 459 *);
   sc "topo_chain_ini->x"        (nb "topo_chain_ini->Nb_part") u_L (* 462 *);
   sc "topo_chain_ini->z"        (nb "topo_chain_ini->Nb_part") u_L (* 463 *);
   sc "topo_chain_ini->Vx"       (nb "topo_chain_ini->Nb_part") u_V (* 464 *);
   sc "topo_chain_ini->Vz"       (nb "topo_chain_ini->Nb_part") u_V (* 465 *);
   sc "topo->height"             nx u_L (* 471 *);
   sc "topo->height0"            nx u_L (* 472 *);
   sc "topo->vx"                 nx u_V (* 473 *);
   sc "topo_ini->height"         nx u_L (* 474 *);
   sc "topo_ini->height0"        nx u_L (* 475 *);
   sc "topo_ini->vx"             nx u_V (* 476 *);
   sc "topo->vz"                 nxp1 u_V (* 480 *);
   sc "topo_ini->vz"             nxp1 u_V (* 481 *);
   sc "topo->b0"                 ncx u_L (* 485 *);
   sc "topo->b"                  ncx u_L (* 486 *);
   sc "topo_ini->b0"             ncx u_L (* 487 *);
   sc "topo_ini->b"              ncx u_L (* 488 *) ] ++
 [ sc "mesh->Uthermal"           one u_rhoEL2 (* 492 *);
   sc "mesh->Work"               one u_rhoEL2 (* 493 *);
   sc "model.L0"                 one u_L (* 494 *) ].


(** ** The two functions *)
Definition w_items (c : cfg) : list item :=
  w_header ++ w_pre c ++ flat_map w_phase (seq 0 (c_nph c)) ++ w_post c ++ w_series c.
Definition r_items (c : cfg) : list item :=
  r_header ++ r_pre c ++ flat_map r_phase (seq 0 (c_nph c)) ++ r_post c ++ r_series c.

(* InputOutput.c 505: s1=sizeof(int) ...; 148: s1=s2=s3=s4=0 *)
Definition int_bytes (b : byte) : list byte := [b; x00; x00; x00].
Definition locals (m : mem) (a b c d : byte) : mem :=
  upd (upd (upd (upd m ("s1", 0) (int_bytes a)) ("s2", 0) (int_bytes b))
      ("s3", 0) (int_bytes c)) ("s4", 0) (int_bytes d).

(* fields of [model], which MakeBreakpointParticles receives by value: its
   scaling acts on a copy and the caller's values are untouched *)
Definition is_model (f : fid) : bool := prefix "model." (fst f).

(* MakeBreakpointParticles: the file, and the memory of the continuing run *)
Definition save (dmul ddiv : unit_ -> list byte -> list byte) (c : cfg) (m : mem)
  : option (list byte * mem) :=
  let m1 := scale_all dmul c (locals m x04 x08 x08 x01) (w_mul c) in
  match fwrite_all c m1 (w_items c) with
  | None => None
  | Some file =>
      let m2 := scale_all ddiv c m1 (w_div c) in
      Some (file, fun f => if is_model f then m f else m2 f)
  end.

(* LoadBreakpointParticles: the memory afterwards and the unread bytes *)
Definition load (ddiv : unit_ -> list byte -> list byte) (c : cfg) (m : mem) (file : list byte)
  : option (mem * list byte) :=
  match fread_all c (locals m x00 x00 x00 x00) file (r_items c) with
  | None => None
  | Some (m1, rest) => Some (scale_all ddiv c m1 (r_div c), rest)
  end.
