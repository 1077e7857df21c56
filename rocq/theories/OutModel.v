(** * Output files

    Transcription of MDLIB/HDF5Output.c 64-90 (ScaleBack, DoubleToFloat), 144-254
    (AddFieldToGroup), 256-962 (WriteOutputHDF5) and 968-1236
    (WriteOutputHDF5Particles), with the sizes of the arrays they read:
    MDLIB/MemoryAllocFree.c 182-255 (PartAlloc), 337-663 (GridAlloc), 666-676
    (NmodelAlloc), MDLIB/FreeSurface.c 418-440 (AllocateMarkerChain).

    A file is the list of its datasets in the order in which they are written. The HDF5
    library itself (groups, compression, the disk) is not modelled; the arguments of its
    calls are. *)
From Coq Require Import ZArith Reals List Bool String.
From Flocq Require Import Core.
Import ListNotations.
From Verif Require Import OptionsModel ReseedModel CkptModel.
Local Open Scope Z_scope.
Local Open Scope string_scope.

(** model.Nx, Nz, Nt, Nmodel.nit_max, particles->Nb_part and Nb_part_max, Nb_part of
    topo_chain and topo_chain_ini. *)
Record dims : Type := Dims {
  Nx : Z; Nz : Z; Nt : Z; nit : Z; npart : Z; npart_max : Z; nchain : Z; nini : Z }.
(** The switches that decide which datasets exist. *)
Record switches : Type := Sw { free_surf : bool; fin_strain : bool; aniso : bool; track : bool }.
Definition always (s : switches) : bool := true.

Definition vtx (d : dims) : Z := Nx d * Nz d.
Definition ctr (d : dims) : Z := (Nx d - 1) * (Nz d - 1).
Definition vxn (d : dims) : Z := Nx d * (Nz d + 1).
Definition vzn (d : dims) : Z := (Nx d + 1) * Nz d.

(** The type letter of AddFieldToGroup (199-226). *)
Inductive ctype : Type := Dbl | Flt | Int | Chr.
(** How the data reach the file: straight from the array, or through a buffer of
    [size] floats (or chars) filled with [cast] converted values, of which [n] are then
    multiplied by a unit (ScaleBack). *)
Inductive route : Type :=
| Direct
| Staged (size cast : dims -> Z) (scaled : option ((scale -> R) * (dims -> Z))).
(** One AddFieldToGroup call: group, name, type letter, count, array it comes from. *)
Record dataset : Type := DS {
  dgroup : string; dname : string; dtype : ctype; dcount : dims -> Z; dsource : string; droute : route;
  dwhen : switches -> bool }.

(** WriteOutputHDF5, 707-848: numbers are the lines of the cast and of the write. *)
Definition grid_file : list dataset := [
  DS "Model" "Description" Chr (fun d => 500) "model.description" Direct always;  (* 707 *)
  DS "Model" "Params" Dbl (fun d => 8) "A" Direct always;  (* 720 *)
  DS "TimeSeries" "Time_time" Dbl (fun d => Nt d + 1) "mesh->Time_time" Direct always;  (* 723 *)
  DS "TimeSeries" "Short_time" Dbl (fun d => Nt d + 1) "mesh->Short_time" Direct always;  (* 724 *)
  DS "TimeSeries" "Work_time" Dbl (fun d => Nt d + 1) "mesh->Work_time" Direct always;  (* 725 *)
  DS "TimeSeries" "Uthermal_time" Dbl (fun d => Nt d + 1) "mesh->Uthermal_time" Direct always;  (* 726 *)
  DS "TimeSeries" "Uelastic_time" Dbl (fun d => Nt d + 1) "mesh->Uelastic_time" Direct always;  (* 727 *)
  DS "TimeSeries" "T_mean_time" Dbl (fun d => Nt d + 1) "mesh->T_mean_time" Direct always;  (* 728 *)
  DS "TimeSeries" "P_mean_time" Dbl (fun d => Nt d + 1) "mesh->P_mean_time" Direct always;  (* 729 *)
  DS "TimeSeries" "sxxd_mean_time" Dbl (fun d => Nt d + 1) "mesh->sxxd_mean_time" Direct always;  (* 730 *)
  DS "TimeSeries" "szzd_mean_time" Dbl (fun d => Nt d + 1) "mesh->szzd_mean_time" Direct always;  (* 731 *)
  DS "TimeSeries" "sxz_mean_time" Dbl (fun d => Nt d + 1) "mesh->sxz_mean_time" Direct always;  (* 732 *)
  DS "TimeSeries" "Tii_mean_time" Dbl (fun d => Nt d + 1) "mesh->Tii_mean_time" Direct always;  (* 733 *)
  DS "TimeSeries" "exxd_mean_time" Dbl (fun d => Nt d + 1) "mesh->exxd_mean_time" Direct always;  (* 734 *)
  DS "TimeSeries" "ezzd_mean_time" Dbl (fun d => Nt d + 1) "mesh->ezzd_mean_time" Direct always;  (* 735 *)
  DS "TimeSeries" "exz_mean_time" Dbl (fun d => Nt d + 1) "mesh->exz_mean_time" Direct always;  (* 736 *)
  DS "TimeSeries" "Eii_mean_time" Dbl (fun d => Nt d + 1) "mesh->Eii_mean_time" Direct always;  (* 737 *)
  DS "Model" "xg_coord" Flt (fun d => Nx d) "mesh->xg_coord" (Staged (fun d => Nx d) (fun d => Nx d) (Some (s_L, fun d => Nx d))) always;  (* 447, 741 *)
  DS "Model" "zg_coord" Flt (fun d => Nz d) "mesh->zg_coord" (Staged (fun d => Nz d) (fun d => Nz d) (Some (s_L, fun d => Nz d))) always;  (* 451, 742 *)
  DS "Model" "xc_coord" Flt (fun d => Nx d - 1) "mesh->xc_coord" (Staged (fun d => Nx d - 1) (fun d => Nx d - 1) (Some (s_L, fun d => Nx d - 1))) always;  (* 455, 743 *)
  DS "Model" "zc_coord" Flt (fun d => Nz d - 1) "mesh->zc_coord" (Staged (fun d => Nz d - 1) (fun d => Nz d - 1) (Some (s_L, fun d => Nz d - 1))) always;  (* 459, 744 *)
  DS "Model" "xvz_coord" Flt (fun d => Nx d + 1) "mesh->xvz_coord" (Staged (fun d => Nx d + 1) (fun d => Nx d + 1) (Some (s_L, fun d => Nx d + 1))) always;  (* 467, 745 *)
  DS "Model" "zvx_coord" Flt (fun d => Nz d + 1) "mesh->zvx_coord" (Staged (fun d => Nz d + 1) (fun d => Nz d + 1) (Some (s_L, fun d => Nz d + 1))) always;  (* 463, 746 *)
  DS "VizGrid" "xviz" Flt (fun d => 1 * (Nx d - 1) + 1) "xviz" (Staged (fun d => 1 * (Nx d - 1) + 1) (fun d => 1 * (Nx d - 1) + 1) (Some (s_L, fun d => 1 * (Nx d - 1) + 1))) always;  (* 471, 749 *)
  DS "VizGrid" "zviz" Flt (fun d => 1 * (Nz d - 1) + 1) "zviz" (Staged (fun d => 1 * (Nz d - 1) + 1) (fun d => 1 * (Nz d - 1) + 1) (Some (s_L, fun d => 1 * (Nz d - 1) + 1))) always;  (* 475, 750 *)
  DS "VizGrid" "xviz_hr" Flt (fun d => 2 * (Nx d - 1) + 1) "xviz_hr" (Staged (fun d => 2 * (Nx d - 1) + 1) (fun d => 2 * (Nx d - 1) + 1) (Some (s_L, fun d => 2 * (Nx d - 1) + 1))) always;  (* 479, 751 *)
  DS "VizGrid" "zviz_hr" Flt (fun d => 2 * (Nz d - 1) + 1) "zviz_hr" (Staged (fun d => 2 * (Nz d - 1) + 1) (fun d => 2 * (Nz d - 1) + 1) (Some (s_L, fun d => 2 * (Nz d - 1) + 1))) always;  (* 483, 752 *)
  DS "VizGrid" "compo" Chr (fun d => ((1 * (Nx d - 1) + 1) - 1) * ((1 * (Nz d - 1) + 1) - 1)) "compo" Direct always;  (* 753 *)
  DS "VizGrid" "compo_hr" Chr (fun d => ((2 * (Nx d - 1) + 1) - 1) * ((2 * (Nz d - 1) + 1) - 1)) "compo_hr" Direct always;  (* 754 *)
  DS "VizGrid" "compo_dual_hr" Chr (fun d => ((2 * (Nx d - 1) + 1) - 1) * ((2 * (Nz d - 1) + 1) - 1)) "compo_dual_hr" Direct always;  (* 755 *)
  DS "Vertices" "rho_s" Flt (fun d => vtx d) "mesh->rho_s" (Staged (fun d => vtx d) (fun d => vtx d) (Some (s_rho, fun d => vtx d))) always;  (* 331, 758 *)
  DS "Centers" "rho_n" Flt (fun d => ctr d) "mesh->rho_n" (Staged (fun d => ctr d) (fun d => ctr d) (Some (s_rho, fun d => ctr d))) always;  (* 335, 759 *)
  DS "Vertices" "eta_s" Flt (fun d => vtx d) "mesh->eta_phys_s" (Staged (fun d => vtx d) (fun d => vtx d) (Some (s_eta, fun d => vtx d))) always;  (* 339, 761 *)
  DS "Centers" "eta_n" Flt (fun d => ctr d) "mesh->eta_phys_n" (Staged (fun d => ctr d) (fun d => ctr d) (Some (s_eta, fun d => ctr d))) always;  (* 343, 762 *)
  DS "VxNodes" "Vx" Flt (fun d => vxn d) "mesh->u_in" (Staged (fun d => vxn d) (fun d => vxn d) (Some (s_V, fun d => vxn d))) always;  (* 347, 763 *)
  DS "VzNodes" "Vz" Flt (fun d => vzn d) "mesh->v_in" (Staged (fun d => vzn d) (fun d => vzn d) (Some (s_V, fun d => vzn d))) always;  (* 351, 764 *)
  DS "Centers" "P" Flt (fun d => ctr d) "P_total" (Staged (fun d => ctr d) (fun d => ctr d) (Some (s_S, fun d => ctr d))) always;  (* 355, 765 *)
  DS "Centers" "sxxd" Flt (fun d => ctr d) "mesh->sxxd" (Staged (fun d => ctr d) (fun d => ctr d) (Some (s_S, fun d => ctr d))) always;  (* 359, 766 *)
  DS "Centers" "szzd" Flt (fun d => ctr d) "mesh->szzd" (Staged (fun d => ctr d) (fun d => ctr d) (Some (s_S, fun d => ctr d))) always;  (* 363, 767 *)
  DS "Centers" "strain" Flt (fun d => ctr d) "strain" (Staged (fun d => ctr d) (fun d => ctr d) None) always;  (* 490, 769 *)
  DS "Centers" "strain_el" Flt (fun d => ctr d) "strain_el" (Staged (fun d => ctr d) (fun d => ctr d) None) always;  (* 496, 770 *)
  DS "Centers" "strain_pl" Flt (fun d => ctr d) "strain_pl" (Staged (fun d => ctr d) (fun d => ctr d) None) always;  (* 502, 771 *)
  DS "Centers" "strain_pwl" Flt (fun d => ctr d) "strain_pwl" (Staged (fun d => ctr d) (fun d => ctr d) None) always;  (* 508, 772 *)
  DS "Centers" "strain_exp" Flt (fun d => ctr d) "strain_exp" (Staged (fun d => ctr d) (fun d => ctr d) None) always;  (* 514, 773 *)
  DS "Centers" "strain_lin" Flt (fun d => ctr d) "strain_lin" (Staged (fun d => ctr d) (fun d => ctr d) None) always;  (* 520, 774 *)
  DS "Centers" "strain_gbs" Flt (fun d => ctr d) "strain_gbs" (Staged (fun d => ctr d) (fun d => ctr d) None) always;  (* 526, 775 *)
  DS "Centers" "T" Flt (fun d => ctr d) "mesh->T" (Staged (fun d => ctr d) (fun d => ctr d) (Some (s_T, fun d => ctr d))) always;  (* 442, 776 *)
  DS "Vertices" "sxz" Flt (fun d => vtx d) "mesh->sxz" (Staged (fun d => vtx d) (fun d => vtx d) (Some (s_S, fun d => vtx d))) always;  (* 367, 777 *)
  DS "Centers" "exxd" Flt (fun d => ctr d) "mesh->exxd" (Staged (fun d => ctr d) (fun d => ctr d) (Some (s_E, fun d => ctr d))) always;  (* 371, 778 *)
  DS "Centers" "ezzd" Flt (fun d => ctr d) "mesh->ezzd" (Staged (fun d => ctr d) (fun d => ctr d) (Some (s_E, fun d => ctr d))) always;  (* 375, 779 *)
  DS "Centers" "divu" Flt (fun d => ctr d) "mesh->div_u" (Staged (fun d => ctr d) (fun d => ctr d) (Some (s_E, fun d => ctr d))) always;  (* 421, 780 *)
  DS "Centers" "divu_el" Flt (fun d => ctr d) "mesh->div_u_el" (Staged (fun d => ctr d) (fun d => ctr d) (Some (s_E, fun d => ctr d))) always;  (* 425, 781 *)
  DS "Centers" "divu_pl" Flt (fun d => ctr d) "mesh->div_u_pl" (Staged (fun d => ctr d) (fun d => ctr d) (Some (s_E, fun d => ctr d))) always;  (* 429, 782 *)
  DS "Centers" "divu_th" Flt (fun d => ctr d) "mesh->divth0_n" (Staged (fun d => ctr d) (fun d => ctr d) (Some (s_E, fun d => ctr d))) always;  (* 433, 783 *)
  DS "Centers" "divu_r" Flt (fun d => ctr d) "mesh->div_u_r" (Staged (fun d => ctr d) (fun d => ctr d) (Some (s_E, fun d => ctr d))) always;  (* 437, 784 *)
  DS "Vertices" "exz" Flt (fun d => vtx d) "mesh->exz" (Staged (fun d => vtx d) (fun d => vtx d) (Some (s_E, fun d => vtx d))) always;  (* 379, 785 *)
  DS "Centers" "eII_el" Flt (fun d => ctr d) "mesh->eII_el" (Staged (fun d => ctr d) (fun d => ctr d) (Some (s_E, fun d => ctr d))) always;  (* 383, 786 *)
  DS "Centers" "eII_pl" Flt (fun d => ctr d) "mesh->eII_pl" (Staged (fun d => ctr d) (fun d => ctr d) (Some (s_E, fun d => ctr d))) always;  (* 387, 787 *)
  DS "Centers" "eII_pwl" Flt (fun d => ctr d) "mesh->eII_pwl" (Staged (fun d => ctr d) (fun d => ctr d) (Some (s_E, fun d => ctr d))) always;  (* 391, 788 *)
  DS "Centers" "eII_exp" Flt (fun d => ctr d) "mesh->eII_exp" (Staged (fun d => ctr d) (fun d => ctr d) (Some (s_E, fun d => ctr d))) always;  (* 395, 789 *)
  DS "Centers" "eII_lin" Flt (fun d => ctr d) "mesh->eII_lin" (Staged (fun d => ctr d) (fun d => ctr d) (Some (s_E, fun d => ctr d))) always;  (* 399, 790 *)
  DS "Centers" "eII_gbs" Flt (fun d => ctr d) "mesh->eII_gbs" (Staged (fun d => ctr d) (fun d => ctr d) (Some (s_E, fun d => ctr d))) always;  (* 403, 791 *)
  DS "Centers" "d" Flt (fun d => ctr d) "mesh->d_n" (Staged (fun d => ctr d) (fun d => ctr d) (Some (s_L, fun d => ctr d))) always;  (* 407, 792 *)
  DS "Centers" "X" Flt (fun d => ctr d) "mesh->X_n" (Staged (fun d => ctr d) (fun d => ctr d) None) always;  (* 411, 793 *)
  DS "Centers" "phi" Flt (fun d => ctr d) "mesh->phi_n" (Staged (fun d => ctr d) (fun d => ctr d) None) always;  (* 414, 794 *)
  DS "Centers" "OverS" Flt (fun d => ctr d) "mesh->OverS_n" (Staged (fun d => ctr d) (fun d => ctr d) (Some (s_S, fun d => ctr d))) always;  (* 417, 795 *)
  DS "Topo" "z_grid" Flt (fun d => Nx d) "topo->height" (Staged (fun d => Nx d) (fun d => Nx d) (Some (s_L, fun d => Nx d))) free_surf;  (* 656, 798 *)
  DS "Topo" "z_finer_cent" Flt (fun d => 2 * (Nx d) - 2) "topo->height_finer_c" (Staged (fun d => 2 * Nx d - 2) (fun d => 2 * Nx d - 2) (Some (s_L, fun d => 2 * Nx d - 2))) free_surf;  (* 660, 799 *)
  DS "Topo" "Vx_grid" Flt (fun d => Nx d) "topo->vx" (Staged (fun d => Nx d) (fun d => Nx d) (Some (s_V, fun d => Nx d))) free_surf;  (* 664, 800 *)
  DS "Topo" "Vz_grid" Flt (fun d => Nx d + 1) "topo->vz" (Staged (fun d => Nx d + 1) (fun d => Nx d + 1) (Some (s_V, fun d => Nx d + 1))) free_surf;  (* 668, 801 *)
  DS "Topo" "x_mark" Flt (fun d => nchain d) "topo_chain->x" (Staged (fun d => nchain d) (fun d => nchain d) (Some (s_L, fun d => nchain d))) free_surf;  (* 648, 802 *)
  DS "Topo" "z_mark" Flt (fun d => nchain d) "topo_chain->z" (Staged (fun d => nchain d) (fun d => nchain d) (Some (s_L, fun d => nchain d))) free_surf;  (* 652, 803 *)
  DS "Topo" "Vx_mark" Flt (fun d => nchain d) "topo_chain->Vx" (Staged (fun d => nchain d) (fun d => nchain d) (Some (s_V, fun d => nchain d))) free_surf;  (* 672, 804 *)
  DS "Topo" "Vz_mark" Flt (fun d => nchain d) "topo_chain->Vz" (Staged (fun d => nchain d) (fun d => nchain d) (Some (s_V, fun d => nchain d))) free_surf;  (* 676, 805 *)
  DS "Topo" "phase_mark" Int (fun d => nchain d) "topo_chain->phase" Direct free_surf;  (* 806 *)
  DS "Centers" "friction" Flt (fun d => ctr d) "mesh->fric_n" (Staged (fun d => ctr d) (fun d => ctr d) None) always;  (* 637, 809 *)
  DS "Centers" "cohesion" Flt (fun d => ctr d) "mesh->C_n" (Staged (fun d => ctr d) (fun d => ctr d) (Some (s_S, fun d => ctr d))) always;  (* 639, 810 *)
  DS "Centers" "Fxx" Flt (fun d => ctr d) "Fxx" (Staged (fun d => ctr d) (fun d => ctr d) None) fin_strain;  (* 533, 813 *)
  DS "Centers" "Fxz" Flt (fun d => ctr d) "Fxz" (Staged (fun d => ctr d) (fun d => ctr d) None) fin_strain;  (* 539, 814 *)
  DS "Centers" "Fzx" Flt (fun d => ctr d) "Fzx" (Staged (fun d => ctr d) (fun d => ctr d) None) fin_strain;  (* 545, 815 *)
  DS "Centers" "Fzz" Flt (fun d => ctr d) "Fzz" (Staged (fun d => ctr d) (fun d => ctr d) None) fin_strain;  (* 551, 816 *)
  DS "Centers" "nx" Flt (fun d => ctr d) "nx" (Staged (fun d => ctr d) (fun d => ctr d) None) aniso;  (* 560, 820 *)
  DS "Centers" "nz" Flt (fun d => ctr d) "nz" (Staged (fun d => ctr d) (fun d => ctr d) None) aniso;  (* 566, 821 *)
  DS "Centers" "ani_fac" Flt (fun d => ctr d) "mesh->aniso_factor_n" (Staged (fun d => ctr d) (fun d => ctr d) None) aniso;  (* 573, 822 *)
  DS "Centers" "T0" Flt (fun d => ctr d) "T0" (Staged (fun d => ctr d) (fun d => ctr d) (Some (s_T, fun d => ctr d))) track;  (* 586, 826 *)
  DS "Centers" "P0" Flt (fun d => ctr d) "P0" (Staged (fun d => ctr d) (fun d => ctr d) (Some (s_S, fun d => ctr d))) track;  (* 596, 827 *)
  DS "Centers" "Tmax" Flt (fun d => ctr d) "Tmax" (Staged (fun d => ctr d) (fun d => ctr d) (Some (s_T, fun d => ctr d))) track;  (* 606, 828 *)
  DS "Centers" "Pmax" Flt (fun d => ctr d) "Pmax" (Staged (fun d => ctr d) (fun d => ctr d) (Some (s_S, fun d => ctr d))) track;  (* 616, 829 *)
  DS "Centers" "x0" Flt (fun d => ctr d) "x0" (Staged (fun d => ctr d) (fun d => ctr d) (Some (s_L, fun d => ctr d))) track;  (* 624, 830 *)
  DS "Centers" "z0" Flt (fun d => ctr d) "z0" (Staged (fun d => ctr d) (fun d => ctr d) (Some (s_L, fun d => ctr d))) track;  (* 631, 831 *)
  DS "Centers" "BCp" Chr (fun d => ctr d) "mesh->BCp.type" Direct always;  (* 835 *)
  DS "Flags" "tag_s" Chr (fun d => (Nx d - 0) * (Nz d - 0)) "mesh->BCg.type" Direct always;  (* 836 *)
  DS "Flags" "tag_n" Chr (fun d => ctr d) "mesh->BCp.type" Direct always;  (* 837 *)
  DS "Flags" "tag_u" Chr (fun d => (Nx d - 0) * (Nz d + 1)) "mesh->BCu.type" Direct always;  (* 838 *)
  DS "Flags" "tag_v" Chr (fun d => (Nx d + 1) * (Nz d - 0)) "mesh->BCv.type" Direct always;  (* 839 *)
  DS "Flags" "tag_t_fine" Chr (fun d => (2 * Nx d - 2) * (2 * Nz d - 2)) "mesh->BCt_fine.type" Direct always;  (* 840 *)
  DS "Iterations" "rx_abs" Dbl (fun d => nit d + 1) "Nmodel.rx_abs" Direct always;  (* 844 *)
  DS "Iterations" "rz_abs" Dbl (fun d => nit d + 1) "Nmodel.rz_abs" Direct always;  (* 845 *)
  DS "Iterations" "rp_abs" Dbl (fun d => nit d + 1) "Nmodel.rp_abs" Direct always;  (* 846 *)
  DS "Iterations" "LogIsNewtonStep" Int (fun d => nit d + 1) "Nmodel.LogIsNewtonStep" Direct always;  (* 847 *)
  DS "Iterations" "NumberSteps" Int (fun d => 1) "Nmodel.nit" Direct always  (* 848 *)
].

(** WriteOutputHDF5Particles, 1156-1199. *)
Definition marker_file : list dataset := [
  DS "Model" "Params" Dbl (fun d => 8) "A" Direct always;  (* 1156 *)
  DS "Particles" "x" Flt (fun d => npart d) "particles->x" (Staged (fun d => npart d) (fun d => npart d) (Some (s_L, fun d => npart d))) always;  (* 1031, 1159 *)
  DS "Particles" "z" Flt (fun d => npart d) "particles->z" (Staged (fun d => npart d) (fun d => npart d) (Some (s_L, fun d => npart d))) always;  (* 1032, 1160 *)
  DS "Particles" "phase" Chr (fun d => npart d) "particles->phase" (Staged (fun d => npart d) (fun d => npart d) None) always;  (* 1039, 1161 *)
  DS "Particles" "index" Int (fun d => npart d) "part_index" Direct always;  (* 1164 *)
  DS "Particles" "generation" Chr (fun d => npart d) "particles->generation" (Staged (fun d => npart d) (fun d => npart d) None) always;  (* 1040, 1166 *)
  DS "Particles" "T" Flt (fun d => npart d) "particles->T" (Staged (fun d => npart d) (fun d => npart d) (Some (s_T, fun d => npart d))) always;  (* 1036, 1169 *)
  DS "Particles" "P" Flt (fun d => npart d) "particles->P" (Staged (fun d => npart d) (fun d => npart d) (Some (s_S, fun d => npart d))) always;  (* 1035, 1170 *)
  DS "Particles" "Vx" Flt (fun d => npart d) "particles->Vx" (Staged (fun d => npart d) (fun d => npart d) (Some (s_V, fun d => npart d))) always;  (* 1033, 1173 *)
  DS "Particles" "Vz" Flt (fun d => npart d) "particles->Vz" (Staged (fun d => npart d) (fun d => npart d) (Some (s_V, fun d => npart d))) always;  (* 1034, 1174 *)
  DS "Particles" "sxxd" Flt (fun d => npart d) "particles->sxxd" (Staged (fun d => npart d) (fun d => npart d) (Some (s_S, fun d => npart d))) always;  (* 1037, 1176 *)
  DS "Particles" "sxz" Flt (fun d => npart d) "particles->sxz" (Staged (fun d => npart d) (fun d => npart d) (Some (s_S, fun d => npart d))) always;  (* 1038, 1177 *)
  DS "Particles" "nx" Flt (fun d => npart d) "particles->nx" (Staged (fun d => npart d) (fun d => npart d) None) aniso;  (* 1041, 1179 *)
  DS "Particles" "nz" Flt (fun d => npart d) "particles->nz" (Staged (fun d => npart d) (fun d => npart d) None) aniso;  (* 1042, 1180 *)
  DS "Topo" "height" Flt (fun d => Nx d) "topo->height" (Staged (fun d => Nx d) (fun d => Nx d) (Some (s_L, fun d => Nx d))) free_surf;  (* 1069, 1183 *)
  DS "Topo" "vxsurf" Flt (fun d => Nx d) "topo->vx" (Staged (fun d => Nx d) (fun d => Nx d) (Some (s_V, fun d => Nx d))) free_surf;  (* 1081, 1184 *)
  DS "Topo" "vzsurf" Flt (fun d => Nx d + 1) "topo->vz" (Staged (fun d => Nx d + 1) (fun d => Nx d + 1) (Some (s_V, fun d => Nx d + 1))) free_surf;  (* 1085, 1185 *)
  DS "Topo" "x" Flt (fun d => nchain d) "topo_chain->x" (Staged (fun d => nchain d) (fun d => nchain d) (Some (s_L, fun d => nchain d))) free_surf;  (* 1061, 1186 *)
  DS "Topo" "z" Flt (fun d => nchain d) "topo_chain->z" (Staged (fun d => nchain d) (fun d => nchain d) (Some (s_L, fun d => nchain d))) free_surf;  (* 1065, 1187 *)
  DS "Topo" "vx" Flt (fun d => nchain d) "topo_chain->Vx" (Staged (fun d => nchain d) (fun d => nchain d) (Some (s_V, fun d => nchain d))) free_surf;  (* 1073, 1188 *)
  DS "Topo" "vz" Flt (fun d => nchain d) "topo_chain->Vz" (Staged (fun d => nchain d) (fun d => nchain d) (Some (s_V, fun d => nchain d))) free_surf;  (* 1077, 1189 *)
  DS "Topo" "phase" Int (fun d => nchain d) "topo_chain->phase" Direct free_surf;  (* 1190 *)
  DS "Topo_ini" "height" Flt (fun d => Nx d) "topo_ini->height" (Staged (fun d => Nx d) (fun d => Nx d) (Some (s_L, fun d => Nx d))) free_surf;  (* 1098, 1191 *)
  DS "Topo_ini" "vxsurf" Flt (fun d => Nx d) "topo_ini->vx" (Staged (fun d => Nx d) (fun d => Nx d) (Some (s_V, fun d => Nx d))) free_surf;  (* 1110, 1192 *)
  DS "Topo_ini" "vzsurf" Flt (fun d => Nx d + 1) "topo_ini->vz" (Staged (fun d => Nx d + 1) (fun d => Nx d + 1) (Some (s_V, fun d => Nx d + 1))) free_surf;  (* 1114, 1193 *)
  DS "Topo_ini" "x" Flt (fun d => nini d) "topo_chain_ini->x" (Staged (fun d => nini d) (fun d => nini d) (Some (s_L, fun d => nini d))) free_surf;  (* 1090, 1194 *)
  DS "Topo_ini" "z" Flt (fun d => nini d) "topo_chain_ini->z" (Staged (fun d => nini d) (fun d => nini d) (Some (s_L, fun d => nini d))) free_surf;  (* 1094, 1195 *)
  DS "Topo_ini" "vx" Flt (fun d => nini d) "topo_chain_ini->Vx" (Staged (fun d => nini d) (fun d => nini d) (Some (s_V, fun d => nini d))) free_surf;  (* 1102, 1196 *)
  DS "Topo_ini" "vz" Flt (fun d => nini d) "topo_chain_ini->Vz" (Staged (fun d => nini d) (fun d => nini d) (Some (s_V, fun d => nini d))) free_surf;  (* 1106, 1197 *)
  DS "Topo_ini" "phase" Int (fun d => nini d) "topo_chain_ini->phase" Direct free_surf  (* 1198 *)
].

(** 694-705 and 1134-1143: the groups made before. *)
Definition grid_groups : list string :=
  ["Model"; "Vertices"; "Centers"; "VxNodes"; "VzNodes"; "Particles"; "VizGrid"; "Topo"; "Flags"; "Iterations"; "TimeSeries"].
Definition marker_groups : list string :=
  ["Model"; "Vertices"; "Centers"; "VxNodes"; "VzNodes"; "Particles"; "VizGrid"; "Topo"; "Topo_ini"].

(** Elements of the arrays. Arrays whose names are without "->" are local to
    WriteOutputHDF5 (280, 297-303, 312-320, 486-629). *)
Definition one_of (s : string) (l : list string) : bool := existsb (String.eqb s) l.
Definition elements (d : dims) (s : string) : Z :=
  (* MemoryAllocFree.c 365, 377 (rho_s), 449, 453, 478, 508 *)
  if one_of s ["mesh->rho_s"; "mesh->eta_phys_s"; "mesh->sxz"; "mesh->exz"; "mesh->BCg.type"] then Nx d * Nz d
  (* 378, 388, 427-437, 445-452, 477, 562-577, 589-590, 642, 653, 659 *)
  else if one_of s ["mesh->rho_n"; "mesh->eta_phys_n"; "mesh->sxxd"; "mesh->szzd"; "mesh->T"; "mesh->exxd"; "mesh->ezzd";
                    "mesh->div_u"; "mesh->div_u_el"; "mesh->div_u_pl"; "mesh->divth0_n"; "mesh->div_u_r"; "mesh->eII_el";
                    "mesh->eII_pl"; "mesh->eII_pwl"; "mesh->eII_exp"; "mesh->eII_lin"; "mesh->eII_gbs"; "mesh->d_n"; "mesh->X_n";
                    "mesh->phi_n"; "mesh->OverS_n"; "mesh->fric_n"; "mesh->C_n"; "mesh->aniso_factor_n"; "mesh->BCp.type"]
       then (Nx d - 1) * (Nz d - 1)
  (* HDF5Output.c 280, 487, 493, 499, 505, 511, 517, 523, 530-548, 557-563, 579-628 *)
  else if one_of s ["P_total"; "strain"; "strain_el"; "strain_pl"; "strain_pwl"; "strain_exp"; "strain_lin"; "strain_gbs";
                    "Fxx"; "Fxz"; "Fzx"; "Fzz"; "nx"; "nz"; "T0"; "P0"; "Tmax"; "Pmax"; "x0"; "z0"]
       then (Nx d - 1) * (Nz d - 1)
  (* MemoryAllocFree.c 386, 435; 387, 436 *)
  else if one_of s ["mesh->u_in"; "mesh->BCu.type"] then Nx d * (Nz d + 1)
  else if one_of s ["mesh->v_in"; "mesh->BCv.type"] then (Nx d + 1) * Nz d
  (* 497 *)
  else if one_of s ["mesh->BCt_fine.type"] then (2 * Nx d - 2) * (2 * Nz d - 2)
  (* 357-366 *)
  else if one_of s ["mesh->xg_coord"] then Nx d else if one_of s ["mesh->zg_coord"] then Nz d
  else if one_of s ["mesh->xc_coord"] then Nx d - 1 else if one_of s ["mesh->zc_coord"] then Nz d - 1
  else if one_of s ["mesh->xvz_coord"] then Nx d + 1 else if one_of s ["mesh->zvx_coord"] then Nz d + 1
  (* 546-560 *)
  else if one_of s ["mesh->Time_time"; "mesh->Short_time"; "mesh->Work_time"; "mesh->Uthermal_time"; "mesh->Uelastic_time";
                    "mesh->T_mean_time"; "mesh->P_mean_time"; "mesh->sxxd_mean_time"; "mesh->szzd_mean_time"; "mesh->sxz_mean_time";
                    "mesh->Tii_mean_time"; "mesh->exxd_mean_time"; "mesh->ezzd_mean_time"; "mesh->exz_mean_time"; "mesh->Eii_mean_time"]
       then Nt d + 1
  (* 668-674 *)
  else if one_of s ["Nmodel.rx_abs"; "Nmodel.rz_abs"; "Nmodel.rp_abs"; "Nmodel.LogIsNewtonStep"] then nit d + 1
  else if one_of s ["Nmodel.nit"] then 1
  (* include/mdoodz.h 49; HDF5Output.c 259 *)
  else if one_of s ["model.description"] then 500
  else if one_of s ["A"] then 8
  (* HDF5Output.c 293-297, 309-313: X_vect and Z_vect of the phase maps *)
  else if one_of s ["xviz"] then 1 * (Nx d - 1) + 1 else if one_of s ["zviz"] then 1 * (Nz d - 1) + 1
  else if one_of s ["xviz_hr"] then 2 * (Nx d - 1) + 1 else if one_of s ["zviz_hr"] then 2 * (Nz d - 1) + 1
  (* 303, 319-320 *)
  else if one_of s ["compo"] then ((1 * (Nx d - 1) + 1) - 1) * ((1 * (Nz d - 1) + 1) - 1)
  else if one_of s ["compo_hr"; "compo_dual_hr"] then ((2 * (Nx d - 1) + 1) - 1) * ((2 * (Nz d - 1) + 1) - 1)
  (* MemoryAllocFree.c 191-196, 205-206, 211, 248-249; HDF5Output.c 1006 *)
  else if one_of s ["particles->x"; "particles->z"; "particles->Vx"; "particles->Vz"; "particles->P"; "particles->T";
                    "particles->sxxd"; "particles->sxz"; "particles->phase"; "particles->generation"; "particles->nx"; "particles->nz"]
       then npart_max d
  else if one_of s ["part_index"] then npart d
  (* FreeSurface.c 420-432 *)
  else if one_of s ["topo_chain->x"; "topo_chain->z"; "topo_chain->Vx"; "topo_chain->Vz"; "topo_chain->phase"; "topo_chain_ini->x";
                    "topo_chain_ini->z"; "topo_chain_ini->Vx"; "topo_chain_ini->Vz"; "topo_chain_ini->phase"] then 50 * Nx d
  else if one_of s ["topo->height"; "topo->vx"; "topo_ini->height"; "topo_ini->vx"] then Nx d
  else if one_of s ["topo->vz"; "topo_ini->vz"] then Nx d + 1
  else if one_of s ["topo->height_finer_c"] then 2 * Nx d - 2
  else 0.

(** ** Values *)
Local Open Scope R_scope.
(** Rounding of doubles and floats to nearest even. The exponent has no upper bound:
    overflow is outside the model. *)
Definition dbl : R -> R := round radix2 (FLT_exp (-1074) 53) ZnearestE.
Definition flt : R -> R := round radix2 (FLT_exp (-149) 24) ZnearestE.
(** 64-69: the product of a float and a double is a double, stored as a float. *)
Definition scale_back (x s : R) : R := flt (dbl (x * s)).
(** 84-89 *)
Definition to_float (x : R) : R := flt x.

(** What ends up in the file: the number of values and the values; [x] is the array. *)
Definition emit (s : scale) (d : dims) (x : nat -> R) (f : dataset) : result (Z * (nat -> R)) :=
  let n := dcount f d in
  let have := elements d (dsource f) in
  match droute f with
  | Direct => if (have <? n)%Z then UB else Done (n, x)
  | Staged size cast scaled =>
      let m := match scaled with Some (_, k) => k d | None => 0%Z end in
      if ((size d <? cast d) || (have <? cast d) || (size d <? m) || (size d <? n) || (cast d <? n))%Z then UB
      else Done (n, fun k =>
        let y := match dtype f with Flt => to_float (x k) | _ => x k end in
        match scaled with
        | Some (u, _) => if (Z.of_nat k <? m)%Z then scale_back y (u s) else y
        | None => y
        end)
  end.

(** 709-717: the array "Params". *)
Definition params_array (s : scale) (time xmin xmax zmin zmax dx dz dt : R) (nx nz : Z) : list R :=
  [time * s_t s; (xmax - xmin) * s_L s; (zmax - zmin) * s_L s; IZR nx; IZR nz; dx * s_L s; dz * s_L s; dt * s_t s].

(** 170-177: elements per chunk; 5.0*np/100.0 truncated ([np] is at least 0). *)
Definition chunk (np : Z) : Z :=
  let c := Zfloor (dbl (dbl (5 * IZR np) / 100)) in
  if Rlt_dec (dbl (dbl (5 * IZR np) / 100)) 1 then 1%Z else c.

(** 681-691: the name of the file. *)
Definition file_name (base : string) (step : N) : string := (base ++ fmt05 step ++ ".gzip.h5")%string.
