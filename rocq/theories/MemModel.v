(** Memory of a whole run: what RunMDOODZ (MDLIB/Main_DOODZ.c 45-1291) obtains before
    the time loop and gives back after it. Blocks obtained inside the time loop are
    given back there (C20).

    Sizes are bytes: 8 for double and pointers, 4 for int, 1 for char (x86-64).
    Simplifications: allocation succeeds; the callback MutateInput changes no option and
    no pointer besides crazyConductivity, with its list of phases; temporaries inside
    ReadInputFile and ReadChar are left out, as are the names given by asprintf to
    ReadBin; a run that stops by exit() is not considered. *)
From Coq Require Import List Arith NArith ZArith Bool String.
Import ListNotations.
Open Scope string_scope.
Open Scope list_scope.
Open Scope N_scope.

(** ** Pointers and blocks *)
Definition var := (string * nat)%type.        (* pointer variable; index in an array of pointers *)
Definition var_eqb (a b : var) : bool := (fst a =? fst b)%string && (snd a =? snd b)%nat.
Inductive pointer := Null | Wild (* never set *) | Constant (* string literal *) | Block (b : nat).
Record state := State { value : var -> pointer; size_of : nat -> option N (* bytes, if live *); next : nat }.
Definition set_var (v : var -> pointer) (f : var) (p : pointer) : var -> pointer :=
  fun g => if var_eqb f g then p else v g.
Definition set_block (h : nat -> option N) (b : nat) (x : option N) : nat -> option N :=
  fun c => if (b =? c)%nat then x else h c.

Inductive op :=
| Get (f : var) (bytes : N)         (* f = malloc / calloc *)
| Text (f : var)                      (* f = address of a string literal *)
| Entry (f : var) (k : nat)           (* access to the k-th pointer stored in f *)
| Rel (f : var).                      (* free(f) *)
(** [None]: undefined behaviour (free of a block not live, of a literal, of a pointer
    never set; access outside a live block). *)
Definition step (s : state) (p : op) : option state :=
  match p with
  | Get f n => Some (State (set_var (value s) f (Block (next s))) (set_block (size_of s) (next s) (Some n)) (S (next s)))
  | Text f => Some (State (set_var (value s) f Constant) (size_of s) (next s))
  | Entry f k => match value s f with
                 | Block b => match size_of s b with Some n => if 8 * N.of_nat k + 8 <=? n then Some s else None | None => None end
                 | _ => None
                 end
  | Rel f => match value s f with
             | Null => Some s
             | Block b => match size_of s b with Some _ => Some (State (value s) (set_block (size_of s) b None) (next s)) | None => None end
             | _ => None
             end
  end.
Fixpoint exec (s : state) (l : list op) : option state :=
  match l with [] => Some s | p :: r => match step s p with Some t => exec t r | None => None end end.

(** ** Statements *)
Inductive stmt :=
| Do (p : op)
| GetEach (n : nat) (c : nat -> bool) (base elem : string) (bytes : N)   (* for k<n, if c: base[k] = calloc *)
| RelEach (n : nat) (c : nat -> bool) (base elem : string).                (* for k<n, if c: free(base[k]) *)
Definition expand (t : stmt) : list op :=
  match t with
  | Do p => [p]
  | GetEach n c b e z => flat_map (fun k => if c k then [Entry (b, 0%nat) k; Get (e, k) z] else []) (seq 0 n)
  | RelEach n c b e => flat_map (fun k => if c k then [Entry (b, 0%nat) k; Rel (e, k)] else []) (seq 0 n)
  end.
Definition ops (l : list stmt) : list op := flat_map expand l.
Definition get (s : string) (n : N) : stmt := Do (Get (s, 0%nat) n).
Definition rel (s : string) : stmt := Do (Rel (s, 0%nat)).
Definition sec (b : bool) (l : list stmt) : list stmt := if b then l else [].

(** ** Options: sizes, the tests "== 1", the density model of each phase, whether the
    callback sets crazyConductivity (for [crazy_n] phases), and for each of the four
    strings whether ReadChar returned its Default argument (InputOutput.c 1807). *)
Record opts := Opts { nx : N; nz : N; nt : N; nph : nat; npmax : N; nit_max : N;
  free_surface : bool; anisotropy : bool; finite_strain : bool; track : bool; marker_angle : bool; kinetics : bool;
  density : nat -> Z; crazy : bool; crazy_n : N; text_length : string -> N; is_default : string -> bool }.
Definition cells (o : opts) := (nx o - 1) * (nz o - 1).
Definition verts (o : opts) := nx o * nz o.
Definition vxn (o : opts) := nx o * (nz o + 1).
Definition vzn (o : opts) := (nx o + 1) * nz o.
Definition expd (o : opts) := (nx o + 1) * (nz o + 1).

(** ReadChar (InputOutput.c 1719-1808): fresh string, or the literal. *)
Definition read_char (o : opts) (s : string) : stmt :=
  if is_default o s then Do (Text (s, 0%nat)) else get s (text_length o s + 1).

(** InputOutput.c 1480-1487: some phase takes its density from a diagram. *)
Definition isPD (o : opts) : bool := existsb (fun k => (density o k =? 2)%Z) (seq 0 (nph o)).
(** MemoryAllocFree.c 124-132, num_PD = 10 (InputOutput.c 1500). *)
Definition AllocatePhaseDiagrams : list stmt :=
 [ get "model.PDMnT" (10 * 4); get "model.PDMnP" (10 * 4); get "model.PDMTmin" (10 * 8); get "model.PDMTmax" (10 * 8);
   get "model.PDMPmin" (10 * 8); get "model.PDMPmax" (10 * 8); get "model.PDMrho" (10 * 8) ].
(** InputOutput.c 1506-1643, 1701-1713: one table per diagram, nT * nP doubles. *)
Definition table (k : nat) (nT nP : N) : list stmt := [ Do (Entry ("model.PDMrho", 0%nat) k); Do (Get ("PDMrho[]", k) (nT * nP * 8)) ].
Definition ReadTables : list stmt :=
 table 0%nat 1000 1000 (* 1517 *) ++
 table 1%nat 1500 1500 (* 1531 *) ++
 table 2%nat 1000 1000 (* 1545 *) ++
 table 3%nat 1249 1249 (* 1559 *) ++
 table 4%nat 793 793 (* 1573 *) ++
 table 5%nat 1249 1249 (* 1587 *) ++
 table 6%nat 1249 1249 (* 1601 *) ++
 table 7%nat 1249 1249 (* 1615 *) ++
 table 8%nat 793 793 (* 1629 *) ++
 table 9%nat 675 2500 (* 1643 *).
(** MemoryAllocFree.c 138-152. *)
Definition FreePhaseDiagrams : list stmt :=
 [ RelEach 10%nat (fun _ => true) "model.PDMrho" "PDMrho[]"; rel "model.PDMrho";
   rel "model.PDMnT"; rel "model.PDMnP"; rel "model.PDMTmin"; rel "model.PDMTmax"; rel "model.PDMPmin"; rel "model.PDMPmax" ].

(** InputOutput.c 1038-1050, 1401-1416, 1480-1643, 1650-1662. *)
Definition ReadInputFile (o : opts) : list stmt :=
 [ read_char o "model.writer_subfolder"; read_char o "model.import_files_dir"; read_char o "model.import_file"; read_char o "model.initial_markers_file";
   get "model.PD1DnP" (N.of_nat (nph o) * 4); get "model.PD1Drho" (N.of_nat (nph o) * 8); get "model.PD1Dmin" (N.of_nat (nph o) * 8); get "model.PD1Dmax" (N.of_nat (nph o) * 8);
   GetEach (nph o) (fun k => (density o k =? 4)%Z) "model.PD1Drho" "PD1Drho[]" (10000 * 8) ] ++
 sec (isPD o) (AllocatePhaseDiagrams ++ ReadTables) ++
 sec (kinetics o) [ get "model.kin_dG" (675 * 2500 * 8) ].

(** Main_DOODZ.c 51-77: names of the output files, lateral fluxes, callback. *)
Definition Begin (o : opts) : list stmt :=
 [ get "BaseOutputFileName" 7; get "BaseParticleFileName" 10 ] ++
 sec (free_surface o) [ get "input.flux" 16; get "input.stress" 16 ] ++
 sec (crazy o) [ get "crazyConductivity->phases" (crazy_n o * 4); get "input.crazyConductivity" 24 ].

(** MemoryAllocFree.c 338-663 (the number is the line). *)
Definition GridAlloc (o : opts) : list stmt :=
 [ get "mesh->FreeSurfW_s" (verts o * 8) (* 354 *);
   get "mesh->FreeSurfW_n" (cells o * 8) (* 355 *);
   get "mesh->xg_coord" (nx o * 8) (* 357 *);
   get "mesh->zg_coord" (nz o * 8) (* 358 *);
   get "mesh->xg_coord_ext" ((nx o + 2) * 8) (* 359 *);
   get "mesh->zg_coord_ext" ((nz o + 2) * 8) (* 360 *);
   get "mesh->xg_coord0" (nx o * 8) (* 361 *);
   get "mesh->zg_coord0" (nz o * 8) (* 362 *);
   get "mesh->xc_coord" ((nx o - 1) * 8) (* 363 *);
   get "mesh->zc_coord" ((nz o - 1) * 8) (* 364 *);
   get "mesh->xvz_coord" ((nx o + 1) * 8) (* 365 *);
   get "mesh->zvx_coord" ((nz o + 1) * 8) (* 366 *);
   get "mesh->eta_s" (verts o * 8) (* 368 *);
   get "mesh->eta_n" (cells o * 8) (* 369 *);
   get "mesh->rho_s" (verts o * 8) (* 370 *);
   get "mesh->rho_n" (cells o * 8) (* 371 *);
   get "mesh->rho0_n" (cells o * 8) (* 372 *);
   get "mesh->u" (vxn o * 8) (* 374 *);
   get "mesh->ru" (vxn o * 8) (* 375 *);
   get "mesh->rhs_u" (vxn o * 8) (* 376 *);
   get "mesh->gx" (vxn o * 8) (* 377 *);
   get "mesh->v" (vzn o * 8) (* 378 *);
   get "mesh->rv" (vzn o * 8) (* 379 *);
   get "mesh->rhs_v" (vzn o * 8) (* 380 *);
   get "mesh->gz" (vzn o * 8) (* 381 *);
   get "mesh->p" (cells o * 8) (* 382 *);
   get "mesh->rp" (cells o * 8) (* 383 *);
   get "mesh->rhs_p" (cells o * 8) (* 384 *);
   get "mesh->BCu.type" (vxn o * 1) (* 386 *);
   get "mesh->BCv.type" (vzn o * 1) (* 387 *);
   get "mesh->BCp.type" (cells o * 1) (* 388 *);
   get "mesh->BCp_exp.type" (expd o * 1) (* 389 *);
   get "mesh->BCu.val" (vxn o * 8) (* 391 *);
   get "mesh->BCv.val" (vzn o * 8) (* 392 *);
   get "mesh->BCp.val" (cells o * 8) (* 393 *);
   get "mesh->BCp_exp.val" (expd o * 8) (* 394 *);
   get "mesh->phase_perc_n[]" (N.of_nat (nph o) * 8) (* 399 *) ] ++
 [ GetEach (nph o) (fun _ => true) "mesh->phase_perc_n[]" "mesh->phase_perc_n" (cells o * 8) (* 401 *) ] ++
 [ get "mesh->phase_perc_s[]" (N.of_nat (nph o) * 8) (* 405 *) ] ++
 [ GetEach (nph o) (fun _ => true) "mesh->phase_perc_s[]" "mesh->phase_perc_s" (verts o * 8) (* 407 *) ] ++
 [ get "mesh->phase_eta_n[]" (N.of_nat (nph o) * 8) (* 411 *) ] ++
 [ GetEach (nph o) (fun _ => true) "mesh->phase_eta_n[]" "mesh->phase_eta_n" (cells o * 8) (* 413 *) ] ++
 [ get "mesh->phase_eta_s[]" (N.of_nat (nph o) * 8) (* 417 *) ] ++
 [ GetEach (nph o) (fun _ => true) "mesh->phase_eta_s[]" "mesh->phase_eta_s" (verts o * 8) (* 419 *) ] ++
 [ get "mesh->roger_x" (vxn o * 8) (* 425 *);
   get "mesh->roger_z" (vzn o * 8) (* 426 *);
   get "mesh->div_u" (cells o * 8) (* 427 *);
   get "mesh->div_u_s" (verts o * 8) (* 428 *);
   get "mesh->div_u_el" (cells o * 8) (* 429 *);
   get "mesh->div_u_pl" (cells o * 8) (* 430 *);
   get "mesh->div_u_r" (cells o * 8) (* 431 *);
   get "mesh->Qrho" (cells o * 8) (* 432 *);
   get "mesh->u_in" (vxn o * 8) (* 435 *);
   get "mesh->v_in" (vzn o * 8) (* 436 *);
   get "mesh->p_in" (cells o * 8) (* 437 *);
   get "mesh->p_corr" (cells o * 8) (* 438 *);
   get "mesh->u_start" (vxn o * 8) (* 440 *);
   get "mesh->v_start" (vzn o * 8) (* 441 *);
   get "mesh->p_start" (cells o * 8) (* 442 *);
   get "mesh->sxxd" (cells o * 8) (* 445 *);
   get "mesh->sxxd_s" (verts o * 8) (* 446 *);
   get "mesh->szzd" (cells o * 8) (* 447 *);
   get "mesh->szzd_s" (verts o * 8) (* 448 *);
   get "mesh->sxz" (verts o * 8) (* 449 *);
   get "mesh->sxz_n" (cells o * 8) (* 450 *);
   get "mesh->exxd" (cells o * 8) (* 451 *);
   get "mesh->ezzd" (cells o * 8) (* 452 *);
   get "mesh->exz" (verts o * 8) (* 453 *);
   get "mesh->wxz" (verts o * 8) (* 454 *);
   get "mesh->wxz_n" (cells o * 8) (* 455 *);
   get "mesh->mu_s" (verts o * 8) (* 458 *);
   get "mesh->mu_n" (cells o * 8) (* 459 *);
   get "mesh->VE_s" (verts o * 8) (* 460 *);
   get "mesh->VE_n" (cells o * 8) (* 461 *);
   get "mesh->sxxd0" (cells o * 8) (* 463 *);
   get "mesh->szzd0" (cells o * 8) (* 464 *);
   get "mesh->sxz0" (verts o * 8) (* 465 *);
   get "mesh->sxxd0_s" (verts o * 8) (* 466 *);
   get "mesh->szzd0_s" (verts o * 8) (* 467 *);
   get "mesh->sxz0_n" (cells o * 8) (* 468 *);
   get "mesh->exxd_s" (verts o * 8) (* 470 *);
   get "mesh->ezzd_s" (verts o * 8) (* 471 *);
   get "mesh->exz_n" (cells o * 8) (* 472 *);
   get "mesh->u_adv" (vxn o * 8) (* 474 *);
   get "mesh->v_adv" (vzn o * 8) (* 475 *);
   get "mesh->eta_phys_n" (cells o * 8) (* 477 *);
   get "mesh->eta_phys_s" (verts o * 8) (* 478 *);
   get "mesh->strain_n" (cells o * 8) (* 480 *);
   get "mesh->strain_s" (verts o * 8) (* 481 *);
   get "mesh->Cp" (cells o * 8) (* 484 *);
   get "mesh->kx" (vxn o * 8) (* 485 *);
   get "mesh->kz" (vzn o * 8) (* 486 *);
   get "mesh->kc_x" (vxn o * 8) (* 487 *);
   get "mesh->kc_z" (vzn o * 8) (* 488 *);
   get "mesh->Qr" (cells o * 8) (* 489 *);
   get "mesh->rhs_t" (cells o * 8) (* 490 *);
   get "mesh->BCT_exp.type" (expd o * 1) (* 491 *);
   get "mesh->BCT_exp.val" (expd o * 8) (* 492 *);
   get "mesh->BCC_exp.type" (expd o * 1) (* 493 *);
   get "mesh->BCC_exp.val" (expd o * 8) (* 494 *);
   get "mesh->BCt.type" (cells o * 1) (* 495 *);
   get "mesh->BCt.val" (cells o * 8) (* 496 *);
   get "mesh->BCt_fine.type" (((2 * nx o - 2) * (2 * nz o - 2)) * 1) (* 497 *);
   get "mesh->BCt_fine.val" (((2 * nx o - 2) * (2 * nz o - 2)) * 8) (* 498 *);
   get "mesh->Wdiss" (cells o * 8) (* 499 *);
   get "mesh->Wel" (cells o * 8) (* 500 *);
   get "mesh->Wtot" (cells o * 8) (* 501 *);
   get "mesh->BCc.type" (cells o * 1) (* 504 *);
   get "mesh->BCc.val" (cells o * 8) (* 505 *);
   get "mesh->BCg.type" (verts o * 1) (* 508 *);
   get "mesh->BCg.val" (verts o * 8) (* 509 *);
   get "mesh->p_lith" (cells o * 8) (* 512 *);
   get "mesh->p_lith0" (cells o * 8) (* 513 *);
   get "mesh->dp" (cells o * 8) (* 514 *);
   get "mesh->alp" (cells o * 8) (* 515 *);
   get "mesh->bet_n" (cells o * 8) (* 516 *);
   get "mesh->bet_s" (verts o * 8) (* 517 *);
   get "mesh->sxx_W" ((nz o - 1) * 8) (* 520 *);
   get "mesh->sxx_E" ((nz o - 1) * 8) (* 521 *);
   get "mesh->szz_S" ((nx o - 1) * 8) (* 522 *);
   get "mesh->szz_N" ((nx o - 1) * 8) (* 523 *);
   get "mesh->kvx" (vxn o * 4) (* 526 *);
   get "mesh->lvx" (vxn o * 4) (* 527 *);
   get "mesh->kvz" (vzn o * 4) (* 528 *);
   get "mesh->lvz" (vzn o * 4) (* 529 *);
   get "mesh->kp" (cells o * 4) (* 530 *);
   get "mesh->lp" (cells o * 4) (* 531 *);
   get "mesh->kn" (verts o * 4) (* 532 *);
   get "mesh->ln" (verts o * 4) (* 533 *);
   get "mesh->nb_part_cell" (cells o * 4) (* 536 *);
   get "mesh->nb_part_vert" (verts o * 4) (* 537 *);
   get "mesh->VzVx" (vxn o * 8) (* 542 *);
   get "mesh->VxVz" (vzn o * 8) (* 543 *);
   get "mesh->Uthermal_time" ((nt o + 1) * 8) (* 546 *);
   get "mesh->Uelastic_time" ((nt o + 1) * 8) (* 547 *);
   get "mesh->Work_time" ((nt o + 1) * 8) (* 548 *);
   get "mesh->Time_time" ((nt o + 1) * 8) (* 549 *);
   get "mesh->Short_time" ((nt o + 1) * 8) (* 550 *);
   get "mesh->P_mean_time" ((nt o + 1) * 8) (* 551 *);
   get "mesh->T_mean_time" ((nt o + 1) * 8) (* 552 *);
   get "mesh->sxxd_mean_time" ((nt o + 1) * 8) (* 553 *);
   get "mesh->szzd_mean_time" ((nt o + 1) * 8) (* 554 *);
   get "mesh->sxz_mean_time" ((nt o + 1) * 8) (* 555 *);
   get "mesh->Tii_mean_time" ((nt o + 1) * 8) (* 556 *);
   get "mesh->exxd_mean_time" ((nt o + 1) * 8) (* 557 *);
   get "mesh->ezzd_mean_time" ((nt o + 1) * 8) (* 558 *);
   get "mesh->exz_mean_time" ((nt o + 1) * 8) (* 559 *);
   get "mesh->Eii_mean_time" ((nt o + 1) * 8) (* 560 *);
   get "mesh->T" (cells o * 8) (* 562 *);
   get "mesh->T0_n" (cells o * 8) (* 563 *);
   get "mesh->divth_n" (cells o * 8) (* 564 *);
   get "mesh->divth0_n" (cells o * 8) (* 565 *);
   get "mesh->eII_el" (cells o * 8) (* 566 *);
   get "mesh->comp_cells" (cells o * 8) (* 567 *);
   get "mesh->eII_pl" (cells o * 8) (* 568 *);
   get "mesh->eII_pwl" (cells o * 8) (* 569 *);
   get "mesh->eII_exp" (cells o * 8) (* 570 *);
   get "mesh->eII_lin" (cells o * 8) (* 571 *);
   get "mesh->eII_gbs" (cells o * 8) (* 572 *);
   get "mesh->eII_cst" (cells o * 8) (* 573 *);
   get "mesh->d_n" (cells o * 8) (* 575 *);
   get "mesh->d0_n" (cells o * 8) (* 576 *);
   get "mesh->phi_n" (cells o * 8) (* 577 *);
   get "mesh->phi0_n" (cells o * 8) (* 578 *);
   get "mesh->cell_min_z" ((nz o - 1) * 8) (* 580 *);
   get "mesh->cell_max_z" ((nz o - 1) * 8) (* 581 *);
   get "mesh->vert_min_z" (nz o * 8) (* 582 *);
   get "mesh->vert_max_z" (nz o * 8) (* 583 *);
   get "mesh->C_s" (verts o * 8) (* 586 *);
   get "mesh->fric_s" (verts o * 8) (* 587 *);
   get "mesh->dil_s" (verts o * 8) (* 588 *);
   get "mesh->C_n" (cells o * 8) (* 589 *);
   get "mesh->fric_n" (cells o * 8) (* 590 *);
   get "mesh->dil_n" (cells o * 8) (* 591 *);
   get "mesh->D11_n" (cells o * 8) (* 594 *);
   get "mesh->D12_n" (cells o * 8) (* 595 *);
   get "mesh->D13_n" (cells o * 8) (* 596 *);
   get "mesh->D14_n" (cells o * 8) (* 597 *);
   get "mesh->D21_n" (cells o * 8) (* 599 *);
   get "mesh->D22_n" (cells o * 8) (* 600 *);
   get "mesh->D23_n" (cells o * 8) (* 601 *);
   get "mesh->D24_n" (cells o * 8) (* 602 *);
   get "mesh->D31_s" (verts o * 8) (* 604 *);
   get "mesh->D32_s" (verts o * 8) (* 605 *);
   get "mesh->D33_s" (verts o * 8) (* 606 *);
   get "mesh->D34_s" (verts o * 8) (* 607 *);
   get "mesh->drhodp_n" (cells o * 8) (* 609 *);
   get "mesh->d0_s" (verts o * 8) (* 626 *);
   get "mesh->phi0_s" (verts o * 8) (* 627 *);
   get "mesh->T_s" (verts o * 8) (* 628 *);
   get "mesh->P_s" (verts o * 8) (* 629 *) ] ++
 sec (anisotropy o)
 [ get "mesh->d1_n" (cells o * 8) (* 632 *);
   get "mesh->d1_s" (verts o * 8) (* 633 *);
   get "mesh->d2_n" (cells o * 8) (* 634 *);
   get "mesh->d2_s" (verts o * 8) (* 635 *);
   get "mesh->angle_n" (cells o * 8) (* 636 *);
   get "mesh->angle_s" (verts o * 8) (* 637 *);
   get "mesh->FS_AR_n" (cells o * 8) (* 638 *);
   get "mesh->FS_AR_s" (verts o * 8) (* 639 *);
   get "mesh->aniso_factor_n" (cells o * 8) (* 642 *);
   get "mesh->aniso_factor_s" (verts o * 8) (* 643 *) ] ++
 [ get "mesh->p0_n" (cells o * 8) (* 649 *);
   get "mesh->p0_s" (verts o * 8) (* 650 *);
   get "mesh->X0_n" (cells o * 8) (* 652 *);
   get "mesh->X_n" (cells o * 8) (* 653 *);
   get "mesh->noise_n" (cells o * 8) (* 654 *);
   get "mesh->X0_s" (verts o * 8) (* 655 *);
   get "mesh->X_s" (verts o * 8) (* 656 *);
   get "mesh->noise_s" (verts o * 8) (* 657 *);
   get "mesh->OverS_n" (cells o * 8) (* 659 *) ].

(** MemoryAllocFree.c 693-997. *)
Definition GridFree (o : opts) : list stmt :=
 [ rel "mesh->FreeSurfW_s" (* 699 *);
   rel "mesh->FreeSurfW_n" (* 700 *);
   rel "mesh->roger_x" (* 702 *);
   rel "mesh->roger_z" (* 703 *);
   rel "mesh->div_u" (* 704 *);
   rel "mesh->div_u_s" (* 705 *);
   rel "mesh->div_u_el" (* 706 *);
   rel "mesh->div_u_pl" (* 707 *);
   rel "mesh->div_u_r" (* 708 *);
   rel "mesh->Qrho" (* 709 *);
   rel "mesh->u_in" (* 712 *);
   rel "mesh->v_in" (* 713 *);
   rel "mesh->p_in" (* 714 *);
   rel "mesh->p_corr" (* 715 *);
   rel "mesh->u_start" (* 717 *);
   rel "mesh->v_start" (* 718 *);
   rel "mesh->p_start" (* 719 *);
   rel "mesh->sxxd" (* 722 *);
   rel "mesh->sxxd_s" (* 723 *);
   rel "mesh->szzd" (* 724 *);
   rel "mesh->szzd_s" (* 725 *);
   rel "mesh->sxz" (* 726 *);
   rel "mesh->sxz_n" (* 727 *);
   rel "mesh->exxd" (* 728 *);
   rel "mesh->ezzd" (* 729 *);
   rel "mesh->exz" (* 730 *);
   rel "mesh->wxz" (* 731 *);
   rel "mesh->wxz_n" (* 732 *);
   rel "mesh->xg_coord" (* 735 *);
   rel "mesh->zg_coord" (* 736 *);
   rel "mesh->xg_coord_ext" (* 737 *);
   rel "mesh->zg_coord_ext" (* 738 *);
   rel "mesh->xg_coord0" (* 739 *);
   rel "mesh->zg_coord0" (* 740 *);
   rel "mesh->xc_coord" (* 741 *);
   rel "mesh->zc_coord" (* 742 *);
   rel "mesh->xvz_coord" (* 743 *);
   rel "mesh->zvx_coord" (* 744 *);
   rel "mesh->eta_s" (* 745 *);
   rel "mesh->eta_n" (* 746 *);
   rel "mesh->rho_s" (* 748 *);
   rel "mesh->rho_n" (* 749 *);
   rel "mesh->rho0_n" (* 750 *);
   rel "mesh->u" (* 751 *);
   rel "mesh->ru" (* 752 *);
   rel "mesh->v" (* 753 *);
   rel "mesh->rv" (* 754 *);
   rel "mesh->p" (* 755 *);
   rel "mesh->rp" (* 756 *);
   rel "mesh->rhs_u" (* 758 *);
   rel "mesh->gx" (* 759 *);
   rel "mesh->rhs_v" (* 760 *);
   rel "mesh->gz" (* 761 *);
   rel "mesh->rhs_p" (* 762 *);
   rel "mesh->BCu.val" (* 764 *);
   rel "mesh->BCv.val" (* 765 *);
   rel "mesh->BCp.val" (* 766 *);
   rel "mesh->BCp_exp.val" (* 767 *);
   rel "mesh->BCu.type" (* 768 *);
   rel "mesh->BCv.type" (* 769 *);
   rel "mesh->BCp.type" (* 770 *);
   rel "mesh->BCp_exp.type" (* 771 *);
   rel "mesh->mu_s" (* 774 *);
   rel "mesh->mu_n" (* 775 *);
   rel "mesh->VE_s" (* 776 *);
   rel "mesh->VE_n" (* 777 *);
   rel "mesh->sxxd0" (* 779 *);
   rel "mesh->szzd0" (* 780 *);
   rel "mesh->sxz0" (* 781 *);
   rel "mesh->sxxd0_s" (* 782 *);
   rel "mesh->szzd0_s" (* 783 *);
   rel "mesh->sxz0_n" (* 784 *);
   rel "mesh->exxd_s" (* 786 *);
   rel "mesh->ezzd_s" (* 787 *);
   rel "mesh->exz_n" (* 788 *);
   rel "mesh->u_adv" (* 790 *);
   rel "mesh->v_adv" (* 791 *);
   rel "mesh->eta_phys_s" (* 792 *);
   rel "mesh->eta_phys_n" (* 793 *);
   rel "mesh->strain_s" (* 795 *);
   rel "mesh->strain_n" (* 796 *);
   rel "mesh->Cp" (* 799 *);
   rel "mesh->kx" (* 800 *);
   rel "mesh->kz" (* 801 *);
   rel "mesh->kc_x" (* 802 *);
   rel "mesh->kc_z" (* 803 *);
   rel "mesh->Qr" (* 804 *);
   rel "mesh->rhs_t" (* 805 *);
   rel "mesh->BCT_exp.type" (* 806 *);
   rel "mesh->BCT_exp.val" (* 807 *);
   rel "mesh->BCC_exp.type" (* 808 *);
   rel "mesh->BCC_exp.val" (* 809 *);
   rel "mesh->BCt.val" (* 810 *);
   rel "mesh->BCt.type" (* 811 *);
   rel "mesh->BCt_fine.val" (* 812 *);
   rel "mesh->BCt_fine.type" (* 813 *);
   rel "mesh->Wdiss" (* 814 *);
   rel "mesh->Wel" (* 815 *);
   rel "mesh->Wtot" (* 816 *);
   rel "mesh->BCc.val" (* 819 *);
   rel "mesh->BCc.type" (* 820 *);
   rel "mesh->BCg.val" (* 823 *);
   rel "mesh->BCg.type" (* 824 *);
   rel "mesh->p_lith" (* 827 *);
   rel "mesh->p_lith0" (* 828 *);
   rel "mesh->dp" (* 829 *);
   rel "mesh->alp" (* 830 *);
   rel "mesh->bet_n" (* 831 *);
   rel "mesh->bet_s" (* 832 *);
   rel "mesh->sxx_W" (* 835 *);
   rel "mesh->sxx_E" (* 836 *);
   rel "mesh->szz_S" (* 837 *);
   rel "mesh->szz_N" (* 838 *);
   rel "mesh->kvx" (* 841 *);
   rel "mesh->lvx" (* 842 *);
   rel "mesh->kvz" (* 843 *);
   rel "mesh->lvz" (* 844 *);
   rel "mesh->kp" (* 845 *);
   rel "mesh->lp" (* 846 *);
   rel "mesh->kn" (* 847 *);
   rel "mesh->ln" (* 848 *) ] ++
 [ RelEach (nph o) (fun _ => true) "mesh->phase_perc_n[]" "mesh->phase_perc_n" (* 852 *) ] ++
 [ rel "mesh->phase_perc_n[]" (* 854 *) ] ++
 [ RelEach (nph o) (fun _ => true) "mesh->phase_perc_s[]" "mesh->phase_perc_s" (* 858 *) ] ++
 [ rel "mesh->phase_perc_s[]" (* 860 *) ] ++
 [ RelEach (nph o) (fun _ => true) "mesh->phase_eta_n[]" "mesh->phase_eta_n" (* 864 *) ] ++
 [ rel "mesh->phase_eta_n[]" (* 866 *) ] ++
 [ RelEach (nph o) (fun _ => true) "mesh->phase_eta_s[]" "mesh->phase_eta_s" (* 870 *) ] ++
 [ rel "mesh->phase_eta_s[]" (* 872 *);
   rel "mesh->VxVz" (* 875 *);
   rel "mesh->VzVx" (* 876 *);
   rel "mesh->nb_part_cell" (* 879 *);
   rel "mesh->nb_part_vert" (* 880 *);
   rel "mesh->Uthermal_time" (* 883 *);
   rel "mesh->Uelastic_time" (* 884 *);
   rel "mesh->Work_time" (* 885 *);
   rel "mesh->Time_time" (* 886 *);
   rel "mesh->Short_time" (* 887 *);
   rel "mesh->P_mean_time" (* 888 *);
   rel "mesh->T_mean_time" (* 889 *);
   rel "mesh->sxxd_mean_time" (* 890 *);
   rel "mesh->szzd_mean_time" (* 891 *);
   rel "mesh->sxz_mean_time" (* 892 *);
   rel "mesh->Tii_mean_time" (* 893 *);
   rel "mesh->exxd_mean_time" (* 894 *);
   rel "mesh->ezzd_mean_time" (* 895 *);
   rel "mesh->exz_mean_time" (* 896 *);
   rel "mesh->Eii_mean_time" (* 897 *);
   rel "mesh->T" (* 899 *);
   rel "mesh->T0_n" (* 900 *);
   rel "mesh->divth_n" (* 901 *);
   rel "mesh->divth0_n" (* 902 *);
   rel "mesh->eII_el" (* 903 *);
   rel "mesh->eII_pl" (* 905 *);
   rel "mesh->eII_pwl" (* 906 *);
   rel "mesh->eII_exp" (* 907 *);
   rel "mesh->eII_lin" (* 908 *);
   rel "mesh->eII_gbs" (* 909 *);
   rel "mesh->eII_cst" (* 910 *);
   rel "mesh->comp_cells" (* 912 *);
   rel "mesh->exz_n_el" (* 914 *);
   rel "mesh->exz_n_diss" (* 915 *);
   rel "mesh->d_n" (* 917 *);
   rel "mesh->d0_n" (* 918 *);
   rel "mesh->phi_n" (* 919 *);
   rel "mesh->phi0_n" (* 920 *);
   rel "mesh->cell_min_z" (* 922 *);
   rel "mesh->cell_max_z" (* 923 *);
   rel "mesh->vert_min_z" (* 924 *);
   rel "mesh->vert_max_z" (* 925 *);
   rel "mesh->C_s" (* 928 *);
   rel "mesh->fric_s" (* 929 *);
   rel "mesh->dil_s" (* 930 *);
   rel "mesh->C_n" (* 931 *);
   rel "mesh->fric_n" (* 932 *);
   rel "mesh->dil_n" (* 933 *);
   rel "mesh->D11_n" (* 936 *);
   rel "mesh->D12_n" (* 937 *);
   rel "mesh->D13_n" (* 938 *);
   rel "mesh->D14_n" (* 939 *);
   rel "mesh->D21_n" (* 941 *);
   rel "mesh->D22_n" (* 942 *);
   rel "mesh->D23_n" (* 943 *);
   rel "mesh->D24_n" (* 944 *);
   rel "mesh->D31_s" (* 946 *);
   rel "mesh->D32_s" (* 947 *);
   rel "mesh->D33_s" (* 948 *);
   rel "mesh->D34_s" (* 949 *);
   rel "mesh->drhodp_n" (* 951 *);
   rel "mesh->d0_s" (* 968 *);
   rel "mesh->phi0_s" (* 969 *);
   rel "mesh->T_s" (* 970 *);
   rel "mesh->P_s" (* 971 *) ] ++
 sec (anisotropy o)
 [ rel "mesh->d1_n" (* 974 *);
   rel "mesh->d1_s" (* 975 *);
   rel "mesh->d2_n" (* 976 *);
   rel "mesh->d2_s" (* 977 *);
   rel "mesh->angle_n" (* 978 *);
   rel "mesh->angle_s" (* 979 *);
   rel "mesh->FS_AR_n" (* 980 *);
   rel "mesh->FS_AR_s" (* 981 *);
   rel "mesh->aniso_factor_n" (* 982 *);
   rel "mesh->aniso_factor_s" (* 983 *) ] ++
 [ rel "mesh->p0_n" (* 985 *);
   rel "mesh->p0_s" (* 986 *);
   rel "mesh->X_n" (* 988 *);
   rel "mesh->noise_n" (* 989 *);
   rel "mesh->X_s" (* 990 *);
   rel "mesh->noise_s" (* 991 *);
   rel "mesh->X0_n" (* 992 *);
   rel "mesh->X0_s" (* 993 *);
   rel "mesh->OverS_n" (* 995 *) ].

(** MemoryAllocFree.c 182-255. *)
Definition PartAlloc (o : opts) : list stmt :=
 [ get "particles->x" (npmax o * 8) (* 191 *);
   get "particles->z" (npmax o * 8) (* 192 *);
   get "particles->Vx" (npmax o * 8) (* 193 *);
   get "particles->Vz" (npmax o * 8) (* 194 *);
   get "particles->P" (npmax o * 8) (* 195 *);
   get "particles->sxxd" (npmax o * 8) (* 196 *);
   get "particles->szzd" (npmax o * 8) (* 197 *);
   get "particles->sxz" (npmax o * 8) (* 198 *);
   get "particles->phase" (npmax o * 4) (* 205 *);
   get "particles->generation" (npmax o * 4) (* 206 *);
   get "particles->dual" (npmax o * 4) (* 207 *);
   get "particles->progress" (npmax o * 8) (* 208 *);
   get "particles->divth" (npmax o * 8) (* 210 *);
   get "particles->T" (npmax o * 8) (* 211 *);
   get "particles->d" (npmax o * 8) (* 212 *);
   get "particles->phi" (npmax o * 8) (* 213 *);
   get "particles->X" (npmax o * 8) (* 214 *);
   get "particles->noise" (npmax o * 8) (* 215 *);
   get "particles->rho" (npmax o * 8) (* 216 *);
   get "particles->strain" (npmax o * 8) (* 219 *);
   get "particles->strain_el" (npmax o * 8) (* 220 *);
   get "particles->strain_pl" (npmax o * 8) (* 221 *);
   get "particles->strain_pwl" (npmax o * 8) (* 222 *);
   get "particles->strain_exp" (npmax o * 8) (* 223 *);
   get "particles->strain_lin" (npmax o * 8) (* 224 *);
   get "particles->strain_gbs" (npmax o * 8) (* 225 *);
   get "particles->intag" (npmax o * 4) (* 227 *) ] ++
 sec (finite_strain o)
 [ get "particles->Fxx" (npmax o * 8) (* 230 *);
   get "particles->Fxz" (npmax o * 8) (* 231 *);
   get "particles->Fzx" (npmax o * 8) (* 232 *);
   get "particles->Fzz" (npmax o * 8) (* 233 *) ] ++
 sec (track o)
 [ get "particles->T0" (npmax o * 8) (* 239 *);
   get "particles->P0" (npmax o * 8) (* 240 *);
   get "particles->z0" (npmax o * 8) (* 241 *);
   get "particles->x0" (npmax o * 8) (* 242 *);
   get "particles->Tmax" (npmax o * 8) (* 243 *);
   get "particles->Pmax" (npmax o * 8) (* 244 *) ] ++
 sec (anisotropy o)
 [ get "particles->nx" (npmax o * 8) (* 248 *);
   get "particles->nz" (npmax o * 8) (* 249 *) ] ++
 sec (anisotropy o && marker_angle o)
 [ get "particles->aniso_angle" (npmax o * 8) (* 251 *) ].

(** MemoryAllocFree.c 262-332. *)
Definition PartFree (o : opts) : list stmt :=
 [ rel "particles->x" (* 265 *);
   rel "particles->z" (* 266 *);
   rel "particles->Vx" (* 267 *);
   rel "particles->Vz" (* 268 *);
   rel "particles->P" (* 269 *);
   rel "particles->sxxd" (* 270 *);
   rel "particles->szzd" (* 271 *);
   rel "particles->sxz" (* 272 *);
   rel "particles->phase" (* 279 *);
   rel "particles->progress" (* 280 *);
   rel "particles->dual" (* 281 *);
   rel "particles->generation" (* 282 *);
   rel "particles->divth" (* 284 *);
   rel "particles->T" (* 285 *);
   rel "particles->d" (* 286 *);
   rel "particles->phi" (* 287 *);
   rel "particles->X" (* 288 *);
   rel "particles->noise" (* 289 *);
   rel "particles->rho" (* 290 *);
   rel "particles->strain" (* 292 *);
   rel "particles->strain_el" (* 293 *);
   rel "particles->strain_pl" (* 294 *);
   rel "particles->strain_pwl" (* 295 *);
   rel "particles->strain_exp" (* 296 *);
   rel "particles->strain_lin" (* 297 *);
   rel "particles->strain_gbs" (* 298 *);
   rel "particles->intag" (* 300 *) ] ++
 sec (finite_strain o)
 [ rel "particles->Fxx" (* 303 *);
   rel "particles->Fxz" (* 304 *);
   rel "particles->Fzx" (* 305 *);
   rel "particles->Fzz" (* 306 *) ] ++
 sec (track o)
 [ rel "particles->T0" (* 310 *);
   rel "particles->P0" (* 311 *);
   rel "particles->x0" (* 312 *);
   rel "particles->z0" (* 313 *);
   rel "particles->Tmax" (* 314 *);
   rel "particles->Pmax" (* 315 *) ] ++
 sec (anisotropy o)
 [ rel "particles->nx" (* 319 *);
   rel "particles->nz" (* 320 *) ] ++
 sec (anisotropy o && marker_angle o)
 [ rel "particles->aniso_angle" (* 322 *) ].

(** MemoryAllocFree.c 666-686. *)
Definition NmodelAlloc (o : opts) : list stmt :=
 [ get "Nmodel.rx_abs" ((nit_max o + 1) * 8) (* 668 *);
   get "Nmodel.rx_rel" ((nit_max o + 1) * 8) (* 669 *);
   get "Nmodel.rz_abs" ((nit_max o + 1) * 8) (* 670 *);
   get "Nmodel.rz_rel" ((nit_max o + 1) * 8) (* 671 *);
   get "Nmodel.rp_abs" ((nit_max o + 1) * 8) (* 672 *);
   get "Nmodel.rp_rel" ((nit_max o + 1) * 8) (* 673 *);
   get "Nmodel.LogIsNewtonStep" ((nit_max o + 1) * 4) (* 674 *) ].
Definition NmodelFree : list stmt :=
 [ rel "Nmodel.rx_abs" (* 679 *);
   rel "Nmodel.rz_abs" (* 680 *);
   rel "Nmodel.rp_abs" (* 681 *);
   rel "Nmodel.rx_rel" (* 682 *);
   rel "Nmodel.rz_rel" (* 683 *);
   rel "Nmodel.rp_rel" (* 684 *);
   rel "Nmodel.LogIsNewtonStep" (* 685 *) ].

(** FreeSurface.c 418-440, 446-465: [tc] the chain, [tp] the heights. *)
Definition AllocateMarkerChain (o : opts) (tp tc : string) : list stmt :=
 [ get (tc ++ "->x") (50 * nx o * 8) (* 421 *);
   get (tc ++ "->z") (50 * nx o * 8) (* 422 *);
   get (tc ++ "->z0") (50 * nx o * 8) (* 423 *);
   get (tc ++ "->Vx") (50 * nx o * 8) (* 424 *);
   get (tc ++ "->Vz") (50 * nx o * 8) (* 425 *);
   get (tc ++ "->phase") (50 * nx o * 4) (* 426 *);
   get (tp ++ "->height") (nx o * 8) (* 428 *);
   get (tp ++ "->height0") (nx o * 8) (* 429 *);
   get (tp ++ "->height_finer_c") ((2 * nx o - 2) * 8) (* 430 *);
   get (tp ++ "->vx") (nx o * 8) (* 431 *);
   get (tp ++ "->vz") ((nx o + 1) * 8) (* 432 *);
   get (tp ++ "->a") ((nx o - 1) * 8) (* 433 *);
   get (tp ++ "->b") ((nx o - 1) * 8) (* 434 *);
   get (tp ++ "->a0") ((nx o - 1) * 8) (* 435 *);
   get (tp ++ "->b0") ((nx o - 1) * 8) (* 436 *);
   get (tp ++ "->VertInd") (nx o * 8) (* 437 *) ].
Definition FreeMarkerChain (tp tc : string) : list stmt :=
 [ rel (tc ++ "->x") (* 448 *);
   rel (tc ++ "->z") (* 449 *);
   rel (tc ++ "->z0") (* 450 *);
   rel (tc ++ "->Vx") (* 451 *);
   rel (tc ++ "->Vz") (* 452 *);
   rel (tc ++ "->phase") (* 453 *);
   rel (tp ++ "->height") (* 454 *);
   rel (tp ++ "->height0") (* 455 *);
   rel (tp ++ "->height_finer_c") (* 456 *);
   rel (tp ++ "->a") (* 457 *);
   rel (tp ++ "->b") (* 458 *);
   rel (tp ++ "->a0") (* 459 *);
   rel (tp ++ "->b0") (* 460 *);
   rel (tp ++ "->vx") (* 461 *);
   rel (tp ++ "->vz") (* 462 *);
   rel (tp ++ "->VertInd") (* 463 *) ].

(** Main_DOODZ.c 51-119, in order. *)
Definition startup (o : opts) : list stmt :=
  ReadInputFile o ++ Begin o ++ GridAlloc o ++ NmodelAlloc o ++ PartAlloc o ++
  sec (free_surface o) (AllocateMarkerChain o "topo" "topo_chain" ++ AllocateMarkerChain o "topo_ini" "topo_chain_ini").

(** Main_DOODZ.c 1243-1286, in order. [if (input.flux)], [if (input.crazyConductivity)]:
    free of NULL changes nothing, the phases are those of the callback. *)
Definition cleanup (o : opts) : list stmt :=
  sec (free_surface o) (FreeMarkerChain "topo" "topo_chain" ++ FreeMarkerChain "topo_ini" "topo_chain_ini") ++
  sec (isPD o) FreePhaseDiagrams ++ PartFree o ++ GridFree o ++
  [ rel "input.flux" ] ++
  sec (crazy o) [ rel "crazyConductivity->phases"; rel "input.crazyConductivity" ] ++
  [ rel "BaseOutputFileName"; rel "BaseParticleFileName"; rel "model.import_file"; rel "model.import_files_dir";
    rel "model.writer_subfolder"; rel "model.initial_markers_file" ] ++
  NmodelFree ++
  [ RelEach (nph o) (fun k => (density o k =? 4)%Z) "model.PD1Drho" "PD1Drho[]";
    rel "model.PD1DnP"; rel "model.PD1Drho"; rel "model.PD1Dmin"; rel "model.PD1Dmax" ] ++
  sec (kinetics o) [ rel "model.kin_dG" ].

(** mesh and particles are set from compound literals (MemoryAllocFree.c 183-189,
    339-346), input from one (Main_DOODZ.c 55-61): members not named are NULL. Locals
    such as model, topo, Nmodel are not initialised. *)
Definition zeroed (s : string) : bool := prefix "mesh->" s || prefix "particles->" s || prefix "input." s.
Definition initial : state := State (fun f => if zeroed (fst f) then Null else Wild) (fun _ => None) 0%nat.
Definition run (o : opts) : option state := exec initial (ops (startup o ++ cleanup o)).
