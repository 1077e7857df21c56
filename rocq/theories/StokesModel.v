(** * Assembly of one Picard row of the Stokes system and its residual

    Transcription of MDLIB/StokesAssemblyDecoupled.c 44-208 (x), 560-723 (z),
    1088-1143 (continuity) and of the strain rates and stresses the residual reads
    (MDLIB/RheologyDensity.c 1661-1724, 884-886, 992-994, 1030-1032, 1085-1087;
    MDLIB/StokesRoutines.c 87-120, 181-205 for isotropic material).

    Array indices are [Z] (the code forms negative ones); doubles are reals.
    A row is the list of its entries (kind of unknown and grid index); the
    contributions moved to the right-hand side are a list as well. *)
From Coq Require Import ZArith Reals List Bool.
Import ListNotations.
Local Open Scope Z_scope.

Record mesh : Type := Mesh {
  nx : Z; nz : Z; dx : R; dz : R;
  tu : Z -> Z; tv : Z -> Z; tp : Z -> Z; tg : Z -> Z;   (* BCu/BCv/BCp/BCg .type *)
  eta_n : Z -> R; eta_s : Z -> R;                        (* effective viscosities *)
  exx0 : Z -> R; ezz0 : Z -> R; exz0 : Z -> R;           (* el*s0/eta_e/2 : old stress part *)
  valu : Z -> R; valv : Z -> R;                          (* BCu.val, BCv.val *)
  rho_n : Z -> R; gx : Z -> R; gz : Z -> R;
  comp : bool; oop : bool; stab : bool; om : R; dt : R;
  (* forces per unit volume: b[eqn] at a node *)
  bx : Z -> R; bz : Z -> R;
  (* continuity: comp_cells, bet_n, p0_n, rhs *)
  ccomp : Z -> bool; bet : Z -> R; p0 : Z -> R; bp : Z -> R }.

(** Fields: velocities, pressure [p_in] and corrected pressure [p_corr]. *)
Record fields : Type := Fields { fu : Z -> R; fv : Z -> R; fp : Z -> R; fpc : Z -> R }.

Section Row.
Variable m : mesh.
Notation nx := (nx m). Notation nz := (nz m). Notation dx := (dx m). Notation dz := (dz m).
Notation tu := (tu m). Notation tv := (tv m). Notation tp := (tp m). Notation tg := (tg m).

Definition ncx := nx - 1.
Definition nxvz := nx + 1.
Definition celvol : R := (dx * dz)%R.
Definition b2R (b : bool) : R := if b then 1%R else 0%R.
Definition air (t : Z) : bool := (t =? 30) || (t =? 31).

(** StokesRoutines.c 111-120, 170-172 and 200-202, 211 with [aniS = 0]. *)
Definition D11 c : R := if air (tp c) then 0%R else (2 * eta_n m c)%R.
Definition D22 c : R := if air (tp c) then 0%R else (2 * eta_n m c)%R.
Definition D33 c : R := if tg c =? 30 then 0%R else eta_s m c.

(** RheologyDensity.c 1683-1702. The cell with flat index [c0] has column
    [c0 mod ncx] and row [c0 / ncx] (tables [kp], [lp]). *)
Definition cell_dvx (u : Z -> R) c0 : R :=
  let k := c0 mod ncx in let l := c0 / ncx in let c1 := k + l * nx in
  ((u (c1 + 1 + nx)%Z - u (c1 + nx)%Z) / dx)%R.
Definition cell_dvz (v : Z -> R) c0 : R :=
  let k := c0 mod ncx in let l := c0 / ncx in let c2 := k + l * (nx + 1) in
  ((v (c2 + nx + 1 + 1)%Z - v (c2 + 1)%Z) / dz)%R.
Definition div_u (f : fields) c0 : R :=
  if air (tp c0) then 0%R
  else let a := cell_dvx (fu f) c0 in let b := cell_dvz (fv f) c0 in (a + b + b2R (oop m) * / 2 * (a + b))%R.
Definition exxd (f : fields) c0 : R :=
  if air (tp c0) then 0%R else (cell_dvx (fu f) c0 - b2R (comp m) * 1 / 3 * div_u f c0)%R.
Definition ezzd (f : fields) c0 : R :=
  if air (tp c0) then 0%R else (cell_dvz (fv f) c0 - b2R (comp m) * 1 / 3 * div_u f c0)%R.

(** 1708-1724: vertices. *)
Definition exz (f : fields) c0 : R :=
  let k := c0 mod nx in let l := c0 / nx in let c1 := k + l * nx in let c2 := k + l * (nx + 1) in
  if tg c1 =? 30 then 0%R
  else (/ 2 * ((fu f (c1 + nx)%Z - fu f c1) / dz + (fv f (c2 + 1)%Z - fv f c2) / dx))%R.

(** 884-886, 992-994 (stress is zero in air cells), 1030-1032, 1085-1087. *)
Definition sxxd f c : R := if air (tp c) then 0%R else (2 * eta_n m c * (exxd f c + exx0 m c))%R.
Definition szzd f c : R := if air (tp c) then 0%R else (2 * eta_n m c * (ezzd f c + ezz0 m c))%R.
Definition sxz f c : R := if tg c =? 30 then 0%R else (2 * eta_s m c * (exz f c + exz0 m c))%R.

(** One entry request: kind and index of the unknown, coefficient. *)
Inductive target : Type := U (i : Z) | V (i : Z) | P (i : Z).
Definition type_of (t : target) : Z := match t with U i => tu i | V i => tv i | P i => tp i end.

(** 44-54. [true]: goes to the right-hand side. *)
Definition to_rhs (ty : Z) : bool := (ty =? 0) || (ty =? 31) || (ty =? 11) || (ty =? 13).
(** [if (Set...) AddCoeff3(...)] for every request. *)
Definition entries (l : list (bool * target * R)) : list (target * R) :=
  map (fun e => (snd (fst e), snd e)) (filter (fun e => fst (fst e) && negb (to_rhs (type_of (snd (fst e))))) l).

Definition OOP : R := if oop m then (3 / 2)%R else 1%R.
Definition cp : R := b2R (comp m).
Definition eqt (t v : Z) : R := b2R (t =? v).
(** [Reg]: 1 unless the type is 13 or 11. *)
Definition reg (t : Z) : R := b2R (negb ((t =? 13) || (t =? 11))).

(** ** x-momentum at column [ix], row [iz] of the Vx grid (1403-1409, 60-208). *)
Section X.
Variables (ix iz : Z).
Definition xc1 := ix + iz * nx.
Definition xc2 := ix - 1 + (iz - 1) * ncx.
Definition xc3 := ix + iz * nxvz.
Definition SxxW : R := b2R ((ix =? 0) && (tu xc1 =? 2)).
Definition SxxE : R := b2R ((ix =? nx - 1) && (tu xc1 =? 2)).
Definition per := tu xc1 =? -2.
Definition xVxW := if per then xc1 + nx - 2 else xc1 - 1.
Definition xVxE := xc1 + 1.
Definition xVxS := xc1 - nx.
Definition xVxN := xc1 + nx.
Definition xVzSW := if per then xc3 - 2 else xc3 - nxvz.
Definition xVzSE := xc3 - nxvz + 1.
Definition xVzNW := if per then xc3 + nxvz - 2 else xc3.
Definition xVzNE := xc3 + 1.
Definition xPrW := if per then xc2 + ncx else xc2.
Definition xPrE := xc2 + 1.
Definition xyN := xc1.
Definition xyS := xc1 - nx.

Local Open Scope R_scope.
Definition xinW := eqt (tp xPrW) (-1).
Definition xinE := eqt (tp xPrE) (-1).
Definition xinS := 1 - eqt (tg xyS) 30.
Definition xinN := 1 - eqt (tg xyN) 30.
Definition DirS := eqt (tu xVxS) 11.
Definition DirN := eqt (tu xVxN) 11.
Definition RegS := reg (tu xVxS).
Definition RegN := reg (tu xVxN).
Definition xDirSW := eqt (tv (xc3 - nxvz)%Z) 11.
Definition xDirNW := eqt (tv xc3) 11.
Definition xDirSE := eqt (tv (xc3 - nxvz + 1)%Z) 11.
Definition xDirNE := eqt (tv (xc3 + 1)%Z) 11.

(** 126-136 *)
Definition x_uW := (1/3) * D11 xPrW * xinW * (1 - SxxW) * (OOP * cp * xinW - 3) / dx ^ 2.
Definition x_uC :=
  - (1/6) * (SxxE * (2 * D11 xPrW * dz^2 * xinW * (OOP*cp*xinW - 3) - 3 * dx^2 * (D33 xyN * xinN * (2*DirN + RegN) + D33 xyS * xinS * (2*DirS + RegS)))
           + SxxW * (2 * D11 xPrE * dz^2 * xinE * (OOP*cp*xinE - 3) - 3 * dx^2 * (D33 xyN * xinN * (2*DirN + RegN) + D33 xyS * xinS * (2*DirS + RegS)))
           + 2 * (3 * dx^2 * (D33 xyN * xinN * (2*DirN + RegN) + D33 xyS * xinS * (2*DirS + RegS))
                  - dz^2 * (D11 xPrE * xinE * (OOP*cp*xinE - 3) + D11 xPrW * xinW * (OOP*cp*xinW - 3))) * (SxxE + SxxW - 1))
    / (dx^2 * dz^2).
Definition x_uE := (1/3) * D11 xPrE * xinE * (1 - SxxE) * (OOP * cp * xinE - 3) / dx ^ 2.
Definition x_uS := (1/2) * D33 xyS * RegS * xinS * (SxxE + SxxW - 2) / dz ^ 2.
Definition x_uN := (1/2) * D33 xyN * RegN * xinN * (SxxE + SxxW - 2) / dz ^ 2.
Definition x_vSW := (1/6) * (-3 * D33 xyS * SxxW * xinS * (2*xDirSE*SxxE - SxxE - SxxW + 1)
   + SxxE * (2 * D11 xPrW * OOP * cp * xinW^2 - 3 * D33 xyS * xinS * (2*xDirSE*SxxE - SxxE - SxxW + 1))
   - 2 * (D11 xPrW * OOP * cp * xinW^2 - 3 * D33 xyS * xinS * (2*xDirSE*SxxE - SxxE - SxxW + 1)) * (SxxE + SxxW - 1)) / (dx*dz).
Definition x_vSE := (1/6) * (3 * D33 xyS * SxxE * xinS * (2*xDirSW*SxxW - SxxE - SxxW + 1)
   - SxxW * (2 * D11 xPrE * OOP * cp * xinE^2 - 3 * D33 xyS * xinS * (2*xDirSW*SxxW - SxxE - SxxW + 1))
   + 2 * (D11 xPrE * OOP * cp * xinE^2 - 3 * D33 xyS * xinS * (2*xDirSW*SxxW - SxxE - SxxW + 1)) * (SxxE + SxxW - 1)) / (dx*dz).
Definition x_vNW := (1/6) * (3 * D33 xyN * SxxW * xinN * (2*xDirNE*SxxE - SxxE - SxxW + 1)
   - SxxE * (2 * D11 xPrW * OOP * cp * xinW^2 - 3 * D33 xyN * xinN * (2*xDirNE*SxxE - SxxE - SxxW + 1))
   + 2 * (D11 xPrW * OOP * cp * xinW^2 - 3 * D33 xyN * xinN * (2*xDirNE*SxxE - SxxE - SxxW + 1)) * (SxxE + SxxW - 1)) / (dx*dz).
Definition x_vNE := (1/6) * (-3 * D33 xyN * SxxE * xinN * (2*xDirNW*SxxW - SxxE - SxxW + 1)
   + SxxW * (2 * D11 xPrE * OOP * cp * xinE^2 - 3 * D33 xyN * xinN * (2*xDirNW*SxxW - SxxE - SxxW + 1))
   - 2 * (D11 xPrE * OOP * cp * xinE^2 - 3 * D33 xyN * xinN * (2*xDirNW*SxxW - SxxE - SxxW + 1)) * (SxxE + SxxW - 1)) / (dx*dz).
Definition x_pW := (SxxW - 1) / dx.
Definition x_pE := (1 - SxxE) / dx.

(** 139-145 *)
Definition x_corr : R :=
  if stab m then
    let drhodx := (rho_n m (xc2 + 1)%Z - rho_n m xc2) * (1 / dx) in
    let c := 1 * om m * dt m * gx m xc1 * drhodx in
    if Rlt_dec (x_uC + c) 0 then 0 else c
  else 0.

Local Open Scope Z_scope.
(** 148-180, in the order of the code. *)
Definition x_requests : list (bool * target * R) :=
  [ (negb (tu xVxS =? 30), U xVxS, (x_uS * celvol)%R);
    (negb (tu xVxW =? 30) && ((0 <? ix) || per), U xVxW, (x_uW * celvol)%R);
    (negb (tu xc1 =? 30), U xc1, ((x_uC + x_corr) * celvol)%R);
    (negb (tu xVxE =? 30) && ((ix <? nx - 1) || per), U xVxE, (x_uE * celvol)%R);
    (negb (tu xVxN =? 30), U xVxN, (x_uN * celvol)%R);
    (negb (tv xVzSW =? 30) && ((0 <? ix) || per), V xVzSW, (x_vSW * celvol)%R);
    (negb (tv xVzSE =? 30) && ((ix <? nx - 1) || per), V xVzSE, (x_vSE * celvol)%R);
    (negb (tv xVzNW =? 30) && ((0 <? ix) || per), V xVzNW, (x_vNW * celvol)%R);
    (negb (tv xVzNE =? 30) && ((ix <? nx - 1) || per), V xVzNE, (x_vNE * celvol)%R);
    (negb (tp xPrW =? 30) && ((0 <? ix) || per), P xPrW, (x_pW * celvol)%R);
    (negb (tp xPrE =? 30) && ((ix <? nx - 1) || per), P xPrE, (x_pE * celvol)%R) ].
Definition x_row : list (target * R) := entries x_requests.

(** 183-208 *)
Local Open Scope R_scope.
Definition x_residual (f : fields) : R :=
  let Freg := (sxxd f xPrE - sxxd f xPrW) / dx - (fpc f xPrE - fpc f xPrW) / dx + (sxz f xyN - sxz f xyS) / dz in
  let sE := sxxd f xPrE - fpc f xPrE in
  let FW := ((sE - (2 * valu m xc1 - sE)) / dx + (sxz f xyN - sxz f xyS) / dz) * / 2 in
  let sW := sxxd f xPrW - fpc f xPrW in
  let FE := ((2 * valu m xc1 - sW - sW) / dx + (sxz f xyN - sxz f xyS) / dz) * / 2 in
  ((1 - SxxE - SxxW) * Freg + SxxW * FW + SxxE * FE + (bx m xc1 - x_corr * fu f xc1)) * - celvol.
End X.

(** ** z-momentum at column [ix], row [iz] of the Vz grid (1468-1495, 560-723). *)
Section Z.
Variables (ix iz : Z).
Definition zc1 := ix + iz * nx.
Definition zc2 := ix - 1 + (iz - 1) * ncx.
Definition zc3 := ix + iz * nxvz.
Definition SzzS : R := b2R ((iz =? 0) && (tv zc3 =? 2)).
Definition SzzN : R := b2R ((iz =? nz - 1) && (tv zc3 =? 2)).
Definition zVzW := if (tv (zc3 - 1) =? -12) && (ix =? 1) then zc3 + nxvz - 3 else zc3 - 1.
Definition zVzE := if (tv (zc3 + 1) =? -12) && (ix =? nxvz - 2) then zc3 - nxvz + 3 else zc3 + 1.
Definition zVzS := zc3 - nxvz.
Definition zVzN := zc3 + nxvz.
Definition zVxNW := zc1 + nx - 1.
Definition zVxNE := zc1 + nx.
Definition zVxSW := zc1 - 1.
Definition zVxSE := zc1.
Definition zPrS := zc2.
Definition zPrN := zc2 + ncx.
Definition xyE := zc1.
Definition xyW := zc1 - 1.

Local Open Scope R_scope.
Definition zinW := 1 - eqt (tg xyW) 30.
Definition zinE := 1 - eqt (tg xyE) 30.
Definition DirW := eqt (tv zVzW) 11.
Definition DirE := eqt (tv zVzE) 11.
Definition RegW := reg (tv zVzW).
Definition RegE := reg (tv zVzE).
Definition zDirSW := eqt (tu (zc1 - 1)%Z) 11.
Definition zDirNW := eqt (tu (zc1 + nx - 1)%Z) 11.
Definition zDirSE := eqt (tu zc1) 11.
Definition zDirNE := eqt (tu (zc1 + nx)%Z) 11.

(** 624-634 *)
Definition z_vW := (1/2) * D33 xyW * RegW * zinW * (SzzN + SzzS - 2) / dx ^ 2.
Definition z_vC :=
  (1/6) * (- SzzN * (2 * D22 zPrS * dx^2 * (OOP*cp - 3) - 3 * dz^2 * (D33 xyE * zinE * (2*DirE + RegE) + D33 xyW * zinW * (2*DirW + RegW)))
           - SzzS * (2 * D22 zPrN * dx^2 * (OOP*cp - 3) - 3 * dz^2 * (D33 xyE * zinE * (2*DirE + RegE) + D33 xyW * zinW * (2*DirW + RegW)))
           + 2 * (dx^2 * (D22 zPrN + D22 zPrS) * (OOP*cp - 3)
                  - 3 * dz^2 * (D33 xyE * zinE * (2*DirE + RegE) + D33 xyW * zinW * (2*DirW + RegW))) * (SzzN + SzzS - 1))
    / (dx^2 * dz^2).
Definition z_vE := (1/2) * D33 xyE * RegE * zinE * (SzzN + SzzS - 2) / dx ^ 2.
Definition z_vS := (1/3) * D22 zPrS * (1 - SzzS) * (OOP * cp - 3) / dz ^ 2.
Definition z_vN := (1/3) * D22 zPrN * (1 - SzzN) * (OOP * cp - 3) / dz ^ 2.
Definition z_uSW := (1/6) * (-3 * D33 xyW * SzzS * zinW * (2*zDirNW*SzzN - SzzN - SzzS + 1)
   + SzzN * (2 * D22 zPrS * OOP * cp - 3 * D33 xyW * zinW * (2*zDirNW*SzzN - SzzN - SzzS + 1))
   - 2 * (D22 zPrS * OOP * cp - 3 * D33 xyW * zinW * (2*zDirNW*SzzN - SzzN - SzzS + 1)) * (SzzN + SzzS - 1)) / (dx*dz).
Definition z_uSE := (1/6) * (3 * D33 xyE * SzzS * zinE * (2*zDirNE*SzzN - SzzN - SzzS + 1)
   - SzzN * (2 * D22 zPrS * OOP * cp - 3 * D33 xyE * zinE * (2*zDirNE*SzzN - SzzN - SzzS + 1))
   + 2 * (D22 zPrS * OOP * cp - 3 * D33 xyE * zinE * (2*zDirNE*SzzN - SzzN - SzzS + 1)) * (SzzN + SzzS - 1)) / (dx*dz).
Definition z_uNW := (1/6) * (3 * D33 xyW * SzzN * zinW * (2*zDirSW*SzzS - SzzN - SzzS + 1)
   - SzzS * (2 * D22 zPrN * OOP * cp - 3 * D33 xyW * zinW * (2*zDirSW*SzzS - SzzN - SzzS + 1))
   + 2 * (D22 zPrN * OOP * cp - 3 * D33 xyW * zinW * (2*zDirSW*SzzS - SzzN - SzzS + 1)) * (SzzN + SzzS - 1)) / (dx*dz).
Definition z_uNE := (1/6) * (-3 * D33 xyE * SzzN * zinE * (2*zDirSE*SzzS - SzzN - SzzS + 1)
   + SzzS * (2 * D22 zPrN * OOP * cp - 3 * D33 xyE * zinE * (2*zDirSE*SzzS - SzzN - SzzS + 1))
   - 2 * (D22 zPrN * OOP * cp - 3 * D33 xyE * zinE * (2*zDirSE*SzzS - SzzN - SzzS + 1)) * (SzzN + SzzS - 1)) / (dx*dz).
Definition z_pS := (SzzS - 1) / dz.
Definition z_pN := (1 - SzzN) / dz.

(** 645-651 *)
Definition z_corr : R :=
  if stab m then
    let drhodz := (rho_n m (zc2 + ncx)%Z - rho_n m zc2) * (1 / dz) in
    let c := 1 * om m * dt m * gz m zc3 * drhodz in
    if Rlt_dec (z_vC + c) 0 then 0 else if Rlt_dec (z_vC + c) z_vW then 0 else if Rlt_dec (z_vC + c) z_vE then 0 else c
  else 0.

Local Open Scope Z_scope.
(** 653-687 *)
Definition z_requests : list (bool * target * R) :=
  [ (negb (tu zVxSW =? 30) && (0 <? iz), U zVxSW, (z_uSW * celvol)%R);
    (negb (tu zVxSE =? 30) && (0 <? iz), U zVxSE, (z_uSE * celvol)%R);
    (negb (tu zVxNW =? 30) && (iz <? nz - 1), U zVxNW, (z_uNW * celvol)%R);
    (negb (tu zVxNE =? 30) && (iz <? nz - 1), U zVxNE, (z_uNE * celvol)%R);
    (negb (tv zVzS =? 30) && (0 <? iz), V zVzS, (z_vS * celvol)%R);
    (negb (tv zVzW =? 30), V zVzW, (z_vW * celvol)%R);
    (negb (tv zc3 =? 30), V zc3, ((z_vC + z_corr) * celvol)%R);
    (negb (tv zVzE =? 30), V zVzE, (z_vE * celvol)%R);
    (negb (tv zVzN =? 30) && (iz <? nz - 1), V zVzN, (z_vN * celvol)%R);
    (negb (tp zPrS =? 30) && (0 <? iz), P zPrS, (z_pS * celvol)%R);
    (negb (tp zPrN =? 30) && (iz <? nz - 1), P zPrN, (z_pN * celvol)%R) ].
Definition z_row : list (target * R) := entries z_requests.

(** 688-714 *)
Local Open Scope R_scope.
Definition z_residual (f : fields) : R :=
  let Freg := (szzd f zPrN - szzd f zPrS) / dz - (fpc f zPrN - fpc f zPrS) / dz + (sxz f xyE - sxz f xyW) / dx in
  let sN := szzd f zPrN - fpc f zPrN in
  let FS := ((sN - (2 * valv m zc3 - sN)) / dz + (sxz f xyE - sxz f xyW) / dx) * / 2 in
  let sS := szzd f zPrS - fpc f zPrS in
  let FN := ((2 * valv m zc3 - sS - sS) / dz + (sxz f xyE - sxz f xyW) / dx) * / 2 in
  ((1 - SzzS - SzzN) * Freg + SzzS * FS + SzzN * FN + (bz m zc3 - z_corr * fv f zc3)) * - celvol.
End Z.

(** ** Continuity in the cell at column [k], row [l] (1517-1535, 1088-1143;
    [density_variations = 0]). The pressure coefficient [pc] is computed but never
    entered in the matrix (line 1113); the solver builds its own diagonal block. *)
Section C.
Variables (k l : Z).
Definition cc1 := k + (l + 1) * nx.
Definition cc2 := k + l * ncx.
Definition cc3 := k + l * nxvz + 1.
Definition c_requests : list (bool * target * R) :=
  [ (negb (tu cc1 =? 13), U cc1, (- (1 / dx) * OOP * celvol)%R);
    (negb (tu (cc1 + 1) =? 13), U (cc1 + 1), ((1 / dx) * OOP * celvol)%R);
    (negb (tv cc3 =? 13), V cc3, (- (1 / dz) * OOP * celvol)%R);
    (negb (tv (cc3 + nxvz) =? 13), V (cc3 + nxvz), ((1 / dz) * OOP * celvol)%R) ].
Definition c_row : list (target * R) := entries c_requests.
Definition c_residual (f : fields) : R :=
  ((b2R (ccomp m cc2) * bet m cc2 * (fp f cc2 - p0 m cc2) / dt m + div_u f cc2 - bp m cc2) * celvol)%R.
End C.
End Row.

(** A row applied to a vector indexed by equation number. *)
Definition col_of (eu ev ep : Z -> Z) (t : target) : Z := match t with U i => eu i | V i => ev i | P i => ep i end.
Definition row_dot (eu ev ep : Z -> Z) (row : list (target * R)) (d : Z -> R) : R :=
  fold_right (fun e s => (snd e * d (col_of eu ev ep (fst e)) + s)%R) 0%R row.
