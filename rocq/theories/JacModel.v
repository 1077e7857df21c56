(** * The Newton linearisation: tangent operator of a material point and the rows
    assembled from it

    Transcription of MDLIB/FD_Jacobian.c 46-321 (derivatives of the phase
    viscosities by finite differences), MDLIB/StokesRoutines.c 246-345 (tangent
    operators), MDLIB/StokesAssemblyDecoupled.c 217-555 (x rows), 730-1083 (z rows)
    and 1903-1985 (which rows are assembled), together with the fields the residual
    reads (MDLIB/RheologyDensity.c 1661-1755 strain rates, 828-1088 stresses and
    corrected pressure).

    Doubles are reals, array indices are [Z] as in [StokesModel]. *)
From Coq Require Import ZArith Reals List Bool.
Import ListNotations.
From Verif Require Import StokesModel.
Local Open Scope Z_scope.

(** ** Finite differences of the phase viscosities *)
Section FD.
Local Open Scope R_scope.

(** What [ViscosityConcise] returns for a phase as a function of Exx, Ezz, Exz, P
    (everything else it reads is fixed during the perturbation): fraction of the
    cell, effective viscosity, plastic divergence, density, and the reference
    viscosity [phase_eta_n[p][c]] stored by the last rheology update. *)
Record phase : Type := Phase {
  frac : R; p_eta : R -> R -> R -> R -> R; p_divp : R -> R -> R -> R -> R; p_rho : R -> R -> R -> R -> R; p_ref : R }.

Inductive averaging := Arithmetic | Harmonic | Geometric.

(** FD_Jacobian.c 58-61. *)
Definition p_active (p : phase) : bool := if Rlt_dec (/ 10 ^ 13) (Rabs (frac p)) then true else false.

(** FD_Jacobian.c 67-79: the weight of a phase under each average. *)
Definition fd_weight (avg : averaging) (p : phase) : R :=
  match avg with Arithmetic => 1 | Harmonic => / p_ref p ^ 2 | Geometric => / p_ref p end.

(** FD_Jacobian.c 46-96 (PhaseRheologyLoop_v1): adds [sign * vol * value / denom] of
    every active phase to an accumulator. [val] is the evaluated quantity with its
    weight. The anisotropy factor [ani_vep] is the constant 1 there (line 53). *)
Definition phase_loop (val : phase -> R -> R -> R -> R -> R) (sign denom a b c q : R) (l : list phase) (acc : R) : R :=
  fold_left (fun s p => if p_active p then s + sign * frac p * val p a b c q / denom else s) l acc.

(** FD_Jacobian.c 104-107 ([tol] is 1e-5 at centres, 1e-7 at vertices, 103 and 214). *)
Definition pert (tol x : R) : R := tol * Rabs x + tol / 10 ^ 10.
Definition tol_n : R := / 10 ^ 5.
Definition tol_s : R := / 10 ^ 7.

(** Which of the four arguments is perturbed. *)
Inductive slot := Sxx | Szz | Sxz | Sp.
Definition slot_value (s : slot) (a b c q : R) : R := match s with Sxx => a | Szz => b | Sxz => c | Sp => q end.
(** FD_Jacobian.c 112-187: 2 pert, but 4 pert for Exz because Gxz = 2 Exz. *)
Definition denom (s : slot) (h : R) : R := match s with Sxz => 4 * h | _ => 2 * h end.
Definition at_shift (s : slot) (f : R -> R -> R -> R -> R) (h a b c q : R) : R :=
  match s with Sxx => f (a + h) b c q | Szz => f a (b + h) c q | Sxz => f a b (c + h) q | Sp => f a b c (q + h) end.

(** One quantity perturbed up and down (112-187 / 221-307). *)
Definition two_sided (s : slot) (h : R) (val : phase -> R -> R -> R -> R -> R) (a b c q : R) (l : list phase) : R :=
  let up := match s with Sxx => phase_loop val 1 (denom s h) (a + h) b c q l 0
                       | Szz => phase_loop val 1 (denom s h) a (b + h) c q l 0
                       | Sxz => phase_loop val 1 (denom s h) a b (c + h) q l 0
                       | Sp => phase_loop val 1 (denom s h) a b c (q + h) l 0 end in
  match s with Sxx => phase_loop val (- 1) (denom s h) (a - h) b c q l up
             | Szz => phase_loop val (- 1) (denom s h) a (b - h) c q l up
             | Sxz => phase_loop val (- 1) (denom s h) a b (c - h) q l up
             | Sp => phase_loop val (- 1) (denom s h) a b c (q - h) l up end.

(** FD_Jacobian.c 191-202 / 309-320. *)
Definition rescale (avg : averaging) (eta x : R) : R :=
  match avg with Arithmetic => x | Harmonic => x * eta ^ 2 | Geometric => x * eta end.

(** [detadexx], [detadezz], [detadgxz], [detadp] of a cell or vertex with stored
    viscosity [eta]; [h] is the perturbation of the slot. *)
Definition fd_eta (avg : averaging) (eta : R) (s : slot) (h a b c q : R) (l : list phase) : R :=
  rescale avg eta (two_sided s h (fun p a b c q => p_eta p a b c q * fd_weight avg p) a b c q l).
(** FD_Jacobian.c 85-92: plastic divergence (centres) and density (pressure slot only). *)
Definition fd_divp (s : slot) (h a b c q : R) (l : list phase) : R := two_sided s h p_divp a b c q l.
Definition fd_rho (h a b c q : R) (l : list phase) : R := two_sided Sp h p_rho a b c q l.

(** ** Tangent operator of one material point (StokesRoutines.c 282-309, 350-369)

    [a d1 d2]: anisotropy strength [aniS_vep] and director averages; the isotropic
    code path has all three equal to 0. [e1 e2 e3 e4] are the derivatives of the
    viscosity, [v1 v2 v3 v4] those of the plastic divergence, [Kdt] is [K*dt]. The
    terms with [danid..] vanish because the anisotropy factor is held at 1 in
    [PhaseRheologyLoop_v1]. *)
Definition Dxx (a d1 d2 Exx Ezz Gxz : R) : R := Exx * (1 - a * d1) + Ezz * a * d1 - Gxz * a * d2.
Definition Dzz (a d1 d2 Exx Ezz Gxz : R) : R := Ezz * (1 - a * d1) + Exx * a * d1 + Gxz * a * d2.
Definition Dxz (a d1 d2 Exx Ezz Gxz : R) : R := - Exx * a * d2 + Ezz * a * d2 + Gxz * (a * (d1 - / 2) + / 2).
Definition row1 (a d1 d2 eta D e1 e2 e3 e4 Kdt v1 v2 v3 v4 : R) : R * R * R * R :=
  (2 * (1 - a * d1) * eta + 2 * e1 * D - Kdt * v1, 2 * a * d1 * eta + 2 * e2 * D - Kdt * v2,
   - 2 * a * d2 * eta + 2 * e3 * D - Kdt * v3, 2 * e4 * D - Kdt * v4).
Definition row2 (a d1 d2 eta D e1 e2 e3 e4 Kdt v1 v2 v3 v4 : R) : R * R * R * R :=
  (2 * a * d1 * eta + 2 * e1 * D - Kdt * v1, 2 * (1 - a * d1) * eta + 2 * e2 * D - Kdt * v2,
   2 * a * d2 * eta + 2 * e3 * D - Kdt * v3, 2 * e4 * D - Kdt * v4).
Definition row3 (a d1 d2 eta D e1 e2 e3 e4 : R) : R * R * R * R :=
  (- 2 * a * d2 * eta + 2 * e1 * D, 2 * a * d2 * eta + 2 * e2 * D,
   (2 * a * (d1 - / 2) + 1) * eta + 2 * e3 * D, 2 * e4 * D).
End FD.

(** ** Fields read by the residual, for any rheology

    [law]: deviatoric stresses and corrected pressure of a cell, shear stress of a
    vertex, as functions of Exx, Ezz, Gxz = 2 Exz and P (RheologyDensity.c 884-1088
    without the loop over phases). *)
Record law : Type := Law {
  l_sxx : Z -> R -> R -> R -> R -> R; l_szz : Z -> R -> R -> R -> R -> R;
  l_pc : Z -> R -> R -> R -> R -> R; l_sxz : Z -> R -> R -> R -> R -> R }.

(** Tangent operators [D11_n] ... [D34_s]; old-stress parts of the effective strain
    rates not already in [mesh]: Exz at centres, Exx and Ezz at vertices; [periodic_x]. *)
Record newton : Type := Newton {
  j11 : Z -> R; j12 : Z -> R; j13 : Z -> R; j14 : Z -> R;
  j21 : Z -> R; j22 : Z -> R; j23 : Z -> R; j24 : Z -> R;
  j31 : Z -> R; j32 : Z -> R; j33 : Z -> R; j34 : Z -> R;
  exz0_n : Z -> R; exx0_s : Z -> R; ezz0_s : Z -> R; perx : bool }.

Section Newton.
Variables (m : mesh) (w : newton).
Notation nx := (nx m). Notation nz := (nz m). Notation dx := (dx m). Notation dz := (dz m).
Notation tu := (tu m). Notation tv := (tv m). Notation tp := (tp m). Notation tg := (tg m).
Notation ncx := (ncx m). Notation nxvz := (nxvz m). Notation celvol := (celvol m).
Notation cp := (cp m). Notation OOP := (OOP m).

(** RheologyDensity.c 1731-1750. *)
Definition exz_n (f : fields) c0 : R :=
  let k := c0 mod ncx in let l := c0 / ncx in let c1 := k + l * nx in
  let part v := if tg v =? 30 then 0%R else (/ 4 * exz m f v)%R in
  if air (tp c0) then 0%R else (part c1 + part (c1 + 1)%Z + part (c1 + nx)%Z + part (c1 + nx + 1)%Z)%R.

(** GridRoutines.c InterpCentroidsToVerticesDouble (modelled in [GridModel]):
    a quarter of the four cells around the vertex; outside the grid the nearest cell
    is repeated (or the opposite one when [periodic_x]); air cells count as zero. *)
Definition vavg (C : Z -> R) v : R :=
  let k := v mod nx in let l := v / nx in
  let kw := if k =? 0 then (if perx w then ncx - 1 else 0) else k - 1 in
  let ke := if k =? nx - 1 then (if perx w then 0 else ncx - 1) else k in
  let ls := if l =? 0 then 0 else l - 1 in
  let ln := if l =? nz - 1 then nz - 2 else l in
  let c i j := if air (tp (i + j * ncx)) then 0%R else C (i + j * ncx) in
  if tg v =? 30 then 0%R else (/ 4 * (c kw ls + c ke ls + c kw ln + c ke ln))%R.

(** RheologyDensity.c 884-886 and 1030-1032: effective strain rates; 832: pressure at
    vertices. *)
Definition nExx f c : R := (exxd m f c + exx0 m c)%R.
Definition nEzz f c : R := (ezzd m f c + ezz0 m c)%R.
Definition nGxz f c : R := (2 * (exz_n f c + exz0_n w c))%R.
Definition vExx f v : R := (vavg (exxd m f) v + exx0_s w v)%R.
Definition vEzz f v : R := (vavg (ezzd m f) v + ezz0_s w v)%R.
Definition vGxz f v : R := (2 * (exz m f v + exz0 m v))%R.
Definition vP f v : R := vavg (fp f) v.

Section Law.
Variable L : law.
(** RheologyDensity.c 867-869, 992-993, 939 and 1087 (0 in the air). *)
Definition nsxx f c : R := if air (tp c) then 0%R else l_sxx L c (nExx f c) (nEzz f c) (nGxz f c) (fp f c).
Definition nszz f c : R := if air (tp c) then 0%R else l_szz L c (nExx f c) (nEzz f c) (nGxz f c) (fp f c).
Definition npc f c : R := if air (tp c) then 0%R else l_pc L c (nExx f c) (nEzz f c) (nGxz f c) (fp f c).
Definition nsxz f v : R := if tg v =? 30 then 0%R else l_sxz L v (vExx f v) (vEzz f v) (vGxz f v) (vP f v).
End Law.

(** [wX = sum; if (wX>1.0) wX = 1.0/wX]. *)
Definition inv_count (s : R) : R := if Rlt_dec 1 s then (1 / s)%R else s.
Definition flag (b : bool) : R := b2R b.

(** ** x rows *)
Section X.
Variables (ix iz : Z).
Notation c1 := (xc1 m ix iz). Notation c2 := (xc2 m ix iz). Notation c3 := (xc3 m ix iz).
Notation pr := (per m ix iz).
(** 241-303. [k = ix], [l = iz]. *)
Definition JxW := xVxW m ix iz.
Definition JxE := c1 + 1.
Definition JxS := c1 - nx.
Definition JxN := c1 + nx.
Definition JxSW := if pr then JxW - nx else JxS - 1.
Definition JxSE := JxS + 1.
Definition JxNW := if pr then JxW + nx else JxN - 1.
Definition JxNE := JxN + 1.
Definition JzSW := xVzSW m ix iz.
Definition JzSE := c3 - nxvz + 1.
Definition JzNW := xVzNW m ix iz.
Definition JzNE := c3 + 1.
Definition JzSWW := if pr then JzSW - 1 else
  if (1 <? iz) && (tv (c3 - nxvz - 1) =? -12) then c3 - nxvz + (nx - 2) else c3 - nxvz - 1.
Definition JzNWW := if pr then JzNW - 1 else
  if (iz <? nz - 1) && (tv (c3 - 1) =? -12) then c3 + (nx - 2) else c3 - 1.
Definition JzSEE := if (1 <? iz) && (tv (JzSE + 1) =? -12) then JzSE - (nx - 2) else JzSE + 1.
Definition JzNEE := if (iz <? nz - 1) && (tv (JzNE + 1) =? -12) then JzNE - (nx - 2) else JzNE + 1.
Definition JzNNW := JzNW + nxvz.
Definition JzSSW := JzSW - nxvz.
Definition JzNNE := JzNE + nxvz.
Definition JzSSE := JzSE - nxvz.
Definition JpW := xPrW m ix iz.
Definition JpE := c2 + 1.
Definition JpSW := JpW - ncx.
Definition JpSE := JpE - ncx.
Definition JpNW := JpW + ncx.
Definition JpNE := JpE + ncx.
Definition JgN := c1.
Definition JgS := c1 - nx.
Definition JgSW := if ix =? 0 then JgS else if pr then JgS + nx else JgS - 1.
Definition JgNW := if ix =? 0 then JgN else if pr then JgN + nx else JgN - 1.
Definition JgSE := if ix =? nx - 1 then JgS else JgS + 1.
Definition JgNE := if ix =? nx - 1 then JgN else JgN + 1.

Local Open Scope R_scope.
(** 322-380 *)
Definition JinW := flag (tp JpW =? -1).
Definition JinE := flag (tp JpE =? -1).
Definition JinS := flag (negb (tu JxS =? 30) && negb (tu JxS =? 13)).
Definition JinN := flag (negb (tu JxN =? 30) && negb (tu JxN =? 13)).
Definition JinSv := flag (negb (tg JgS =? 30)).
Definition JinNv := flag (negb (tg JgN =? 30)).
Definition JinSWc := flag ((1 <? iz)%Z && (tp JpSW =? -1)).
Definition JinSEc := flag ((1 <? iz)%Z && (tp JpSE =? -1)).
Definition JinNWc := flag ((iz <? nz + 1 - 2)%Z && (tp JpNW =? -1)).
Definition JinNEc := flag ((iz <? nz + 1 - 2)%Z && (tp JpNE =? -1)).
Definition Jwest := (0 <? ix)%Z || ((ix =? 0)%Z && ((tv JzSW =? -1) || (tv JzSW =? 0))).
Definition Jeast := (ix <? nx - 1)%Z || ((ix =? nx - 1)%Z && ((tv JzSE =? -1) || (tv JzSE =? 0))).
Definition JinSWv := flag (Jwest && negb (tg JgSW =? 30)).
Definition JinNWv := flag (Jwest && negb (tg JgNW =? 30)).
Definition JinSEv := flag (Jeast && negb (tg JgSE =? 30)).
Definition JinNEv := flag (Jeast && negb (tg JgNE =? 30)).
Definition JinSWW := flag (tv JzSWW =? -1).
Definition JinNWW := flag (tv JzNWW =? -1).
Definition JinSEE := flag (tv JzSEE =? -1).
Definition JinNEE := flag (tv JzNEE =? -1).
Definition JwS := inv_count (JinW + JinE + JinSWc + JinSEc).
Definition JwN := inv_count (JinW + JinE + JinNWc + JinNEc).

(** 305-320 *)
Notation D11E := (j11 w JpE). Notation D12E := (j12 w JpE). Notation D13E := (j13 w JpE). Notation D14E := (j14 w JpE).
Notation D11W := (j11 w JpW). Notation D12W := (j12 w JpW). Notation D13W := (j13 w JpW). Notation D14W := (j14 w JpW).
Notation D31N := (j31 w JgN). Notation D32N := (j32 w JgN). Notation D33N := (j33 w JgN). Notation D34N := (j34 w JgN).
Notation D31S := (j31 w JgS). Notation D32S := (j32 w JgS). Notation D33S := (j33 w JgS). Notation D34S := (j34 w JgS).
Notation k3 := (cp * OOP - 3). Notation k0 := (cp * OOP).

(** 391-418 *)
Definition jx_uW := (1/3) * (- (3/4) * D13W * dx * (JinN * JinNWv - JinS * JinSWv)
  + dx * JinW * (- D31N * JwN * k3 + D31S * JwS * k3 - D32N * k0 * JwN + D32S * k0 * JwS)
  + dz * JinW * (D11W * k3 + D12W * k0)) / (dx ^ 2 * dz).
Definition jx_uC0 := (1/3) * (dx * (3 * dx * (D33N * JinN ^ 2 * JinNv + D33S * JinS ^ 2 * JinSv)
    + dz * (JinE - JinW) * (- D31N * JwN * k3 + D31S * JwS * k3 - D32N * k0 * JwN + D32S * k0 * JwS))
  - dz * ((3/4) * dx * (- D13E + D13W) * (JinN ^ 2 * JinNv - JinS ^ 2 * JinSv)
    + dz * (D11E * JinE * k3 + D11W * JinW * k3 + D12E * cp * JinE * OOP + D12W * cp * JinW * OOP))) / (dx ^ 2 * dz ^ 2).
Definition jx_uE := (1/3) * ((3/4) * D13E * dx * (JinN * JinNEv - JinS * JinSEv)
  + dx * JinE * (D31N * JwN * k3 - D31S * JwS * k3 + D32N * k0 * JwN - D32S * k0 * JwS)
  + dz * JinE * (D11E * k3 + D12E * k0)) / (dx ^ 2 * dz).
Definition jx_uS := (- D33S * dx * JinS ^ 2 * JinSv + (1/4) * dz * JinS ^ 2 * JinSv * (D13E - D13W)
  + (1/3) * dz * JwS * (JinSEc - JinSWc) * (D31S * k3 + D32S * k0)) / (dx * dz ^ 2).
Definition jx_uN := (- D33N * dx * JinN ^ 2 * JinNv + (1/4) * dz * JinN ^ 2 * JinNv * (- D13E + D13W)
  - (1/3) * dz * JwN * (JinNEc - JinNWc) * (D31N * k3 + D32N * k0)) / (dx * dz ^ 2).
Definition jx_vSW := (1/3) * (- dx * (3 * D33S * dz * JinS * JinSv
    + dx * (D31N * cp * JinW * OOP * JwN + D31S * cp * OOP * JwS * (JinSWc - JinW) + D32N * JinW * JwN * k3 + D32S * JwS * (JinSWc - JinW) * k3))
  + dz * (dx * JinW * (D11W * cp * OOP + D12W * k3) + (3/4) * dz * (D13E * JinS * JinSv - D13W * (JinS * JinSv - JinSWW * JinSWv)))) / (dx ^ 2 * dz ^ 2).
Definition jx_vSE := (1/3) * (dx * (3 * D33S * dz * JinS * JinSv
    + dx * (- D31N * cp * JinE * OOP * JwN + D31S * cp * OOP * JwS * (JinE - JinSEc) - D32N * JinE * JwN * k3 + D32S * JwS * (JinE - JinSEc) * k3))
  - dz * (dx * JinE * (D11E * cp * OOP + D12E * k3) + (3/4) * dz * (D13E * (JinS * JinSv - JinSEE * JinSEv) - D13W * JinS * JinSv))) / (dx ^ 2 * dz ^ 2).
Definition jx_vNW := (1/3) * (dx * (3 * D33N * dz * JinN * JinNv
    - dx * (D31N * cp * OOP * JwN * (JinNWc - JinW) + D31S * cp * JinW * OOP * JwS + D32N * JwN * (JinNWc - JinW) * k3 + D32S * JinW * JwS * k3))
  - dz * (dx * JinW * (D11W * cp * OOP + D12W * k3) + (3/4) * dz * (- D13E * JinN * JinNv + D13W * (JinN * JinNv - JinNWW * JinNWv)))) / (dx ^ 2 * dz ^ 2).
Definition jx_vNE := (1/3) * (- dx * (3 * D33N * dz * JinN * JinNv
    + dx * (- D31N * cp * OOP * JwN * (JinE - JinNEc) + D31S * cp * JinE * OOP * JwS - D32N * JwN * (JinE - JinNEc) * k3 + D32S * JinE * JwS * k3))
  + dz * (dx * JinE * (D11E * cp * OOP + D12E * k3) + (3/4) * dz * (- D13E * (JinN * JinNv - JinNEE * JinNEv) + D13W * JinN * JinNv))) / (dx ^ 2 * dz ^ 2).
Definition jx_uSW := (1/3) * (- (3/4) * D13W * JinS * JinSWv + D31S * JinSWc * JwS * k3 + D32S * cp * JinSWc * OOP * JwS) / (dx * dz).
Definition jx_uSE := (1/3) * ((3/4) * D13E * JinS * JinSEv - D31S * JinSEc * JwS * k3 - D32S * cp * JinSEc * OOP * JwS) / (dx * dz).
Definition jx_uNW := (1/3) * ((3/4) * D13W * JinN * JinNWv - D31N * JinNWc * JwN * k3 - D32N * cp * JinNWc * OOP * JwN) / (dx * dz).
Definition jx_uNE := (1/3) * (- (3/4) * D13E * JinN * JinNEv + D31N * JinNEc * JwN * k3 + D32N * cp * JinNEc * OOP * JwN) / (dx * dz).
Definition jx_vSWW := - (1/4) * D13W * JinSWW * JinSWv / dx ^ 2.
Definition jx_vSEE := - (1/4) * D13E * JinSEE * JinSEv / dx ^ 2.
Definition jx_vNWW := - (1/4) * D13W * JinNWW * JinNWv / dx ^ 2.
Definition jx_vNEE := - (1/4) * D13E * JinNEE * JinNEv / dx ^ 2.
Definition jx_vSSW := (1/3) * JinSWc * JwS * (D31S * cp * OOP + D32S * k3) / dz ^ 2.
Definition jx_vSSE := (1/3) * JinSEc * JwS * (D31S * cp * OOP + D32S * k3) / dz ^ 2.
Definition jx_vNNW := (1/3) * JinNWc * JwN * (D31N * cp * OOP + D32N * k3) / dz ^ 2.
Definition jx_vNNE := (1/3) * JinNEc * JwN * (D31N * cp * OOP + D32N * k3) / dz ^ 2.
Definition jx_pW := - JinW * (1 / dx) + JinW * (D14W * dz + dx * (- D34N * JinN * JwN + D34S * JinS * JwS)) / (dx * dz).
Definition jx_pE := JinE * (1 / dx) + JinE * (- D14E * dz + dx * (- D34N * JinN * JwN + D34S * JinS * JwS)) / (dx * dz).
Definition jx_pSW := D34S * JinS * JinSWc * JwS / dz.
Definition jx_pSE := D34S * JinS * JinSEc * JwS / dz.
Definition jx_pNW := - D34N * JinN * JinNWc * JwN / dz.
Definition jx_pNE := - D34N * JinN * JinNEc * JwN / dz.

(** 422-428: [if (uC+uC_corr>0.0) uC += uC_corr]. *)
Definition jx_corr : R :=
  if stab m then
    let drhodx := (rho_n m (c2 + 1)%Z - rho_n m c2) * (1 / dx) in
    let c := 1 * om m * dt m * gx m c1 * drhodx in
    if Rlt_dec 0 (jx_uC0 + c) then c else 0
  else 0.
(** 431-440: [if (type == 11) a -= b]. *)
Definition dirichlet (t : Z) (b : R) : R := if (t =? 11)%Z then b else 0.
Definition jx_uC := jx_uC0 + jx_corr - dirichlet (tu JxS) jx_uS - dirichlet (tu JxN) jx_uN.
Definition jx_uW' := jx_uW - dirichlet (tu JxSW) jx_uSW - dirichlet (tu JxNW) jx_uNW.
Definition jx_uE' := jx_uE - dirichlet (tu JxSE) jx_uSE - dirichlet (tu JxNE) jx_uNE.
Definition jx_vNW' := jx_vNW - dirichlet (tv JzNWW) jx_vNWW.
Definition jx_vNE' := jx_vNE - dirichlet (tv JzNEE) jx_vNEE.
Definition jx_vSW' := jx_vSW - dirichlet (tv JzSWW) jx_vSWW.
Definition jx_vSE' := jx_vSE - dirichlet (tv JzSEE) jx_vSEE.

Local Open Scope Z_scope.
Definition west_ok := (0 <? ix) || pr.
Definition east_ok := (ix <? nx - 1) || pr.
(** 446-522, in the order of the code. *)
Definition jx_requests : list (bool * target * R) :=
  [ (negb (tu JxSW =? 30) && west_ok, U JxSW, (jx_uSW * celvol)%R);
    (negb (tu JxS =? 30), U JxS, (jx_uS * celvol)%R);
    (negb (tu JxSE =? 30) && east_ok, U JxSE, (jx_uSE * celvol)%R);
    (negb (tu JxW =? 30) && west_ok, U JxW, (jx_uW' * celvol)%R);
    (negb (tu c1 =? 30), U c1, (jx_uC * celvol)%R);
    (negb (tu JxE =? 30) && east_ok, U JxE, (jx_uE' * celvol)%R);
    (negb (tu JxNW =? 30) && west_ok, U JxNW, (jx_uNW * celvol)%R);
    (negb (tu JxN =? 30), U JxN, (jx_uN * celvol)%R);
    (negb (tu JxNE =? 30) && east_ok, U JxNE, (jx_uNE * celvol)%R);
    ((1 <? iz) && negb (tv JzSSW =? 30), V JzSSW, (jx_vSSW * celvol)%R);
    ((1 <? iz) && negb (tv JzSSE =? 30), V JzSSE, (jx_vSSE * celvol)%R);
    (((1 <? ix) || (((ix =? 0) || (ix =? 1)) && (tv JzSWW =? -1))) && negb (tv JzSWW =? 30), V JzSWW, (jx_vSWW * celvol)%R);
    (negb (tv JzSW =? 30) && west_ok, V JzSW, (jx_vSW' * celvol)%R);
    (negb (tv JzSE =? 30) && east_ok, V JzSE, (jx_vSE' * celvol)%R);
    (((ix <? nx - 2) || (((ix =? nx - 2) || (ix =? nx - 1)) && (tv JzSEE =? -1))) && negb (tv JzSEE =? 30), V JzSEE, (jx_vSEE * celvol)%R);
    (((1 <? ix) || (((ix =? 0) || (ix =? 1)) && (tv JzNWW =? -1))) && negb (tv JzNWW =? 30), V JzNWW, (jx_vNWW * celvol)%R);
    (negb (tv JzNW =? 30) && west_ok, V JzNW, (jx_vNW' * celvol)%R);
    (negb (tv JzNE =? 30) && east_ok, V JzNE, (jx_vNE' * celvol)%R);
    (((ix <? nx - 2) || (((ix =? nx - 2) || (ix =? nx - 1)) && (tv JzNEE =? -1))) && negb (tv JzNEE =? 30), V JzNEE, (jx_vNEE * celvol)%R);
    ((iz <? nz - 1) && negb (tv JzNNW =? 30), V JzNNW, (jx_vNNW * celvol)%R);
    ((iz <? nz - 1) && negb (tv JzNNE =? 30), V JzNNE, (jx_vNNE * celvol)%R);
    ((1 <? iz) && negb (tp JpSW =? 30), P JpSW, (jx_pSW * celvol)%R);
    ((1 <? iz) && negb (tp JpSE =? 30), P JpSE, (jx_pSE * celvol)%R);
    (negb (tp JpW =? 30) && west_ok, P JpW, (jx_pW * celvol)%R);
    (negb (tp JpE =? 30) && east_ok, P JpE, (jx_pE * celvol)%R);
    ((iz <? nz - 1) && negb (tp JpNW =? 30), P JpNW, (jx_pNW * celvol)%R);
    ((iz <? nz - 1) && negb (tp JpNE =? 30), P JpNE, (jx_pNE * celvol)%R) ].

(** 1923-1946: which x rows are filled; the others start and end at the same place. *)
Definition jx_row : list (target * R) :=
  if ((0 <? iz) && (iz <? nz + 1 - 1) && (0 <? ix) && (ix <? nx - 1)) || ((ix =? 0) && (tu c1 =? -2))
  then entries m jx_requests else [].

(** StokesAssemblyDecoupled.c 183-208: the residual, which is always evaluated by the
    Picard routine (StokesRoutines.c 841) on the fields of the rheology. *)
Local Open Scope R_scope.
Definition jx_residual (L : law) (f : fields) : R :=
  let pE := xPrE m ix iz in let pW := xPrW m ix iz in let gN := xyN m ix iz in let gS := xyS m ix iz in
  let Freg := (nsxx L f pE - nsxx L f pW) / dx - (npc L f pE - npc L f pW) / dx + (nsxz L f gN - nsxz L f gS) / dz in
  let sE := nsxx L f pE - npc L f pE in
  let FW := ((sE - (2 * valu m c1 - sE)) / dx + (nsxz L f gN - nsxz L f gS) / dz) * / 2 in
  let sW := nsxx L f pW - npc L f pW in
  let FE := ((2 * valu m c1 - sW - sW) / dx + (nsxz L f gN - nsxz L f gS) / dz) * / 2 in
  ((1 - SxxE m ix iz - SxxW m ix iz) * Freg + SxxW m ix iz * FW + SxxE m ix iz * FE
   + (bx m c1 - x_corr m ix iz * fu f c1)) * - celvol.
End X.

(** ** z rows *)
Section Z.
Variables (ix iz : Z).
Notation c1 := (zc1 m ix iz). Notation c2 := (zc2 m ix iz). Notation c3 := (zc3 m ix iz).
(** 752-812. [k = ix], [l = iz]. *)
Definition perW := (ix =? 1) && (tv (c3 - 1) =? -12).
Definition perE := (ix =? nx - 1) && (tv (c3 + 1) =? -12).
Definition KzW := if perW then c3 + nxvz - 3 else c3 - 1.
Definition KzE := if perE then c3 - nxvz + 3 else c3 + 1.
Definition KzS := c3 - nxvz.
Definition KzN := c3 + nxvz.
Definition KzSW := if perW then KzW - nxvz else KzS - 1.
Definition KzSE := if perE then KzE - nxvz else KzS + 1.
Definition KzNW := if perW then KzW + nxvz else KzN - 1.
Definition KzNE := if perE then KzE + nxvz else KzN + 1.
Definition KxNW := c1 + nx - 1.
Definition KxNE := c1 + nx.
Definition KxSW := c1 - 1.
Definition KxSE := c1.
Definition KxNWW := if perW then KxNW + (nx - 2) else KxNW - 1.
Definition KxSWW := if perW then KxSW + (nx - 2) else KxSW - 1.
Definition KxNEE := if perE then KxNE - (nx - 2) else KxNE + 1.
Definition KxSEE := if perE then KxSE - (nx - 2) else KxSE + 1.
Definition KxNNW := KxNW + nx.
Definition KxNNE := KxNE + nx.
Definition KxSSW := KxSW - nx.
Definition KxSSE := KxSE - nx.
Definition KpS := c2.
Definition KpN := c2 + ncx.
Definition KpSW := if perW then KpS + (ncx - 1) else KpS - 1.
Definition KpNW := if perW then KpN + (ncx - 1) else KpN - 1.
Definition KpSE := if perE then KpS - (ncx - 1) else KpS + 1.
Definition KpNE := if perE then KpN - (ncx - 1) else KpN + 1.
Definition KgW := c1 - 1.
Definition KgE := c1.
Definition KgSW := KgW - nx.
Definition KgNW := KgW + nx.
Definition KgSE := KgE - nx.
Definition KgNE := KgE + nx.

Local Open Scope R_scope.
(** 842-893 *)
Definition KinS := flag (tp KpS =? -1).
Definition KinN := flag (tp KpN =? -1).
Definition KinW := flag (negb (tv KzW =? 30) && negb (tv KzW =? 13)).
Definition KinE := flag (negb (tv KzE =? 30) && negb (tv KzE =? 13)).
Definition KinWv := flag (negb (tg KgW =? 30)).
Definition KinEv := flag (negb (tg KgE =? 30)).
Definition Kwest := (1 <? ix)%Z || ((ix =? 1)%Z && (tv KzW =? -1)).
Definition Keast := (ix <? nxvz - 2)%Z || ((ix =? nxvz - 2)%Z && (tv KzE =? -1)).
Definition KinSWc := flag (Kwest && (tp KpSW =? -1)).
Definition KinNWc := flag (Kwest && (tp KpNW =? -1)).
Definition KinSEc := flag (Keast && (tp KpSE =? -1)).
Definition KinNEc := flag (Keast && (tp KpNE =? -1)).
Definition KinSWv := flag ((0 <? iz)%Z && negb (tg KgSW =? 30)).
Definition KinSEv := flag ((0 <? iz)%Z && negb (tg KgSE =? 30)).
Definition KinNWv := flag ((iz <? nz - 1)%Z && negb (tg KgNW =? 30)).
Definition KinNEv := flag ((iz <? nz - 1)%Z && negb (tg KgNE =? 30)).
Definition KinSSW := flag ((tu KxSSW =? -1) || perx w).
Definition KinSSE := flag ((tu KxSSE =? -1) || perx w).
Definition KinNNW := flag ((tu KxNNW =? -1) || perx w).
Definition KinNNE := flag ((tu KxNNE =? -1) || perx w).
Definition KwE := inv_count (KinN + KinS + KinNEc + KinSEc).
Definition KwW := inv_count (KinN + KinS + KinNWc + KinSWc).

Notation D31W := (j31 w KgW). Notation D32W := (j32 w KgW). Notation D33W := (j33 w KgW). Notation D34W := (j34 w KgW).
Notation D31E := (j31 w KgE). Notation D32E := (j32 w KgE). Notation D33E := (j33 w KgE). Notation D34E := (j34 w KgE).
Notation D21S := (j21 w KpS). Notation D22S := (j22 w KpS). Notation D23S := (j23 w KpS). Notation D24S := (j24 w KpS).
Notation D21N := (j21 w KpN). Notation D22N := (j22 w KpN). Notation D23N := (j23 w KpN). Notation D24N := (j24 w KpN).
Notation k3 := (cp * OOP - 3). Notation k0 := (cp * OOP).

(** 896-923 *)
Definition jz_vW := (- D33W * dz * KinW ^ 2 * KinWv + (1/4) * dx * KinW ^ 2 * KinWv * (D23N * KinN - D23S * KinS)
  + (1/3) * dx * KwW * (KinNWc - KinSWc) * (D31W * k0 + D32W * k3)) / (dx ^ 2 * dz).
Definition jz_vC0 := (1/3) * (- dx * (dx * (D21N * cp * KinN * OOP + D21S * cp * KinS * OOP + D22N * KinN * k3 + D22S * KinS * k3)
    + (3/4) * dz * (- D23N * KinN + D23S * KinS) * (KinE ^ 2 * KinEv - KinW ^ 2 * KinWv))
  + dz * (dx * (KinN - KinS) * (- D31E * k0 * KwE + D31W * k0 * KwW - D32E * KwE * k3 + D32W * KwW * k3)
    + 3 * dz * (D33E * KinE ^ 2 * KinEv + D33W * KinW ^ 2 * KinWv))) / (dx ^ 2 * dz ^ 2).
Definition jz_vE := (- D33E * dz * KinE ^ 2 * KinEv + (1/4) * dx * KinE ^ 2 * KinEv * (- D23N * KinN + D23S * KinS)
  - (1/3) * dx * KwE * (KinNEc - KinSEc) * (D31E * k0 + D32E * k3)) / (dx ^ 2 * dz).
Definition jz_vS := (1/3) * KinS * (- (3/4) * D23S * dz * (KinE * KinSEv - KinSWv * KinW) + dx * (D21S * k0 + D22S * k3)
  + dz * (- D31E * k0 * KwE + D31W * k0 * KwW - D32E * KwE * k3 + D32W * KwW * k3)) / (dx * dz ^ 2).
Definition jz_vN := (1/3) * KinN * ((3/4) * D23N * dz * (KinE * KinNEv - KinNWv * KinW) + dx * (D21N * k0 + D22N * k3)
  + dz * (D31E * k0 * KwE - D31W * k0 * KwW + D32E * KwE * k3 - D32W * KwW * k3)) / (dx * dz ^ 2).
Definition jz_uSW := (1/3) * (dx * ((3/4) * dx * (D23N * KinN * KinW * KinWv + D23S * KinS * (KinSSW * KinSWv - KinW * KinWv))
    + dz * KinS * (D21S * k3 + D22S * k0))
  - dz * (3 * D33W * dx * KinW * KinWv + dz * (D31E * KinS * KwE * k3 - D31W * KwW * (KinS - KinSWc) * k3 + D32E * cp * KinS * OOP * KwE - D32W * k0 * KwW * (KinS - KinSWc)))) / (dx ^ 2 * dz ^ 2).
Definition jz_uSE := (1/3) * (- dx * ((3/4) * dx * (- D23N * KinE * KinEv * KinN + D23S * KinS * (KinE * KinEv - KinSEv * KinSSE))
    + dz * KinS * (D21S * k3 + D22S * k0))
  + dz * (3 * D33E * dx * KinE * KinEv + dz * (D31E * KwE * (KinS - KinSEc) * k3 - D31W * KinS * KwW * k3 + D32E * k0 * KwE * (KinS - KinSEc) - D32W * cp * KinS * OOP * KwW))) / (dx ^ 2 * dz ^ 2).
Definition jz_uNW := (1/3) * (dx * ((3/4) * dx * (D23N * KinN * (KinNNW * KinNWv - KinW * KinWv) + D23S * KinS * KinW * KinWv)
    - dz * KinN * (D21N * k3 + D22N * k0))
  + dz * (3 * D33W * dx * KinW * KinWv + dz * (- D31E * KinN * KwE * k3 + D31W * KwW * (KinN - KinNWc) * k3 - D32E * cp * KinN * OOP * KwE + D32W * k0 * KwW * (KinN - KinNWc)))) / (dx ^ 2 * dz ^ 2).
Definition jz_uNE := (1/3) * (dx * ((3/4) * dx * (- D23N * KinN * (KinE * KinEv - KinNEv * KinNNE) + D23S * KinE * KinEv * KinS)
    + dz * KinN * (D21N * k3 + D22N * k0))
  - dz * (3 * D33E * dx * KinE * KinEv + dz * (- D31E * KwE * (KinN - KinNEc) * k3 + D31W * KinN * KwW * k3 - D32E * k0 * KwE * (KinN - KinNEc) + D32W * cp * KinN * OOP * KwW))) / (dx ^ 2 * dz ^ 2).
Definition jz_vSW := (1/3) * (- (3/4) * D23S * KinS * KinSWv * KinW + D31W * cp * KinSWc * OOP * KwW + D32W * KinSWc * KwW * k3) / (dx * dz).
Definition jz_vSE := (1/3) * ((3/4) * D23S * KinE * KinS * KinSEv - D31E * cp * KinSEc * OOP * KwE - D32E * KinSEc * KwE * k3) / (dx * dz).
Definition jz_vNW := (1/3) * ((3/4) * D23N * KinN * KinNWv * KinW - D31W * cp * KinNWc * OOP * KwW - D32W * KinNWc * KwW * k3) / (dx * dz).
Definition jz_vNE := (1/3) * (- (3/4) * D23N * KinE * KinN * KinNEv + D31E * cp * KinNEc * OOP * KwE + D32E * KinNEc * KwE * k3) / (dx * dz).
Definition jz_uSWW := (1/3) * KinSWc * KwW * (D31W * k3 + D32W * k0) / dx ^ 2.
Definition jz_uSEE := (1/3) * KinSEc * KwE * (D31E * k3 + D32E * k0) / dx ^ 2.
Definition jz_uNWW := (1/3) * KinNWc * KwW * (D31W * k3 + D32W * k0) / dx ^ 2.
Definition jz_uNEE := (1/3) * KinNEc * KwE * (D31E * k3 + D32E * k0) / dx ^ 2.
Definition jz_uSSW := - (1/4) * D23S * KinS * KinSSW * KinSWv / dz ^ 2.
Definition jz_uSSE := - (1/4) * D23S * KinS * KinSEv * KinSSE / dz ^ 2.
Definition jz_uNNW := - (1/4) * D23N * KinN * KinNNW * KinNWv / dz ^ 2.
Definition jz_uNNE := - (1/4) * D23N * KinN * KinNEv * KinNNE / dz ^ 2.
Definition jz_pS := - KinS * (1 / dz) + KinS * (D24S * dx + dz * (- D34E * KinE * KwE + D34W * KinW * KwW)) / (dx * dz).
Definition jz_pN := KinN * (1 / dz) + KinN * (- D24N * dx + dz * (- D34E * KinE * KwE + D34W * KinW * KwW)) / (dx * dz).
Definition jz_pSW := D34W * KinSWc * KinW * KwW / dx.
Definition jz_pSE := - D34E * KinE * KinSEc * KwE / dx.
Definition jz_pNW := D34W * KinNWc * KinW * KwW / dx.
Definition jz_pNE := - D34E * KinE * KinNEc * KwE / dx.

(** 926-932: [if (vC+vC_corr<0.0) vC_corr = 0.0]. *)
Definition jz_corr : R :=
  if stab m then
    let drhodz := (rho_n m (c2 + ncx)%Z - rho_n m c2) * (1 / dz) in
    let c := 1 * om m * dt m * gz m c3 * drhodz in
    if Rlt_dec (jz_vC0 + c) 0 then 0 else c
  else 0.
(** 935-944. Note that [vSW], [vNW] are subtracted from [vW] and [vSE], [vNE] from [vE]. *)
Definition jz_vC := jz_vC0 + jz_corr - dirichlet (tv KzW) jz_vW - dirichlet (tv KzE) jz_vE.
Definition jz_vW' := jz_vW - dirichlet (tv KzSW) jz_vSW - dirichlet (tv KzNW) jz_vNW.
Definition jz_vE' := jz_vE - dirichlet (tv KzSE) jz_vSE - dirichlet (tv KzNE) jz_vNE.
Definition jz_uNW' := jz_uNW - dirichlet (tu KxNNW) jz_uNNW.
Definition jz_uNE' := jz_uNE - dirichlet (tu KxNNE) jz_uNNE.
Definition jz_uSW' := jz_uSW - dirichlet (tu KxSSW) jz_uSSW.
Definition jz_uSE' := jz_uSE - dirichlet (tu KxSSE) jz_uSSE.

Local Open Scope Z_scope.
(** 968-1050, in the order of the code. The tests of [uSEE] and [uNWW] read the types
    at [c1+1] and [c1+nx-2], those of the pressures test both [iPrS] and [iPrN]. *)
Definition jz_requests : list (bool * target * R) :=
  [ (negb (tu KxSSW =? 30), U KxSSW, (jz_uSSW * celvol)%R);
    (negb (tu KxSSE =? 30), U KxSSE, (jz_uSSE * celvol)%R);
    (((1 <? ix) || ((ix =? 1) && (tu KxSWW =? -1))) && negb (tu KxSWW =? 30), U KxSWW, (jz_uSWW * celvol)%R);
    (negb (tu KxSW =? 30), U KxSW, (jz_uSW' * celvol)%R);
    (negb (tu KxSE =? 30), U KxSE, (jz_uSE' * celvol)%R);
    (((ix <? nx - 1) || ((ix =? nx - 1) && (tu KxSEE =? -1))) && negb (tu (c1 + 1) =? 30), U KxSEE, (jz_uSEE * celvol)%R);
    (((1 <? ix) || ((ix =? 1) && (tu KxNWW =? -1))) && negb (tu (c1 + nx - 2) =? 30), U KxNWW, (jz_uNWW * celvol)%R);
    (negb (tu KxNW =? 30), U KxNW, (jz_uNW' * celvol)%R);
    (negb (tu KxNE =? 30), U KxNE, (jz_uNE' * celvol)%R);
    (((ix <? nx - 1) || ((ix =? nx - 1) && (tu KxNEE =? -1))) && negb (tu KxNEE =? 30), U KxNEE, (jz_uNEE * celvol)%R);
    (negb (tu KxNNW =? 30), U KxNNW, (jz_uNNW * celvol)%R);
    (negb (tu KxNNE =? 30), U KxNNE, (jz_uNNE * celvol)%R);
    (negb (tv KzSW =? 30) && (0 <? iz), V KzSW, (jz_vSW * celvol)%R);
    (negb (tv KzS =? 30) && (0 <? iz), V KzS, (jz_vS * celvol)%R);
    (negb (tv KzSE =? 30) && (0 <? iz), V KzSE, (jz_vSE * celvol)%R);
    (negb (tv KzW =? 30), V KzW, (jz_vW' * celvol)%R);
    (negb (tv c3 =? 30), V c3, (jz_vC * celvol)%R);
    (negb (tv KzE =? 30), V KzE, (jz_vE' * celvol)%R);
    (negb (tv KzNW =? 30) && (iz <? nz - 1), V KzNW, (jz_vNW * celvol)%R);
    (negb (tv KzN =? 30) && (iz <? nz - 1), V KzN, (jz_vN * celvol)%R);
    (negb (tv KzNE =? 30) && (iz <? nz - 1), V KzNE, (jz_vNE * celvol)%R);
    (((1 <? ix) || ((ix =? 1) && perx w)) && negb (tp KpSW =? 30), P KpSW, (jz_pSW * celvol)%R);
    (negb (tp KpS =? 30) && negb (tp KpN =? 30), P KpS, (jz_pS * celvol)%R);
    (((ix <? nx - 1) || ((ix =? nx - 1) && perx w)) && negb (tp KpSE =? 30), P KpSE, (jz_pSE * celvol)%R);
    (((1 <? ix) || ((ix =? 1) && perx w)) && negb (tp KpNW =? 30), P KpNW, (jz_pNW * celvol)%R);
    (negb (tp KpS =? 30) && negb (tp KpN =? 30), P KpN, (jz_pN * celvol)%R);
    (((ix <? nx - 1) || ((ix =? nx - 1) && perx w)) && negb (tp KpNE =? 30), P KpNE, (jz_pNE * celvol)%R) ].

(** 1999-2003. *)
Definition jz_row : list (target * R) :=
  if (0 <? ix) && (ix <? nxvz - 1) && (0 <? iz) && (iz <? nz - 1) then entries m jz_requests else [].

(** StokesAssemblyDecoupled.c 688-714 (Picard routine, see the x residual). *)
Local Open Scope R_scope.
Definition jz_residual (L : law) (f : fields) : R :=
  let pN := zPrN m ix iz in let pS := zPrS m ix iz in let gE := xyE m ix iz in let gW := xyW m ix iz in
  let Freg := (nszz L f pN - nszz L f pS) / dz - (npc L f pN - npc L f pS) / dz + (nsxz L f gE - nsxz L f gW) / dx in
  let sN := nszz L f pN - npc L f pN in
  let FS := ((sN - (2 * valv m c3 - sN)) / dz + (nsxz L f gE - nsxz L f gW) / dx) * / 2 in
  let sS := nszz L f pS - npc L f pS in
  let FN := ((2 * valv m c3 - sS - sS) / dz + (nsxz L f gE - nsxz L f gW) / dx) * / 2 in
  ((1 - SzzS m ix iz - SzzN m ix iz) * Freg + SzzS m ix iz * FS + SzzN m ix iz * FN
   + (bz m c3 - z_corr m ix iz * fv f c3)) * - celvol.
End Z.
End Newton.
