(** * Marker advection and mesh deformation

    Transcription of
    - MDLIB/AdvectionRoutines.c 273-312 (isout), 318-339 (isoutPart),
      345-402 (RogerGuntherII), 408-507 (PureShearALE);
    - MDLIB/ParticleRoutines.c 60-253 (V2P);
    - MDLIB/Main_DOODZ.c 1041-1060 (order of the advection sub-step).
    Doubles are reals, indices [Z], arrays functions of the flat index. The C
    conversion of [ceil(..)] to [int] is taken to be exact. *)
From Coq Require Import ZArith Reals List Bool.
Import ListNotations.
From Verif Require Import P2GModel.
Local Open Scope R_scope.

Definition Rltb (a b : R) : bool := if Rlt_dec a b then true else false.
Definition Rgeb (a b : R) : bool := if Rge_dec a b then true else false.

(** ** Velocity at a marker *)
(** One staggered grid: row length, number of rows, coordinates of its columns and
    lines, values, tags. For Vx: [Nx], [NzVx], [xg], [zvx]; for Vz: [NxVz], [Nz],
    [xvz], [zg]. *)
Record vgrid : Type := VGrid { vnx : Z; vnz : Z; vgx : Z -> R; vgz : Z -> R; vval : Z -> R; vtag : Z -> Z }.

(** 76-93, 163-180: column or line to the left of or below the marker. *)
Definition cell_of (x x0 d : R) (n : Z) : Z :=
  let c := (Zceil ((x - x0) / d) - 1)%Z in
  let c := if (c <? 0)%Z then 0%Z else c in
  if (n - 2 <? c)%Z then (n - 2)%Z else c.

Definition air (t : Z) : bool := (t =? 30)%Z.

(** 98-121 and 185-211. [swFrom] is the node whose value replaces an air value in
    the south-west corner: iNW for Vx (108), iNE for Vz (195). Result: SW, SE, NW, NE. *)
Definition corner_values (g : vgrid) (iSW iSE iNW iNE swFrom : Z) : R * R * R * R :=
  let v := vval g in let a i := air (vtag g i) in
  let sw := if a iSW then v swFrom else v iSW in
  let se := if a iSE then v iNE else v iSE in
  let nw := if a iNW then v iSW else v iNW in
  let ne := if a iNE then v iSE else v iNE in
  let '(ne, se) := if a iNE && a iSE then (sw, sw) else (ne, se) in
  let '(nw, sw) := if a iNW && a iSW then (se, se) else (nw, sw) in
  (sw, se, nw, ne).

(** 123-155: Vx. *)
Definition v2p_vx (dx dz : R) (taras : bool) (g : vgrid) (x z : R) : R :=
  let Nx := vnx g in
  let j := cell_of x (vgx g 0) dx (vnx g) in
  let i := cell_of z (vgz g 0) dz (vnz g) in
  let dxm := Rabs (x - vgx g j) in
  let dzm := Rabs (z - vgz g i) in
  let iSW := (j + i * Nx)%Z in let iSE := (j + i * Nx + 1)%Z in
  let iNW := (j + (i + 1) * Nx)%Z in let iNE := (j + (i + 1) * Nx + 1)%Z in
  let '(VSW, VSE, VNW, VNE) := corner_values g iSW iSE iNW iNE iNW in
  let v13 := VSW * (1 - dxm / dx) + VSE * dxm / dx in
  let v24 := VNW * (1 - dxm / dx) + VNE * dxm / dx in
  let '(v13, v24) :=
    if taras then
      if Rgeb (dxm / dx) (1 / 2) then
        if (j <? Nx - 2)%Z then
          let iSEE := (j + i * Nx + 1 + 1)%Z in
          let iNEE := (j + (i + 1) * Nx + 1 + 1)%Z in
          let VSEE := if air (vtag g iSEE) then vval g iSW else vval g iSEE in
          let VNEE := if air (vtag g iNEE) then vval g iNW else vval g iNEE in
          (v13 + 1 / 2 * (dxm / dx - 1 / 2) ^ 2 * (VSW - 2 * VSE + VSEE),
           v24 + 1 / 2 * (dxm / dx - 1 / 2) ^ 2 * (VNW - 2 * VNE + VNEE))
        else (v13, v24)
      else if (0 <? j)%Z then
          let iSWW := (j + i * Nx - 1)%Z in
          let iNWW := (j + (i + 1) * Nx - 1)%Z in
          let VSWW := if air (vtag g iSWW) then vval g iSE else vval g iSWW in
          let VNWW := if air (vtag g iNWW) then vval g iNE else vval g iNWW in
          (v13 + 1 / 2 * (dxm / dx - 1 / 2) ^ 2 * (VSWW - 2 * VSW + VSE),
           v24 + 1 / 2 * (dxm / dx - 1 / 2) ^ 2 * (VNWW - 2 * VNW + VNE))
        else (v13, v24)
    else (v13, v24) in
  (1 - dzm / dz) * v13 + dzm / dz * v24.

(** 213-250: Vz. *)
Definition v2p_vz (dx dz : R) (taras : bool) (g : vgrid) (x z : R) : R :=
  let Nx := vnx g in
  let j := cell_of x (vgx g 0) dx (vnx g) in
  let i := cell_of z (vgz g 0) dz (vnz g) in
  let dxm := Rabs (x - vgx g j) in
  let dzm := Rabs (z - vgz g i) in
  let iSW := (j + i * Nx)%Z in let iSE := (j + i * Nx + 1)%Z in
  let iNW := (j + (i + 1) * Nx)%Z in let iNE := (j + (i + 1) * Nx + 1)%Z in
  let '(VSW, VSE, VNW, VNE) := corner_values g iSW iSE iNW iNE iNE in
  let v12 := VSW * (1 - dzm / dz) + VNW * dzm / dz in
  let v34 := VSE * (1 - dzm / dz) + VNE * dzm / dz in
  let '(v12, v34) :=
    if taras then
      if Rgeb (dzm / dz) (1 / 2) then
        if (i <? vnz g - 2)%Z then
          let iNNW := (j + (i + 2) * Nx)%Z in
          let iNNE := (j + (i + 2) * Nx + 1)%Z in
          let VNNW := if air (vtag g iNNW) then vval g iSW else vval g iNNW in
          let VNNE := if air (vtag g iNNE) then vval g iSE else vval g iNNE in
          (v12 + 1 / 2 * (dzm / dz - 1 / 2) ^ 2 * (VSW - 2 * VNW + VNNW),
           v34 + 1 / 2 * (dzm / dz - 1 / 2) ^ 2 * (VSE - 2 * VNE + VNNE))
        else (v12, v34)
      else if (0 <? i)%Z then
          let iSSW := (j + (i - 1) * Nx)%Z in
          let iSSE := (j + (i - 1) * Nx + 1)%Z in
          let VSSW := if air (vtag g iSSW) then vval g iNW else vval g iSSW in
          let VSSE := if air (vtag g iSSE) then vval g iNE else vval g iSSE in
          (v12 + 1 / 2 * (dzm / dz - 1 / 2) ^ 2 * (VSSW - 2 * VSW + VNW),
           v34 + 1 / 2 * (dzm / dz - 1 / 2) ^ 2 * (VSSE - 2 * VSE + VNE))
        else (v12, v34)
    else (v12, v34) in
  (1 - dxm / dx) * v12 + dxm / dx * v34.

(** ** Markers *)
Record part : Type := Part { px : R; pz : R; pph : Z; pvx : R; pvz : R }.
Record dom : Type := Dom { xmin : R; xmax : R; zmin : R; zmax : R; perx : bool }.

(** 60-73: inactive markers get zero velocity. *)
Definition v2p (dx dz : R) (taras : bool) (gx gz : vgrid) (m : part) : R * R :=
  if (pph m =? -1)%Z then (0, 0) else (v2p_vx dx dz taras gx (px m) (pz m), v2p_vz dx dz taras gz (px m) (pz m)).

(** 318-339. *)
Definition deactivate (m : part) : part := Part (px m) (pz m) (-1) (pvx m) (pvz m).
Definition move_x (m : part) (x : R) : part := Part x (pz m) (pph m) (pvx m) (pvz m).
Definition isout_part (d : dom) (m : part) : part :=
  if perx d then
    let m := if Rltb (px m) (xmin d) then move_x m (xmax d - Rabs (xmin d - px m)) else m in
    let m := if Rltb (xmax d) (px m) then move_x m (xmin d + Rabs (xmax d - px m)) else m in
    if Rltb (pz m) (zmin d) || Rltb (zmax d) (pz m) then deactivate m else m
  else
    if Rltb (px m) (xmin d) || Rltb (xmax d) (px m) || Rltb (pz m) (zmin d) || Rltb (zmax d) (pz m)
    then deactivate m else m.

(** 273-312: every marker, in the order [ks] in which the threads get to them. *)
Definition isout (d : dom) (ks : list nat) (ms : nat -> part) : nat -> part :=
  fold_left (fun ms k => fun i => if Nat.eqb i k then isout_part d (ms k) else ms i) ks ms.

(** 345-402: one marker; [vel] = V2P. *)
Definition stage (d : dom) (xA zA c dt : R) (v : R * R) (m : part) : part :=
  isout_part d
    (if (pph m =? -1)%Z then m else Part (xA + c * dt * fst v) (zA + c * dt * snd v) (pph m) (pvx m) (pvz m)).
Definition rk4 (vel : part -> R * R) (d : dom) (dt : R) (m : part) : part :=
  let xA := px m in let zA := pz m in
  let A := vel m in
  let m := stage d xA zA (1 / 2) dt A m in
  let B := vel m in
  let m := stage d xA zA (1 / 2) dt B m in
  let C := vel m in
  let m := stage d xA zA 1 dt C m in
  let D := vel m in
  let vx := 1 / 6 * (fst A + 2 * fst B + 2 * fst C + fst D) in
  let vz := 1 / 6 * (snd A + 2 * snd B + 2 * snd C + snd D) in
  isout_part d
    (if (pph m =? -1)%Z then m else Part (xA + dt * vx) (zA + dt * vz) (pph m) vx vz).

(** ** Mesh deformation *)
(** 419-434: average over the rows of one side with type 0; [u], [t] along the side,
    rows 0 .. n-1. *)
Definition side_average (n : nat) (t : nat -> Z) (u : nat -> R) : R :=
  let r := fold_left (fun s j => if (t j =? 0)%Z then (fst s + u j, (snd s + 1)%nat) else s) (seq 0 n) (0, 0%nat) in
  if (0 <? snd r)%nat then fst r / INR (snd r) else fst r.

(** 436-468: northern side, with a free surface; [uplift] = highest uplift rate. *)
Definition north_average (n : nat) (t : nat -> Z) (v bc : nat -> R) (free ale2 : bool) (uplift : R) : R :=
  let r := fold_left (fun s j =>
      if (t j =? 0)%Z || (t j =? 30)%Z then
        let a := fst s in
        let a := if free then
                   let a := if ale2 then a + uplift else a in
                   if (t j =? 0)%Z then a + bc j else a
                 else a + v j in
        (a, (snd s + 1)%nat)
      else s) (seq 0 n) (0, 0%nat) in
  if (0 <? snd r)%nat then fst r / INR (snd r) else fst r.

(** What the routine reads along the four sides: types, velocities [u_in]/[v_in] and
    prescribed values [BCv.val]. *)
Record sides : Type := Sides {
  tW : nat -> Z; uW : nat -> R; tE : nat -> Z; uE : nat -> R;
  tS : nat -> Z; vS : nat -> R; bS : nat -> R;
  tN : nat -> Z; vN : nat -> R; bN : nat -> R }.

(** 408-495; [Nz], [Nx] = number of vertices; [ale2]: pure_shear_ALE == 2, in which
    case [top] = highest point of the surface + 10 km. *)
Definition pure_shear_ale (Nx Nz : nat) (s : sides) (free ale2 : bool) (uplift top dt : R) (d : dom) : dom :=
  let VxW := side_average Nz (tW s) (uW s) in
  let VxE := side_average Nz (tE s) (uE s) in
  let VzS := side_average Nx (tS s) (if free then bS s else vS s) in
  let VzN := north_average Nx (tN s) (vN s) (bN s) free ale2 uplift in
  Dom (xmin d + VxW * dt) (xmax d + VxE * dt) (zmin d + VzS * dt)
      (if ale2 then top else zmax d + VzN * dt) (perx d).

(** Main_DOODZ.c 1041-1060 (no free surface): sub-steps with the velocities of the
    solve; the sides are moved first. *)
Fixpoint deform (n : nat) (Nx Nz : nat) (s : sides) (dt : R) (d : dom) : dom :=
  match n with O => d | S n => deform n Nx Nz s dt (pure_shear_ale Nx Nz s false false 0 0 dt d) end.
