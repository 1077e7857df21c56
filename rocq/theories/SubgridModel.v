(** * Update of marker temperature, pressure and stress from the grid

    Transcription of MDLIB/RheologyParticles.c
    - 1187-1268 (UpdateParticleEnergy), 1276-1375 (UpdateParticlePressure),
      1380-1655 (UpdateParticleStress, stress part 1465-1618; director and rotation are in AnisoModel),
    - 770-804 (UpdateParticleDensity), 811-842 (UpdateParticlePhi), 1143-1180 (UpdateParticleGrainSize),
      1665-1690 (UpdateParticleDivThermal).
    Doubles are reals. [None]: an interpolation stops the program or is undefined (C72). The density and
    viscosity of markers enter through the relaxation time [p_tau]; it is assumed positive where it is used. *)
From Coq Require Import ZArith Reals List Bool.
Import ListNotations.
From Verif Require Import P2GModel ItpModel.
Local Open Scope R_scope.

Record pt : Type := Pt { p_x : R; p_z : R; p_ph : Z; p_v : R; p_tau : R }.
(** Where the field is stored: cells (Interp_Grid2P_centroids2) or vertices (Interp_Grid2P). *)
Inductive loc := Cells | Corner.
Definition fam (l : loc) : family := match l with Cells => Centroids | Corner => Vertices end.
Definition itp (l : loc) (per : bool) (m : mesh) (tag : Z -> Z) (f : Z -> R) (p : pt) : option R :=
  match (match l with Cells => from_centres per m f tag (p_ph p) (p_x p) (p_z p) | Corner => from_vertices m f tag (p_ph p) (p_x p) (p_z p) end) with
  | Val v => Some v | _ => None
  end.
Definition grid_of (l : loc) (m : mesh) : nodes := family_nodes (fam l) (NX m) (NZ m) (X0 m) (Z0 m) (DX m) (DZ m).

Fixpoint mapM {A B} (f : A -> option B) (l : list A) : option (list B) :=
  match l with
  | [] => Some []
  | a :: r => match f a, mapM f r with Some b, Some s => Some (b :: s) | _, _ => None end
  end.

Section Update.
  Variables (l : loc) (per : bool) (m : mesh) (st : stencil).
  Variables (tagI tagP : Z -> Z).          (* tags given to the interpolations to markers and to the grid *)
  Variables (skip : Z -> bool).            (* nodes whose change is not computed *)
  Variables (old new : Z -> R) (dt : R).

  (** 1203-1207, 1286-1291, 1581-1597 *)
  Definition change (c : Z) : R := if skip c then 0 else new c - old c.
  (** 1259-1262, 1365-1368, 1600-1607: without subgrid diffusion; inactive markers receive 0. *)
  Definition plain (ms : list pt) : option (list R) :=
    mapM (fun p => match itp l per m tagI change p with Some r => Some (p_v p + r) | None => None end) ms.

  (** 1228-1230, 1334-1336, 1510-1513 *)
  Definition sub_inc (p : pt) : option R :=
    match itp l per m tagI old p with
    | Some v0 => Some (if (p_ph p =? -1)%Z then 0 else - (p_v p - v0) * (1 - exp (- (1) * dt / p_tau p)))
    | None => None
    end.
  (** 1235, 1341, 1528-1530 (P2Mastah, arithmetic, prop = 0; the target is zero before). *)
  Definition as_marker (pd : pt * R) : marker := Marker (p_x (fst pd)) (p_z (fst pd)) (p_ph (fst pd)) (snd pd).
  Definition sub_grid (pds : list (pt * R)) (c : Z) : R :=
    let g := grid_of l m in
    make_periodic (fam l) per (NX m) (fun i j => node_value Arithmetic st per g (map as_marker pds) (tagP (i + j * gNx g)%Z) 0 (i + j * gNx g)%Z)
      (c mod gNx g)%Z (c / gNx g)%Z.
  (** 1239-1241, 1345-1347, 1534-1541 *)
  Definition remaining (pds : list (pt * R)) (c : Z) : R := if skip c then 0 else (new c - old c) - sub_grid pds c.
  (** 1244-1251, 1350-1356, 1544-1554 *)
  Definition subgrid (ms : list pt) : option (list R) :=
    match mapM sub_inc ms with
    | None => None
    | Some dms =>
        let pds := combine ms dms in
        mapM (fun pd => match itp l per m tagI (remaining pds) (fst pd) with
                        | Some r => Some (if (p_ph (fst pd) =? -1)%Z then p_v (fst pd) else p_v (fst pd) + snd pd + r)
                        | None => None end) pds
    end.
End Update.

(** ** The option subgrid_diffusion and the three fields *)
Definition energy (opt : Z) per m tBt tBp old new dt ms :=   (* 1213, 1253; P2Mastah with stencil 1 *)
  if (1 <=? opt)%Z then subgrid Cells per m OneCell tBt tBp (fun c => (tBt c =? 30)%Z) old new dt ms
  else plain Cells per m tBt (fun c => (tBt c =? 30)%Z) old new ms.
Definition pressure (opt : Z) per m tBt tBp p0 pin dt ms :=     (* 1293, 1363 *)
  if (2 <=? opt)%Z then
    match mapM (sub_inc Cells per m tBp (fun c => if (tBt c =? 30)%Z then 0 else p0 c) dt) ms with
    | None => None
    | Some dms =>
        let pds := combine ms dms in
        mapM (fun pd => match itp Cells per m tBp (remaining Cells per m OneCell tBp (fun c => (tBp c =? 30)%Z) p0 pin pds) (fst pd) with
                        | Some r => Some (if (p_ph (fst pd) =? -1)%Z then p_v (fst pd) else p_v (fst pd) + snd pd + r)
                        | None => None end) pds
    end
  else plain Cells per m tBp (fun c => (tBp c =? 30)%Z) p0 pin ms.
Definition stress (opt : Z) l per m st tag s0 s dt ms :=        (* 1471, 1568 *)
  let skip c := match l with Cells => negb (rockb (tag c)) | Corner => (tag c =? 30)%Z end in
  if (opt =? 2)%Z then subgrid l per m st tag tag skip s0 s dt ms
  else if (opt =? 0)%Z || (opt =? 1)%Z then plain l per m tag skip s0 s ms
  else Some (map p_v ms).

(** ** Relaxation times: 1229, 1335, 1509 *)
Definition tau_T (cp rho k dx dz : R) : R := cp * rho / (k * (1 / dx / dx + 1 / dz / dz)).
Definition tau_P (eta bet : R) : R := eta / bet.
Definition tau_S (eta G : R) : R := eta / G.

(** ** Melt fraction of markers (834-838) and grain size (1176) *)
Definition cap01 (v : R) : R :=
  let v := if Rle_dec v 0 then 0 else v in if Rle_dec 1 v then 1 else v.
Definition phi_update per m tBp tBt phi0 phi ms : option (list R) :=
  match plain Cells per m tBt (fun c => negb (rockb (tBp c))) phi0 phi ms with Some r => Some (map cap01 r) | None => None end.
Definition grain_update per m tBt d (ms : list pt) : option (list R) := mapM (itp Cells per m tBt d) ms.
