(** * Phase maps of the output file

    Transcription of MDLIB/ParticleRoutines.c 1883-1970 (Interp_Phase2VizGrid) and of
    its three uses in MDLIB/HDF5Output.c 292-325. Doubles are reals; [ceil] followed by
    the conversion to [int] is exact. *)
From Coq Require Import ZArith Reals List Bool.
Import ListNotations.
From Verif Require Import P2GModel AdvModel ReseedModel ItpModel.
Local Open Scope R_scope.

(** particles.x, z, phase, dual of one marker. *)
Record mark : Type := Mark { mx : R; mz : R; mphase : Z; mdual : Z }.

(** HDF5Output.c 299-302, 315-318: vertices of the picture grid, one addition each;
    [h] = mesh->dx/res_fact. *)
Fixpoint ladder (x0 h : R) (k : nat) : R := match k with O => x0 | S k => ladder x0 h k + h end.
(** (char) of an int. *)
Definition as_char (n : Z) : Z := ((n + 128) mod 256 - 128)%Z.

Definition clampZ (j n : Z) : Z := let j := if (j <? 0)%Z then 0%Z else j in if (n - 1 <? j)%Z then (n - 1)%Z else j.
(** 1921-1932, 1942-1951: ceil((distance/d)+0.5) - 1, confined to 0..n-1. *)
Definition slot (x first d : R) (n : Z) : Z := clampZ (Zceil ((x - first) / d + 1 / 2) - 1) n.

(** Wm and NodeField *)
Record pict : Type := Pict { wm : Z -> R; node : Z -> Z }.
Definition zset {A} (f : Z -> A) (k : Z) (v : A) : Z -> A := fun i => if (i =? k)%Z then v else f i.

Section Map.
Variables (m : mesh) (tag : Z -> Z).      (* the computational grid, mesh->BCp.type *)
Variable r : positive.                    (* res_fact *)
Definition hx : R := DX m / IZR (Zpos r).
Definition hz : R := DZ m / IZR (Zpos r).
Definition cols : Z := (Zpos r * (NX m - 1))%Z.   (* Nxg - 1 *)
Definition rows : Z := (Zpos r * (NZ m - 1))%Z.
Definition X_vect (j : Z) : R := ladder (xg m 0) hx (Z.to_nat j).
Definition Z_vect (i : Z) : R := ladder (zg m 0) hz (Z.to_nat i).
(** 1888-1889 *)
Definition dxv : R := X_vect 1 - X_vect 0.
Definition dzv : R := Z_vect 1 - Z_vect 0.

(** 1921-1932 *)
Definition jpart (p : mark) : Z := slot (mx p) (xg m 0 + 1 / 2 * dxv) dxv cols.
Definition ipart (p : mark) : Z := slot (mz p) (zg m 0 + 1 / 2 * dzv) dzv rows.
(** 1934-1935, 1961 *)
Definition nearness (p : mark) : R :=
  let dxm := Rabs (1 / 2 * (X_vect (jpart p) + X_vect (jpart p + 1)) - mx p) in
  let dzm := Rabs (1 / 2 * (Z_vect (ipart p + 1) + Z_vect (ipart p)) - mz p) in
  (1 - dxm / dxv) * (1 - dzm / dzv).
(** 1942-1953 *)
Definition own_flag (p : mark) : Z :=
  let ncx := (NX m - 1)%Z in let ncz := (NZ m - 1)%Z in
  tag (slot (mx p) (xc m 0) (DX m) ncx + slot (mz p) (zc m 0) (DZ m) ncz * ncx)%Z.

(** 1914-1968 *)
Definition paint (field : mark -> Z) (s : pict) (p : mark) : pict :=
  if (mphase p =? -1)%Z then s else
  let k := (jpart p + ipart p * cols)%Z in
  if rockb (own_flag p) && Rltb (wm s k) (nearness p)
  then Pict (zset (wm s) k (nearness p)) (zset (node s) k (as_char (field p)))
  else s.

(** 1883-1970; [max] = particles.Nb_part_max. After the first loop (1904-1906) the
    counter is the number of picture cells, and the marker with that number is read
    (1909; the result is not used). *)
Definition phase_map (max : Z) (field : mark -> Z) (ps : list mark) : result (Z -> Z) :=
  if (max <=? cols * rows)%Z then UB
  else Done (node (fold_left (paint field) ps (Pict (fun _ => 0) (fun _ => (-1)%Z)))).
End Map.

(** HDF5Output.c 305, 323-324: the three maps of the file. *)
Definition compo (m : mesh) (tag : Z -> Z) (max : Z) (ps : list mark) := phase_map m tag 1 max mdual ps.
Definition compo_dual_hr (m : mesh) (tag : Z -> Z) (max : Z) (ps : list mark) := phase_map m tag 2 max mdual ps.
Definition compo_hr (m : mesh) (tag : Z -> Z) (max : Z) (ps : list mark) := phase_map m tag 2 max mphase ps.

(** InputOutput.c 1144-1145: 4.1*Nb_part converted to int (a decimal product
    truncated); [perx], [perz] = Nx_part, Nz_part. *)
Definition marker_room (m : mesh) (perx perz : Z) : Z := (41 * ((NX m - 1) * (NZ m - 1) * perx * perz) / 10)%Z.
