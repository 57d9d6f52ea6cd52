(** * Specification: CIE XYZ and CIELAB over the reals *)
From Verif.Model Require Import Base.
From Verif.Spec Require Import PowS.
From Coq Require Import Reals.
Open Scope R_scope.

(** XYZ of linear RGB (Y of white is 1): the published matrix for sRGB primaries and D65 *)
Definition real_xyz (r g b : R) : R * R * R :=
  (0.4124564 * r + 0.3575761 * g + 0.1804375 * b,
   0.2126729 * r + 0.7151522 * g + 0.0721750 * b,
   0.0193339 * r + 0.1191920 * g + 0.9503041 * b).

(** the CIELAB curve *)
Definition lab_curve (t : R) : R :=
  if Rlt_dec ((6 / 29) ^ 3) t then Rpower t (/ 3) else t / (3 * (6 / 29) ^ 2) + 4 / 29.

(** L*, a*, b* for the white point (xn, 1, zn) *)
Definition real_lab (xn zn : R) (xyz : R * R * R) : R * R * R :=
  let '(x, y, z) := xyz in
  let fx := lab_curve (x / xn) in let fy := lab_curve y in let fz := lab_curve (z / zn) in
  (116 * fy - 16, 500 * (fx - fy), 200 * (fy - fz)).

(** white points *)
Definition d50 : R * R := (0.964212, 0.825188).
Definition d65 : R * R := (0.950489, 1.08884).

(** from sRGB bytes *)
Definition byte_xyz (r g b : Z) : R * R * R := real_xyz (linear_light r) (linear_light g) (linear_light b).
Definition byte_lab (white : R * R) (r g b : Z) : R * R * R := real_lab (fst white) (snd white) (byte_xyz r g b).

(** the sRGB standard's linear light of a byte *)
Definition standard_light (v : Z) : R :=
  if (v <=? 10)%Z then IZR v / 255 / 12.92 else Rpower ((IZR v / 255 + 0.055) / 1.055) 2.4.
