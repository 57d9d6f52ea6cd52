(** * Specification: from XYZ and CIELAB back to 8-bit sRGB, over the reals *)
From Verif.Model Require Import Base Float.
From Verif.Spec Require Import FloatS PowS LabS.
From Coq Require Import Reals.
From Flocq Require Import Core.
Open Scope R_scope.

(** linear RGB of XYZ (Y of white is 1): the published inverse matrix for sRGB primaries and D65 *)
Definition xyz_light (xyz : R * R * R) : R * R * R :=
  let '(x, y, z) := xyz in
  (3.2404542 * x - 1.5371385 * y - 0.4985314 * z,
   - 0.9692660 * x + 1.8760108 * y + 0.0415560 * z,
   0.0556434 * x - 0.2040259 * y + 1.0572252 * z).

(** the inverse of the CIELAB curve *)
Definition lab_uncurve (n : R) : R := if Rlt_dec (6 / 29) n then n ^ 3 else 3 * (6 / 29) ^ 2 * (n - 4 / 29).

(** XYZ of L*, a*, b* for the white point (xn, 1, zn) *)
Definition lab_xyz (white : R * R) (lab : R * R * R) : R * R * R :=
  let '(l, a, b) := lab in let n := (l + 16) / 116 in
  (fst white * lab_uncurve (n + a / 500), lab_uncurve n, snd white * lab_uncurve (n - b / 200)).
Definition lab_light (white : R * R) (lab : R * R * R) : R * R * R := xyz_light (lab_xyz white lab).

(** the transfer curve, with the gamma 2.2 of the source, scaled to 0..255 *)
Definition encode (x : R) : R := if Rle_dec x 0.0031308 then 3294.6 * x else 269.025 * Rpower x (/ 2.2) - 14.025.

(** the byte v shows the linear light x, known up to e: it is the encoded value of a light within e of x, computed to
    within 1/256, cut off to an integer from 0 to 255 *)
Definition shows (e : R) (v : Z) (x : R) : Prop :=
  exists x' q, Rabs (x' - x) <= e /\ Rabs (q - encode x') <= / 256 /\ v = Z.max 0 (Z.min 255 (Zfloor q)).
Definition shows3 (e : R) (v : list Z) (x : R * R * R) : Prop :=
  exists r g b, v = [r; g; b] /\ shows e r (fst (fst x)) /\ shows e g (snd (fst x)) /\ shows e b (snd x).

(** colours that are not too far outside those of 8-bit images: all three CIELAB coordinates (L*+16)/116, (L*+16)/116 + a*/500
    and (L*+16)/116 - b*/200 lie between -1 and 1.98 (0.13 .. 1.1 for 8-bit images) *)
Definition moderate (lab : R * R * R) : Prop :=
  let '(l, a, b) := lab in let n := (l + 16) / 116 in
  -1 <= n <= 1.98 /\ -1 <= n + a / 500 <= 1.98 /\ -1 <= n - b / 200 <= 1.98.

(** like [pow_ok], for bases up to 32 *)
Definition pow_wide (pow : f32 -> f32 -> f32) : Prop :=
  forall (x y : f32) (r s : R), fin x r -> fin y s -> / 1024 <= r <= 32 -> 0 < s <= 3 ->
    exists q, fin (pow x y) q /\ Rabs (q - Rpower r s) <= Rpower r s / 1048576.
