(** * Specification: the real power function, and libraries that compute it well *)
From Verif.Model Require Import Base Float.
From Verif.Spec Require Import FloatS.
From Coq Require Import Reals.
Open Scope R_scope.

(** On bases from 1/1024 to 2 and exponents up to 3 the power function is finite and has a
    relative error of at most 2^-20 (libm implementations achieve about 2^-24). *)
Definition pow_ok (pow : f32 -> f32 -> f32) : Prop :=
  forall (x y : f32) (r s : R), fin x r -> fin y s -> / 1024 <= r <= 2 -> 0 < s <= 3 ->
    exists q, fin (pow x y) q /\ Rabs (q - Rpower r s) <= Rpower r s / 1048576.

(** the linear light value of an sRGB byte, with the gamma 2.2 of the source *)
Definition linear_light (v : Z) : R :=
  if (v <=? 10)%Z then IZR v / 3294 else Rpower ((IZR v + 14.025) / 269.025) 2.2.

(** the power function is correctly rounded on the same range *)
Definition correctly_rounded (pow : f32 -> f32 -> f32) : Prop :=
  forall (x y : f32) (r s : R), fin x r -> fin y s -> / 1024 <= r <= 2 -> 0 < s <= 3 ->
    fin (pow x y) (rnd32 (Rpower r s)).
