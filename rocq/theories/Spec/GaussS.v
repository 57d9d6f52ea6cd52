(** * Specification: the Gaussian, its Laplacian, and libraries that compute powers well *)
From Verif.Model Require Import Base Float.
From Verif.Spec Require Import FloatS.
From Coq Require Import Reals.
From Flocq Require Import BinarySingleNaN.
Open Scope R_scope.

(** the two-dimensional Gaussian at squared distance d2, and its Laplacian *)
Definition gauss (sigma d2 : R) : R := exp (- (d2 / (2 * sigma ^ 2))) / (2 * PI * sigma ^ 2).
Definition laplace_gauss (sigma d2 : R) : R :=
  - / (PI * sigma ^ 4) * (1 - d2 / (2 * sigma ^ 2)) * exp (- (d2 / (2 * sigma ^ 2))).
(** the formula with the other sign in the middle factor *)
Definition laplace_gauss_minus (sigma d2 : R) : R :=
  - / (PI * sigma ^ 4) * (1 + d2 / (2 * sigma ^ 2)) * exp (- (d2 / (2 * sigma ^ 2))).

(** relative error of at most 2^-20 for bases 2..3 with exponents -64..0, and for fourth powers of bases 1/256..256
    (libm implementations achieve about 2^-24) *)
Definition gauss_pow_ok (pow : f32 -> f32 -> f32) : Prop :=
  forall (x y : f32) (r s : R), fin x r -> fin y s ->
    (2 <= r <= 3 /\ -64 <= s <= 0) \/ (/ 256 <= r <= 256 /\ s = 4) ->
    exists q, fin (pow x y) q /\ Rabs (q - Rpower r s) <= Rpower r s / 1048576.

(** X is finite, and within 1/15000 of x, relatively *)
Definition close (X : f32) (x : R) : Prop := exists r, fin X r /\ Rabs (r - x) <= Rabs x / 15000.
