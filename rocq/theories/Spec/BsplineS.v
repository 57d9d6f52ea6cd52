(** * Specification: cubic B-spline smoothing over the reals *)
From Verif.Model Require Import Base Float Image.
From Verif.Spec Require Import ImageS FloatS.
From Coq Require Import Reals.
Open Scope R_scope.

(** the cubic B-spline *)
Definition bspline (x : R) : R :=
  let a := Rabs x in
  if Rle_dec a 1 then 2 / 3 - a ^ 2 + a ^ 3 / 2
  else if Rle_dec a 2 then (2 - a) ^ 3 / 6
  else 0.

(** sum of a function over a list *)
Definition sum_over {A} (l : list A) (f : A -> R) : R := fold_right (fun a s => f a + s) 0 l.

(** the power function computes third powers of 0..5 to within 2^-16 (an ulp of 125 is 2^-17) *)
Definition cubes_ok (pow : f32 -> f32 -> f32) : Prop :=
  forall (t : f32) (r : R), fin t r -> 0 <= r <= 5 ->
    exists q, fin (pow t (f32_of_Z 3)) q /\ Rabs (q - r ^ 3) <= / 65536.
