(** * Specification vocabulary: the real value of a float *)
From Coq Require Export Reals.
From Verif.Model Require Import Base Float.
From Flocq Require Import Core BinarySingleNaN.
Open Scope Z_scope.

(** [fin x r]: x is finite and its real value is r. *)
Definition fin {prec emax} (x : binary_float prec emax) (r : R) : Prop :=
  is_finite x = true /\ B2R x = r.
(** x is the integer z *)
Definition isZ {prec emax} (x : binary_float prec emax) (z : Z) : Prop := fin x (IZR z).
(** rounding to nearest, ties to even, in a format without upper limit on the exponent; in binary32 *)
Definition rnd {prec emax : Z} (r : R) : R := round radix2 (SpecFloat.fexp prec emax) ZnearestE r.
Definition rnd32 : R -> R := @rnd 24 128.
