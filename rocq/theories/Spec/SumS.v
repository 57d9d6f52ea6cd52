(** * Specification vocabulary: finite sums, integer-valued float images *)
From Verif.Model Require Import Base Float Image.
From Verif.Spec Require Import ImageS.
From Coq Require Import Reals.
Open Scope Z_scope.

(** f a + f (a+1) + ... + f (b-1) *)
Definition Zsum (f : Z -> Z) (a b : Z) : Z := fold_right Z.add 0 (map f (zrange a b)).

(** sum of v over the closed rectangle [x0,x1] x [y0,y1] *)
Definition rect_sum (v : Z -> Z -> Z) (x0 y0 x1 y1 : Z) : Z :=
  Zsum (fun y => Zsum (fun x => v x y) x0 (x1 + 1)) y0 (y1 + 1).

(** the float x is finite and its value is exactly the integer z *)
Definition holds {prec emax} (x : binary_float prec emax) (z : Z) : Prop :=
  is_finite x = true /\ B2R x = IZR z.

(** the samples of a float image are exactly the integers v x y c *)
Definition int_image (img : image f32) (v : Z -> Z -> Z -> Z) : Prop :=
  forall x y c, inside img x y -> 0 <= c < channels (info_of img) ->
    exists s, nth_error (pixel_at img x y) (Z.to_nat c) = Some s /\ holds s (v x y c).

(** sum of the absolute values of channel c over the whole image *)
Definition total (img : image f32) (v : Z -> Z -> Z -> Z) (c : Z) : Z :=
  rect_sum (fun x y => Z.abs (v x y c)) 0 0 (width (info_of img) - 1) (height (info_of img) - 1).
