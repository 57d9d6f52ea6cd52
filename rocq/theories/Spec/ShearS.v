(** * Specification: shearing along one axis by a real factor *)
From Coq Require Import Reals ZArith.
From Flocq Require Import Core.
Open Scope R_scope.

(** Along an axis of n pixels, the other one having m: pixel x of line y moves by -a*y, and the image is then moved
    forward by a*m if a > 0, so that no position is negative. *)
Definition shear_pos (a : R) (m x y : Z) : R := IZR x - a * IZR y + Rmax a 0 * IZR m.
(** the size of the sheared image along that axis *)
Definition sheared_size (a : R) (n m : Z) : Z := (n + Zfloor (Rabs a * IZR m))%Z.
(** X is the position rounded down, up to an error of e *)
Definition falls_on (pos e : R) (X : Z) : Prop := pos - e - 1 < IZR X <= pos + e.
(** pixel (x, y) of a w x h image is found at (X, Y) *)
Definition sheared_to (a b : R) (w h : Z) (e : R) (x y X Y : Z) : Prop :=
  falls_on (shear_pos a h x y) e X /\ falls_on (shear_pos b w y x) e Y.
(** the growth of the image is not just below an integer *)
Definition room (a : R) (m : Z) (e : R) : Prop := Rabs a * IZR m + e < IZR (Zfloor (Rabs a * IZR m)) + 1.
