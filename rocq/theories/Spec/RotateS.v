(** * Specification: rotating the plane *)
From Verif.Model Require Import Base.
From Coq Require Import Reals List.
Import ListNotations.
Open Scope R_scope.

(** the vector (a, b), a to the right and b upwards, rotated by the angle with cosine c and sine s *)
Definition rot_x (c s a b : R) : R := c * a - s * b.
Definition rot_y (c s a b : R) : R := s * a + c * b.

(** the corners of a w x h image as seen from the upper left corner of its centre pixel (w/2, h/2) *)
Definition corners (w h : Z) : list (R * R) :=
  [(- IZR (w / 2), IZR (h / 2)); (IZR (w - w / 2), IZR (h / 2));
   (- IZR (w / 2), - IZR (h - h / 2)); (IZR (w - w / 2), - IZR (h - h / 2))].

(** M is the largest value of f on the list *)
Definition greatest {A} (f : A -> R) (l : list A) (M : R) : Prop :=
  (exists a, In a l /\ M = f a) /\ forall a, In a l -> f a <= M.

(** Output pixel (X, Y) is where the w x h image's pixel (i, j) goes: its offset from the centre pixel is rotated, the
    rightmost rotated corner (at R0) ends up in the last column, the topmost (at T0) in the row above the first, the
    position is truncated towards zero (so negative ones become 0), X may be one less (a pixel is written twice), and
    rounding errors are at most e. *)
Definition lands (c s R0 T0 : R) (w h : Z) (e : R) (i j X Y : Z) : Prop :=
  let col := R0 + rot_x c s (IZR (i - w / 2)) (IZR (h / 2 - j)) - 1 in
  let row := T0 - rot_y c s (IZR (i - w / 2)) (IZR (h / 2 - j)) - 1 in
  col - e - 2 < IZR X <= Rmax 0 (col + e) /\ row - e - 1 < IZR Y <= Rmax 0 (row + e).
