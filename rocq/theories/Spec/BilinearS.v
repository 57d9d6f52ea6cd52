(** * Specification: mixing four neighbours *)
From Coq Require Import Reals.
Open Scope R_scope.

(** weight t for a, the rest for b *)
Definition blend (t a b : R) : R := t * a + (1 - t) * b.

(** the textbook: at distance dx to the right of the left neighbours and dy below the upper ones *)
Definition bilinear (ul ur ll lr dx dy : R) : R := blend (1 - dy) (blend (1 - dx) ul ur) (blend (1 - dx) ll lr).

(** the same with both weights taken the wrong way round *)
Definition bilinear_swapped (ul ur ll lr dx dy : R) : R := bilinear ul ur ll lr (1 - dx) (1 - dy).
