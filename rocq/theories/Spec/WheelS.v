(** * Specification: the HSV colour wheel in real numbers *)
From Coq Require Import Reals.
From Verif.Model Require Import Base.
Open Scope R_scope.

(** the colour wheel: share of red, green and blue at angle t, in sixths of a turn
    (0 red, 1 yellow, 2 green, 3 cyan, 4 blue, 5 magenta) *)
Definition wR (t : R) : R := Rmin 1 (Rmax 0 (Rabs (t - 3) - 1)).
Definition wG (t : R) : R := Rmin 1 (Rmax 0 (2 - Rabs (t - 2))).
Definition wB (t : R) : R := Rmin 1 (Rmax 0 (2 - Rabs (t - 4))).

(** the colour with maximum M, spread n = max - min and angle x is (r, g, b) *)
Definition shares (M n r g b : Z) (x : R) : Prop :=
  IZR M - IZR n * (1 - wR x) = IZR r /\ IZR M - IZR n * (1 - wG x) = IZR g /\ IZR M - IZR n * (1 - wB x) = IZR b.

(** every sample is unchanged or one smaller, the largest is unchanged *)
Definition close_below (cs cs' : list Z) : Prop := Forall2 (fun c c' => (c - 1 <= c' <= c)%Z) cs cs' /\ 
  fold_right Z.max 0%Z cs' = fold_right Z.max 0%Z cs.
