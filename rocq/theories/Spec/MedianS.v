(** * Specification: order statistics of a window *)
From Verif.Model Require Import Base Image.
From Verif.Spec Require Import ImageS SumS.
Open Scope Z_scope.

(** sample [c] at column x, row y; coordinates outside the image are moved to its nearest edge *)
Definition clamp_to (bound x : Z) : Z := Z.max 0 (Z.min (bound - 1) x).
Definition clamped (img : image Z) (c x y : Z) : Z :=
  nth (Z.to_nat c) (pixel_at img (clamp_to (width (info_of img)) x) (clamp_to (height (info_of img)) y)) 0.

(** how many of the (2r+1)^2 samples of v around (x, y) pass the test *)
Definition window_count (test : Z -> bool) (v : Z -> Z -> Z) (r x y : Z) : Z :=
  rect_sum (fun i j => if test (v i j) then 1 else 0) (x - r) (y - r) (x + r) (y + r).

(** half of the window, rounded up: the rank of the median *)
Definition median_rank (r : Z) : Z := ((2 * r + 1) * (2 * r + 1) + 1) / 2.

(** m is the median of the window: fewer than half of the samples are below m, and at least half
    are at most m *)
Definition is_median (v : Z -> Z -> Z) (r x y m : Z) : Prop :=
  window_count (fun s => s <? m) v r x y < median_rank r <= window_count (fun s => s <=? m) v r x y.

(** The image is processed in blocks of n columns; the last block may stick out of the image, and
    what is computed for its columns outside is written into the last column of the image, one
    after the other.  So the last column shows the value of the last column of the last block. *)
Definition shown_column (w n x : Z) : Z := if x =? w - 1 then (w - 1) / n * n + (n - 1) else x.
