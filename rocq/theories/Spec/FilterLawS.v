(** * Specification: exact filters on integer images *)
From Verif.Model Require Import Base Float Image Filter.
From Verif.Spec Require Import ImageS SumS FilterS.
Open Scope Z_scope.

(** the list k is the square kernel with the integer weight K dx dy at distance (dx, dy) from the centre, |dx|, |dy| <= h *)
Definition int_kernel (h : Z) (k : list f32) (K : Z -> Z -> Z) : Prop :=
  len k = (2 * h + 1) * (2 * h + 1) /\
  forall dx dy, - h <= dx <= h -> - h <= dy <= h -> holds (weight k ((dy + h) * (2 * h + 1) + (dx + h))) (K dx dy).
(** the list k is the line of integer weights K d, |d| <= h *)
Definition int_line (h : Z) (k : list f32) (K : Z -> Z) : Prop :=
  len k = 2 * h + 1 /\ forall d, - h <= d <= h -> holds (weight k (d + h)) (K d).
(** sum of the absolute weights *)
Definition mass (h : Z) (K : Z -> Z -> Z) : Z := rect_sum (fun dx dy => Z.abs (K dx dy)) (- h) (- h) h h.
Definition mass_line (h : Z) (K : Z -> Z) : Z := Zsum (fun d => Z.abs (K d)) (- h) (h + 1).
(** the exact filtered value; outside the image the coordinate of the centre is used (C12) *)
Definition convolved (h : Z) (K : Z -> Z -> Z) (inf : info) (v : Z -> Z -> Z -> Z) (x y c : Z) : Z :=
  rect_sum (fun dx dy => K dx dy * v (padded (width inf) x dx) (padded (height inf) y dy) c) (- h) (- h) h h.
(** the samples of the image are integers of size at most m *)
Definition bounded_by (inf : info) (m : Z) (v : Z -> Z -> Z -> Z) : Prop :=
  forall x y c, 0 <= x < width inf -> 0 <= y < height inf -> 0 <= c < channels inf -> Z.abs (v x y c) <= m.
(** what the filters need: a well-formed image with sides i32 can handle, in any build *)
Definition filterable (b : build) (img : image f32) : Prop :=
  wf img /\ small (info_of img) /\ scheduled b (info_of img).
