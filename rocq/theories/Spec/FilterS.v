(** * Specification: linear filters *)
From Coq Require Import Permutation.
From Verif.Model Require Import Base Float Image Filter.
From Verif.Spec Require Import ImageS.
Open Scope Z_scope.

(** the coordinate read for a tap at distance d from c; outside the image: c itself (see C12) *)
Definition padded (bound c d : Z) : Z :=
  if (0 <=? c + d) && (c + d <? bound) then c + d else c.

(** sample c of the pixel at (x, y) *)
Definition value (img : image f32) (x y c : Z) : f32 := nth (Z.to_nat c) (pixel_at img x y) f32_0.

(** a tap: weight, horizontal and vertical distance *)
Definition tap : Type := f32 * Z * Z.

(** k1*v1 + k2*v2 + ... in f32, from left to right, starting with 0 *)
Definition weighted_sum (kvs : list (f32 * f32)) : f32 :=
  fold_left (fun acc kv => f32_add acc (f32_mul (fst kv) (snd kv))) kvs f32_0.

(** what a filter with these taps gives for sample c of pixel (x, y) *)
Definition correlation (taps : list tap) (img : image f32) (x y c : Z) : f32 :=
  weighted_sum (map (fun '(k, dx, dy) =>
    (k, value img (padded (width (info_of img)) x dx) (padded (height (info_of img)) y dy) c)) taps).

(** [out] is [img] filtered with [taps], channel by channel *)
Definition correlates (taps : list tap) (img out : image f32) : Prop :=
  info_of out = info_of img /\ wf out /\
  forall x y c, inside img x y -> 0 <= c < channels (info_of img) ->
    value out x y c = correlation taps img x y c.

Definition weight (k : list f32) (i : Z) : f32 := nth (Z.to_nat i) k f32_0.

(** the kernel as a column, as a row, and as a square of side s (row-major), around the centre *)
Definition column (k : list f32) : list tap :=
  map (fun i => (weight k i, 0, i - len k / 2)) (zrange 0 (len k)).
Definition row (k : list f32) : list tap :=
  map (fun i => (weight k i, i - len k / 2, 0)) (zrange 0 (len k)).
Definition square (s : Z) (k : list f32) : list tap :=
  map (fun i => (weight k i, i mod s - s / 2, i / s - s / 2)) (zrange 0 (s * s)).

(** the orders chosen by the runtime are orders of the tasks, one per pixel *)
Definition scheduled (b : build) (inf : info) : Prop :=
  match b with Seq => True | Par sched => forall n, Permutation (sched n) (zrange 0 (width inf * height inf)) end.
(** image sides that i32 arithmetic can handle *)
Definition small (inf : info) : Prop := width inf <= 2 ^ 30 /\ height inf <= 2 ^ 30.
