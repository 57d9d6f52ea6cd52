(** * Specification: linear filters over the reals *)
From Verif.Model Require Import Base Float Image Filter.
From Verif.Spec Require Import ImageS FloatS FilterS BsplineS.
From Coq Require Import Reals.
Open Scope R_scope.

(** every sample of the image is finite, with real value v x y c *)
Definition real_image (img : image f32) (v : Z -> Z -> Z -> R) : Prop :=
  forall x y c : Z, inside img x y -> (0 <= c < channels (info_of img))%Z -> fin (value img x y c) (v x y c).

(** the real correlation: sum of weight * sample over the taps (coordinates outside the image: the
    centre, as in [correlation]) *)
Definition real_correlation (taps : list (R * Z * Z)) (inf : info) (v : Z -> Z -> Z -> R) (x y c : Z) : R :=
  sum_over taps (fun '(k, dx, dy) => k * v (padded (width inf) x dx) (padded (height inf) y dy) c).

(** the real kernel of a list of float taps *)
Definition reads (t : tap) (r : R * Z * Z) : Prop :=
  fin (fst (fst t)) (fst (fst r)) /\ snd (fst t) = snd (fst r) /\ snd t = snd r.

(** sum of the samples in the square window of side 2h+1 around (x, y) *)
Definition window_sum (h : Z) (inf : info) (v : Z -> Z -> Z -> R) (x y c : Z) : R :=
  sum_over (zrange (- h) (h + 1)) (fun dy => sum_over (zrange (- h) (h + 1)) (fun dx =>
    v (padded (width inf) x dx) (padded (height inf) y dy) c)).
