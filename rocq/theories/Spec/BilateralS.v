(** * Specification: the bilateral filter *)
From Verif.Model Require Import Base Float Image.
From Verif.Spec Require Import ImageS FilterS.
Open Scope Z_scope.
Notation F32 := f32_of_Z.

(** 1/(2 pi s^2) * e^(-x^2/(2 s^2)), each operation rounded to f32 *)
Definition gauss (lm : libm) (s x : f32) : f32 :=
  f32_mul (f32_div (F32 1) (f32_mul (f32_mul (F32 2) f32_pi) (f32_mul s s)))
          (powf lm f32_e (f32_div (f32_neg (f32_mul x x)) (f32_mul (F32 2) (f32_mul s s)))).
(** Euclidean length of (dx, dy), each operation rounded to f32 *)
Definition length2 (dx dy : Z) : f32 :=
  f32_sqrt (f32_add (f32_mul (F32 dx) (F32 dx)) (f32_mul (F32 dy) (F32 dy))).

(** side of the window *)
Definition window (spatial : f32) : Z := f32_to_int U32 (f32_add (f32_mul spatial (F32 4)) (F32 1)).
(** the positions of a window of (odd) side n relative to its centre, in reading order *)
Definition offsets (n : Z) : list (Z * Z) :=
  flat_map (fun dy => map (fun dx => (dx, dy)) (zrange (- (n / 2)) (n / 2 + 1))) (zrange (- (n / 2)) (n / 2 + 1)).

(** weight of a neighbour: Gaussian of its distance times Gaussian of the difference of the values;
    the pixel itself has weight 0 * (its range weight) *)
Definition closeness (lm : libm) (spatial : f32) (dx dy : Z) : f32 :=
  if (dx =? 0) && (dy =? 0) then f32_0 else gauss lm spatial (length2 dx dy).
Definition bweight (lm : libm) (range spatial : f32) (dx dy : Z) (v0 v : f32) : f32 :=
  f32_mul (closeness lm spatial dx dy) (gauss lm range (f32_abs (f32_sub v0 v))).

Definition neighbour (img : image f32) (x y c dx dy : Z) : f32 :=
  value img (padded (width (info_of img)) x dx) (padded (height (info_of img)) y dy) c.
(** the weighted mean of the window, sums in reading order *)
Definition bilateral_mean (lm : libm) (range spatial : f32) (img : image f32) (x y c : Z) : f32 :=
  let wv := map (fun '(dx, dy) => let v := neighbour img x y c dx dy in
                    (bweight lm range spatial dx dy (value img x y c) v, v)) (offsets (window spatial)) in
  f32_div (weighted_sum wv) (fold_left f32_add (map fst wv) f32_0).
