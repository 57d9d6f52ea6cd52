(** * Specification of bicubic and Lanczos resampling

    The formulas in f32 (notation of ConvS.v): every output sample is the weighted sum of the
    input samples in a square window around the source position, coordinates outside the image
    being replaced by the nearest ones inside. *)
From Verif.Model Require Import Base Float Image.
From Verif.Spec Require Import ImageS ConvS.
Open Scope Z_scope.

(** the part of a position after the decimal point *)
Definition frac (t : f32) : f32 := (t - f32_floor t)%F.

(** the coordinate read for window offset k around the position [pos]: the integer part of
    pos + k (Rust's saturating `as u32`), limited to the image *)
Definition tap (bound : Z) (pos : f32) (k : Z) : Z := Z.min (bound - 1) (f32_to_int U32 (pos + #k)%F).

(** the sum over all pairs of window offsets, column offset outermost, accumulated left to right *)
Definition window_sum (win : list Z) (term : Z -> Z -> f32) : f32 :=
  fold_left (fun acc mn => (acc + term (fst mn) (snd mn))%F) (list_prod win win) f32_0.

(** the resampled pixel at output position (x, y): [win] are the window offsets, [wx], [wy] the
    weights of a column and a row offset given the fractional part of the position *)
Definition resampled (img : image f32) (xf yf : f32) (win : list Z) (wx wy : f32 -> Z -> f32) (x y : Z) : list f32 :=
  let px := (#x / xf)%F in
  let py := (#y / yf)%F in
  map (fun c => window_sum win (fun m n =>
      (nth (Z.to_nat c) (pixel_at img (tap (width (info_of img)) px m) (tap (height (info_of img)) py n)) f32_0
       * (wx (frac px) m * wy (frac py) n))%F))
    (zrange 0 (channels (info_of img))).

(** ** the kernels *)
Section Kernels.
  Context (pow : f32 -> f32 -> f32) (sin : f32 -> f32).
  Open Scope f32_scope.

  (** the cubic B-spline, written with the positive parts of x+2, x+1, x and x-1 *)
  Definition plus_cubed (t : f32) : f32 := pow (if f32_leb t #0 then #0 else t) #3.
  Definition b_spline (x : f32) : f32 :=
    #1 / #6 * (plus_cubed (x + #2) - #4 * plus_cubed (x + #1) + #6 * plus_cubed x - #4 * plus_cubed (x - #1)).

  (** sin(pi x) / (pi x), and the windowed sinc *)
  Definition sinc (x : f32) : f32 := if f32_eqb x #0 then #1 else sin (f32_pi * x) / (f32_pi * x).
  Definition lanczos (a x : f32) : f32 :=
    if f32_ltb (f32_neg a) x && f32_ltb x a then sinc x * sinc (x / a) else #0.
End Kernels.

(** size of the scaled image *)
Definition scaled (inf : info) (xf yf : f32) : info :=
  Info (f32_to_int U32 (f32_round (#(width inf) * xf)%F)) (f32_to_int U32 (f32_round (#(height inf) * yf)%F))
       (channels inf) (alpha inf).
