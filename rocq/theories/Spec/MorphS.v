(** * Specification vocabulary for binary images and square windows *)
From Verif.Model Require Import Base Image.
From Verif.Spec Require Import ImageS SumS.
Open Scope Z_scope.

Definition sample_at (img : image Z) (x y c : Z) : Z := nth (Z.to_nat c) (pixel_at img x y) 0.

(** one channel, no alpha, every sample 0 or 255 *)
Definition binary (img : image Z) : Prop :=
  alpha (info_of img) = false /\ channels (info_of img) = 1 /\ samples (fun s => s = 0 \/ s = 255) img.
Definition white (img : image Z) (x y : Z) : Prop := inside img x y /\ pixel_at img x y = [255].

(** Chebyshev distance at most r *)
Definition near (r x y x' y' : Z) : Prop := Z.abs (x' - x) <= r /\ Z.abs (y' - y) <= r.
Definition eroded (img : image Z) (r x y : Z) : Prop := forall x' y', near r x y x' y' -> white img x' y'.
Definition dilated (img : image Z) (r x y : Z) : Prop := exists x' y', near r x y x' y' /\ white img x' y'.

(** number of white pixels within distance r *)
Definition white_count (img : image Z) (r x y : Z) : Z :=
  rect_sum (fun i j => if (0 <=? i) && (i <? width (info_of img)) && (0 <=? j) && (j <? height (info_of img))
                       then sample_at img i j 0 / 255 else 0) (x - r) (y - r) (x + r) (y + r).

(** exactness: in every channel twice the sum of all samples is at most 2^24 *)
Definition small_sums (img : image Z) : Prop := forall c, 0 <= c < channels (info_of img) ->
  2 * rect_sum (fun x y => sample_at img x y c) 0 0 (width (info_of img) - 1) (height (info_of img) - 1) <= 2 ^ 24.

(** what the code really looks at: on a side where the full radius does not fit, the window
    stops at the pixel itself instead of at the border *)
Definition reach (w r x x' : Z) : Prop :=
  (if r <=? x then x - r else x) <= x' <= (if x <? w - r then x + r else x).
Definition dilated_actual (img : image Z) (r x y : Z) : Prop :=
  exists x' y', reach (width (info_of img)) r x x' /\ reach (height (info_of img)) r y y' /\ white img x' y'.
