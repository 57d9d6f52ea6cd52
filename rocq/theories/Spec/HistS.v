(** * Specification of the histogram percentiles and of histogram equalization *)
From Verif.Model Require Import Base Float Image.
From Verif.Spec Require Import ImageS ConvS.
Open Scope Z_scope.

(** the bin of a sample: round(sample * precision) as i32 *)
Definition bin (precision s : f32) : Z := f32_to_int I32 (f32_round (f32_mul s precision)).
(** the bins of the first channel of all pixels, row by row *)
Definition pixel_bins (precision : f32) (img : image f32) : list Z :=
  flat_map (fun y => map (fun x => bin precision (nth 0 (pixel_at img x y) f32_0)) (zrange 0 (width (info_of img))))
           (zrange 0 (height (info_of img))).
(** number of pixels in bins <= k; number of distinct non-empty bins <= k *)
Definition count_le (bins : list Z) (k : Z) : Z := len (filter (fun b => b <=? k) bins).
Definition bins_le (bins : list Z) (k : Z) : Z := len (nodup Z.eq_dec (filter (fun b => b <=? k) bins)).


(** the bins of the lightness (L* in CIELAB) of all pixels of an sRGB image, row by row; the colour
    of a pixel is its first three samples *)
Definition lightness_bins (pow : f32 -> f32 -> f32) w (precision : f32) (img : image Z) : list Z :=
  flat_map (fun y => map (fun x => bin precision (nth 0 (srgb_to_lab pow w (firstn 3 (pixel_at img x y))) f32_0))
                         (zrange 0 (width (info_of img))))
           (zrange 0 (height (info_of img))).
(** equalized lightness: a blend of the "percentile" of the bin and of the old lightness; [bins] are
    the bins of all pixels. The percentile counts every distinct bin once too often. *)
Definition equalized (bins : list Z) (al precision l : f32) : f32 :=
  let k := bin precision l in
  (al * (#(count_le bins k + bins_le bins k) / #(len bins)) * #100 + (#1 - al) * l)%F.
