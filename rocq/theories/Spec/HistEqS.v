(** * Specification: histogram equalization of the lightness, over the reals *)
From Verif.Model Require Import Base Image.
From Verif.Spec Require Import ImageS HistS LabS.
From Coq Require Import Reals.
Open Scope Z_scope.

(** the colours (first three samples) of all pixels, row by row *)
Definition colours_of (img : image Z) : list (list Z) :=
  flat_map (fun y => map (fun x => firstn 3 (pixel_at img x y)) (zrange 0 (width (info_of img)))) (zrange 0 (height (info_of img))).

(** the lightness of an 8-bit colour *)
Definition lightness (white : R * R) (cs : list Z) : R :=
  match cs with r :: g :: b :: _ => fst (fst (byte_lab white r g b)) | _ => 0%R end.

(** the share that the code uses for a colour when [bin] sorts colours into bins: the number of pixels in bins up to the one
    of the colour, plus the number of different bins up to that one, by the number of pixels *)
Definition share (bin : list Z -> Z) (img : image Z) (cs : list Z) : R :=
  let bs := map bin (colours_of img) in
  (IZR (count_le bs (bin cs) + bins_le bs (bin cs)) / IZR (len bs))%R.

(** the lightness aimed at *)
Definition aim (al : R) (white : R * R) (bin : list Z -> Z) (img : image Z) (cs : list Z) : R :=
  (al * 100 * share bin img cs + (1 - al) * lightness white cs)%R.

(** [bin] sorts by lightness: the number of the bin is the lightness times the precision, rounded, up to an error; and it never
    puts a clearly lighter colour into a lower bin *)
Definition sorts (bin : list Z -> Z) (white : R * R) (precision : R) : Prop :=
  forall r g b, 0 <= r <= 255 -> 0 <= g <= 255 -> 0 <= b <= 255 ->
    (Rabs (IZR (bin [r; g; b]) - precision * lightness white [r; g; b]) <= 0.501 + 0.0064 * precision)%R
    /\ forall r' g' b', 0 <= r' <= 255 -> 0 <= g' <= 255 -> 0 <= b' <= 255 ->
       (lightness white [r; g; b] + 0.0126 <= lightness white [r'; g'; b'])%R -> bin [r; g; b] <= bin [r'; g'; b'].
