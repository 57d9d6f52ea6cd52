(** * Specification: 8-bit HSV *)
From Coq Require Import ZArith List.
Import ListNotations.
Open Scope Z_scope.

Definition max3 (r g b : Z) : Z := Z.max (Z.max r g) b.
Definition min3 (r g b : Z) : Z := Z.min (Z.min r g) b.

Definition hsv_value (r g b : Z) : Z := max3 r g b.
(** 255 * (max - min) / max rounded down; 0 for black *)
Definition hsv_saturation (r g b : Z) : Z :=
  if max3 r g b =? 0 then 0 else 255 * (max3 r g b - min3 r g b) / max3 r g b.
(** the position on the colour circle, in steps of 1/255 of the circle; each sixth is 43 steps
    from its main colour; fractions of a step are dropped towards the main colour *)
Definition hsv_hue (r g b : Z) : Z :=
  let d := max3 r g b - min3 r g b in
  if d =? 0 then 0 else
  let h := if max3 r g b =? r then Z.quot (43 * (g - b)) d
           else if max3 r g b =? g then 85 + Z.quot (43 * (b - r)) d
           else 170 + Z.quot (43 * (r - g)) d in
  if h <? 0 then h + 255 else h.
Definition hsv_of (px : list Z) : list Z :=
  match px with [r; g; b] => [hsv_hue r g b; hsv_saturation r g b; hsv_value r g b] | _ => [] end.

(** the way back: v * (255 - x) / 255 *)
Definition level (v x : Z) : Z := v * (255 - x) / 255.
Definition rgb_of (px : list Z) : list Z :=
  match px with
  | [h; s; v] =>
      let sector := h / 43 in
      let f := 6 * (h mod 43) in
      let p := level v s in
      let q := level v (s * f / 255) in
      let t := level v (s * (255 - f) / 255) in
      if s =? 0 then [v; v; v] else
      match sector with
      | 0 => [v; t; p] | 1 => [q; v; p] | 2 => [p; v; t] | 3 => [p; q; v] | 4 => [t; p; v] | _ => [v; p; q]
      end
  | _ => []
  end.
