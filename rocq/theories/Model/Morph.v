(** * src/morphology.rs *)
From Verif.Model Require Export Util.
Open Scope Z_scope.

Section Morph.
  Context (p : profile).

  (** morphology.rs:20-36 (repeated verbatim at 58-74, 96-112, 146-162): the window of (x,y).
      Result: (x_top, y_top, x_bot, y_bot). *)
  Definition window (width height radius x y : Z) : outcome (Z * Z * Z * Z) :=
    let! x_top := if radius <=? x then isub p U32 x radius else Ret x in
    let! wr := isub p U32 width radius in
    let! x_bot := if x <? wr then iadd p U32 x radius else Ret x in
    let! y_top := if radius <=? y then isub p U32 y radius else Ret y in
    let! hr := isub p U32 height radius in
    let! y_bot := if y <? hr then iadd p U32 y radius else Ret y in
    Ret (x_top, y_top, x_bot, y_bot).

  (** the loop common to the four functions (morphology.rs:15-44, 53-82, 91-120, 141-174):
      every pixel whose window sum satisfies [q] is set to [255] in a blank image *)
  Definition morph_scan (q : f32 -> bool) (input : image Z) (radius : Z) : outcome (image Z) :=
    let w := width (info_of input) in
    let h := height (info_of input) in
    let! f := from_u8_f32 p input in
    let! table := generate_summed_area_table p f in
    let! output := blank p num_u8 (info_of input) in
    mfold (fun output y => mfold (fun output x =>
        let! '(x0, y0, x1, y1) := window w h radius x y in
        let! sums := rectangular_intensity_sum p table x0 y0 x1 y1 in
        let! s := vget sums 0 in
        if q s then set_pixel p output x y [255] else Ret output) (zrange 0 w) output) (zrange 0 h) output.

  (** morphology.rs:13-14, 139-140: `(size * size * 255) as f32` with size = 2 * radius + 1 in u32 *)
  Definition max_sum (radius : Z) : outcome f32 :=
    let! r2 := imul p U32 2 radius in
    let! size := iadd p U32 r2 1 in
    let! s2 := imul p U32 size size in
    let! m := imul p U32 s2 255 in
    Ret (f32_of_Z m).

  (** morphology.rs:38, 165 *)
  Definition erodes (m s : f32) : bool := f32_ltb (f32_abs (f32_sub s m)) f32_epsilon.
  (** morphology.rs:76, 114, 166 *)
  Definition dilates (s : f32) : bool := f32_geb s (f32_of_Z 255).

  (** morphology.rs:9-45 *)
  Definition erode (input : image Z) (radius : Z) : outcome (image Z) :=
    check_grayscale input ;!
    let! m := max_sum radius in
    morph_scan (erodes m) input radius.

  (** morphology.rs:49-83 *)
  Definition dilate (input : image Z) (radius : Z) : outcome (image Z) :=
    check_grayscale input ;!
    morph_scan dilates input radius.

  (** morphology.rs:87-121 *)
  Definition majority (input : image Z) (radius : Z) : outcome (image Z) :=
    check_grayscale input ;!
    morph_scan dilates input radius.

  (** morphology.rs:124-126 *)
  Definition morph_open (input : image Z) (radius : Z) : outcome (image Z) :=
    let! e := erode input radius in dilate e radius.

  (** morphology.rs:129-131 *)
  Definition morph_close (input : image Z) (radius : Z) : outcome (image Z) :=
    let! d := dilate input radius in erode d radius.

  (** morphology.rs:135-175 *)
  Definition gradient (input : image Z) (radius : Z) : outcome (image Z) :=
    check_grayscale input ;!
    let! m := max_sum radius in
    morph_scan (fun s => xorb (erodes m s) (dilates s)) input radius.
End Morph.
