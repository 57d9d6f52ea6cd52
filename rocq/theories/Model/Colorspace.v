(** * src/colorspace.rs *)
From Verif.Model Require Export Util Simd.
Open Scope Z_scope.

Section Colorspace.
  Context (p : profile).
  Notation F := f32_of_Z.

  (** colorspace.rs:28-37 *)
  Definition gray_norm_px (cs : list Z) : outcome (list Z) :=
    let! sum := mfold (fun sum c => iadd p I16 sum (cast I16 c)) cs 0 in
    let! m := idiv I16 sum (cast I16 (len cs)) in
    Ret [cast U8 m].
  (** colorspace.rs:28-37 *)
  Definition rgb_to_grayscale_norm (input : image Z) : outcome (image Z) :=
    map_pixels_if_alpha p gray_norm_px (fun a => Ret a) input.

  (** colorspace.rs:14-26; [simd]: the feature is enabled and AVX2 is detected *)
  Definition rgb_to_grayscale (simd : bool) (input : image Z) : outcome (image Z) :=
    if simd then avg_checked_256_u8 p input else rgb_to_grayscale_norm input.

  (** colorspace.rs:40-49 *)
  Definition gray_f32_px (cs : list f32) : outcome (list f32) :=
    let! sum := mfold (fun sum c => Ret (f32_add sum c)) cs f32_0 in
    Ret [f32_div sum (F (len cs))].
  (** colorspace.rs:40-49 *)
  Definition rgb_to_grayscale_f32 (input : image f32) : outcome (image f32) :=
    map_pixels_if_alpha p gray_f32_px (fun a => Ret a) input.

  (** colorspace.rs:142-174, the closure *)
  Definition rgb_to_hsv_px (ch : list Z) : outcome (list Z) :=
    let! c0 := vget ch 0 in let! c1 := vget ch 1 in let! c2 := vget ch 2 in
    let mx := Z.max (Z.max c0 c1) c2 in
    let mn := Z.min (Z.min c0 c1) c2 in
    let! range := isub p I32 mx mn in
    let r := c0 in let g := c1 in let b := c2 in
    let! saturation := if negb (mx =? 0) then let! t := imul p I32 255 range in idiv I32 t mx else Ret 0 in
    let! hue :=
      if negb (range =? 0) then
        if mx =? r then
          let! d := isub p I32 g b in let! t := imul p I32 43 d in idiv I32 t range
        else if mx =? g then
          let! d := isub p I32 b r in let! t := imul p I32 43 d in let! q := idiv I32 t range in iadd p I32 85 q
        else
          let! d := isub p I32 r g in let! t := imul p I32 43 d in let! q := idiv I32 t range in iadd p I32 170 q
      else Ret 0 in
    let! hue := if hue <? 0 then iadd p I32 hue 255 else if 255 <? hue then isub p I32 hue 255 else Ret hue in
    Ret [cast U8 hue; cast U8 saturation; cast U8 mx].
  (** colorspace.rs:141-175 *)
  Definition rgb_to_hsv (input : image Z) : outcome (image Z) :=
    map_pixels_if_alpha p rgb_to_hsv_px (fun a => Ret a) input.

  (** colorspace.rs:182-207, the closure *)
  Definition hsv_to_rgb_px (ch : list Z) : outcome (list Z) :=
    let! c1 := vget ch 1 in
    if c1 =? 0 then let! v := vget ch 2 in Ret [v; v; v] else
    let! h := vget ch 0 in
    let s := c1 in
    let! v := vget ch 2 in
    let! hue := idiv I32 h 43 in
    let! h43 := imul p I32 hue 43 in
    let! hr := isub p I32 h h43 in
    let! f := imul p I32 hr 6 in
    (* 255 - x, v * that, / 255, as u8 *)
    let level x := let! d := isub p I32 255 x in let! m := imul p I32 v d in let! q := idiv I32 m 255 in Ret (cast U8 q) in
    let! pp := level s in
    let! sf := imul p I32 s f in
    let! sf := idiv I32 sf 255 in
    let! q := level sf in
    let! f' := isub p I32 255 f in
    let! sf' := imul p I32 s f' in
    let! sf' := idiv I32 sf' 255 in
    let! t := level sf' in
    let v8 := cast U8 v in
    Ret (if hue =? 0 then [v8; t; pp] else if hue =? 1 then [q; v8; pp] else if hue =? 2 then [pp; v8; t]
         else if hue =? 3 then [pp; q; v8] else if hue =? 4 then [t; pp; v8] else [v8; pp; q]).
  (** colorspace.rs:181-208 *)
  Definition hsv_to_rgb (input : image Z) : outcome (image Z) :=
    map_pixels_if_alpha p hsv_to_rgb_px (fun a => Ret a) input.

  (** colorspace.rs:215-246, the closures *)
  Definition rgb_to_hsv_f32_px (ch : list Z) : outcome (list f32) :=
    let! c0 := vget ch 0 in let! c1 := vget ch 1 in let! c2 := vget ch 2 in
    let mx := Z.max (Z.max c0 c1) c2 in
    let mn := Z.min (Z.min c0 c1) c2 in
    let! d := isub p U8 mx mn in
    let range := f32_div (F d) (F 255) in
    let r := f32_div (F c0) (F 255) in
    let g := f32_div (F c1) (F 255) in
    let b := f32_div (F c2) (F 255) in
    let saturation := if negb (mx =? 0) then f32_div range (f32_div (F mx) (F 255)) else f32_0 in
    let hue := if f32_neb range f32_0 then
                 if mx =? c0 then f32_div (f32_sub g b) range
                 else if mx =? c1 then f32_add (f32_div (f32_sub b r) range) (F 2)
                 else f32_add (f32_div (f32_sub r g) range) (F 4)
               else f32_0 in
    let hue := f32_div hue (F 6) in
    let hue := if f32_ltb hue f32_0 then f32_add hue f32_1 else if f32_gtb hue f32_1 then f32_sub hue f32_1 else hue in
    Ret [hue; saturation; f32_div (F mx) (F 255)].
  (** colorspace.rs:214-247 *)
  Definition rgb_to_hsv_f32 (input : image Z) : outcome (image f32) :=
    map_pixels_if_alpha p rgb_to_hsv_f32_px (fun a => Ret (f32_div (F a) (F 255))) input.

  (** colorspace.rs:254-277, the closures *)
  Definition hsv_to_rgb_f32_px (ch : list f32) : outcome (list Z) :=
    let! c1 := vget ch 1 in
    let u8 x := f32_to_int U8 (f32_mul x (F 255)) in
    if f32_eqb c1 f32_0 then let! c2 := vget ch 2 in let v := u8 c2 in Ret [v; v; v] else
    let! c0 := vget ch 0 in
    let hue := f32_mul c0 (F 6) in
    let f := f32_sub hue (f32_floor hue) in
    let! c2 := vget ch 2 in
    let pp := u8 (f32_mul c2 (f32_sub f32_1 c1)) in
    let q := u8 (f32_mul c2 (f32_sub f32_1 (f32_mul c1 f))) in
    let t := u8 (f32_mul c2 (f32_sub f32_1 (f32_mul c1 (f32_sub f32_1 f)))) in
    let v := u8 c2 in
    let k := f32_to_int U8 (f32_floor hue) in
    Ret (if k =? 0 then [v; t; pp] else if k =? 1 then [q; v; pp] else if k =? 2 then [pp; v; t]
         else if k =? 3 then [pp; q; v] else if k =? 4 then [t; pp; v] else [v; pp; q]).
  (** colorspace.rs:253-278 *)
  Definition hsv_to_rgb_f32 (input : image f32) : outcome (image Z) :=
    map_pixels_if_alpha p hsv_to_rgb_f32_px (fun a => Ret (f32_to_int U8 (f32_round (f32_mul a (F 255))))) input.

  (** colorspace.rs:87-91 *)
  Definition srgb_lin_to_xyz_f32 (input : image f32) : outcome (image f32) :=
    map_pixels_if_alpha p (fun cs => unwrap (vector_mul_mut p num_f32 SRGB_TO_XYZ_MAT cs [])) (fun a => Ret a) input.

  (** colorspace.rs:97-101 *)
  Definition xyz_to_srgb_lin_f32 (input : image f32) : outcome (image f32) :=
    map_pixels_if_alpha p (fun cs => unwrap (vector_mul_mut p num_f32 XYZ_TO_SRGB_MAT cs [])) (fun a => Ret a) input.

  Context (lm : libm).

  (** colorspace.rs:57-64, the closure *)
  Definition linearize (i : Z) : f32 :=
    let val := F i in
    if f32_leb val (F 10) then f32_div val (F 3294)
    else powf lm (f32_div (f32_add val (f32_dec 14025 3)) (f32_dec 269025 3)) GAMMA.
  (** colorspace.rs:55-67 *)
  Definition linearize_srgb_f32 (input : image Z) : outcome (image f32) :=
    let! table := generate_lookup_table (repeat f32_0 256) (fun i => Ret (linearize i)) in
    map_channels_if_alpha p (fun i => vget table i) (fun a => Ret (F a)) input.

  (** colorspace.rs:74-80, the closure *)
  Definition unlinearize (num : f32) : Z :=
    if f32_leb num (f32_dec 31308 7) then f32_to_int U8 (f32_mul num (f32_dec 32946 1))
    else f32_to_int U8 (f32_sub (f32_mul (f32_dec 269025 3) (powf lm num (f32_div f32_1 GAMMA))) (f32_dec 14025 3)).
  (** colorspace.rs:73-81 *)
  Definition unlinearize_srgb_f32 (input : image f32) : outcome (image Z) :=
    map_channels_if_alpha p (fun num => Ret (unlinearize num)) (fun a => Ret (f32_to_int U8 (f32_round a))) input.

  (** colorspace.rs:107-119 *)
  Definition xyz_to_lab_px (w : white) (ch : list f32) : outcome (list f32) :=
    let '(x_n, y_n, z_n) := xyz_tristimulus_vals w in
    let! c0 := vget ch 0 in let! c1 := vget ch 1 in let! c2 := vget ch 2 in
    let x := xyz_to_lab_fn lm (f32_div (f32_mul c0 (F 100)) x_n) in
    let y := xyz_to_lab_fn lm (f32_div (f32_mul c1 (F 100)) y_n) in
    let z := xyz_to_lab_fn lm (f32_div (f32_mul c2 (F 100)) z_n) in
    Ret [f32_sub (f32_mul (F 116) y) (F 16); f32_mul (F 500) (f32_sub x y); f32_mul (F 200) (f32_sub y z)].
  (** colorspace.rs:107-119 *)
  Definition xyz_to_lab_f32 (input : image f32) (w : white) : outcome (image f32) :=
    map_pixels_if_alpha p (xyz_to_lab_px w) (fun a => Ret a) input.

  (** colorspace.rs:125-135 *)
  Definition lab_to_xyz_px (w : white) (ch : list f32) : outcome (list f32) :=
    let '(x_n, y_n, z_n) := xyz_tristimulus_vals w in
    let! c0 := vget ch 0 in
    let n := f32_div (f32_add c0 (F 16)) (F 116) in
    let! c1 := vget ch 1 in let! c2 := vget ch 2 in
    Ret [f32_div (f32_mul x_n (lab_to_xyz_fn lm (f32_add n (f32_div c1 (F 500))))) (F 100);
         f32_div (f32_mul y_n (lab_to_xyz_fn lm n)) (F 100);
         f32_div (f32_mul z_n (lab_to_xyz_fn lm (f32_sub n (f32_div c2 (F 200))))) (F 100)].
  (** colorspace.rs:125-135 *)
  Definition lab_to_xyz_f32 (input : image f32) (w : white) : outcome (image f32) :=
    map_pixels_if_alpha p (lab_to_xyz_px w) (fun a => Ret a) input.

  (** colorspace.rs:284-287, 293-296, 302-305, 311-314 *)
  Definition srgb_to_xyz_f32 (input : image Z) : outcome (image f32) :=
    let! linearized := linearize_srgb_f32 input in srgb_lin_to_xyz_f32 linearized.
  (** colorspace.rs:293-296 *)
  Definition xyz_to_srgb_f32 (input : image f32) : outcome (image Z) :=
    let! srgb := xyz_to_srgb_lin_f32 input in unlinearize_srgb_f32 srgb.
  (** colorspace.rs:302-305 *)
  Definition srgb_to_lab_f32 (input : image Z) (w : white) : outcome (image f32) :=
    let! xyz := srgb_to_xyz_f32 input in xyz_to_lab_f32 xyz w.
  (** colorspace.rs:311-314 *)
  Definition lab_to_srgb_f32 (input : image f32) (w : white) : outcome (image Z) :=
    let! xyz := lab_to_xyz_f32 input w in xyz_to_srgb_f32 xyz.
End Colorspace.
