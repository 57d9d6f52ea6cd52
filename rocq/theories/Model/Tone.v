(** * src/tone.rs *)
From Verif.Model Require Export Colorspace.
Open Scope Z_scope.

Section Tone.
  Context (p : profile).
  Notation F := f32_of_Z.

  (** tone.rs:31-38 *)
  Definition brightness_rgb_norm (input : image Z) (bias : Z) : outcome (image Z) :=
    let! table := generate_lookup_table (repeat 0 256) (fun i => add_clamped p bias i) in
    map_channels_if_alpha p (fun c => vget table c) (fun a => Ret a) input.

  (** tone.rs:18-29; [simd]: the feature is enabled and AVX2 is detected *)
  Definition brightness (simd : bool) (input : image Z) (bias : Z) : outcome (image Z) :=
    let! ab := iabs p I16 bias in
    check_in_range (num_int I16) ab (-255) 255 ;!
    if simd then adds_256_u8 p input bias else brightness_rgb_norm input bias.

  (** the closure of tone.rs:65-67 *)
  Definition contrast_fn (gain : f32) (i : Z) : outcome Z :=
    let! c := f32_clamp (f32_round (f32_mul (F i) gain)) f32_0 (F 255) in Ret (f32_to_int U8 c).
  (** tone.rs:60-70 *)
  Definition contrast (input : image Z) (gain : f32) : outcome (image Z) :=
    check_non_neg num_f32 gain ;!
    check_in_range num_f32 gain f32_0 f32_1 ;!
    let! table := generate_lookup_table (repeat 0 256) (contrast_fn gain) in
    map_channels_if_alpha p (fun c => vget table c) (fun a => Ret a) input.

  (** tone.rs:110-112 *)
  Definition saturation_norm (hsv : image Z) (saturation : Z) : outcome (image Z) :=
    edit_channel p (fun s => add_clamped p saturation s) 1 hsv.
  (** tone.rs:91-108 *)
  Definition saturation (simd : bool) (input : image Z) (saturation : Z) : outcome (image Z) :=
    check_in_range (num_int I16) saturation (-255) 255 ;!
    let! hsv := rgb_to_hsv p input in
    let! hsv := if simd then adds_n_256_u8 p hsv saturation 1 else saturation_norm hsv saturation in
    hsv_to_rgb p hsv.

  Context (lm : libm).

  (** tone.rs:45-53 *)
  Definition brightness_lab (input : image Z) (bias : Z) : outcome (image Z) :=
    let! ab := iabs p I16 bias in
    check_in_range (num_int I16) ab (-255) 255 ;!
    let! lab := srgb_to_lab_f32 p lm input D50 in
    let bias_lab := f32_mul (f32_div (F bias) (F 255)) (F 100) in
    let! lab := edit_channel p (fun num => Ret (f32_add num bias_lab)) 0 lab in
    lab_to_srgb_f32 p lm lab D50.

  (** tone.rs:77-84 *)
  Definition contrast_lab (input : image Z) (gain : f32) : outcome (image Z) :=
    check_non_neg num_f32 gain ;!
    check_in_range num_f32 gain f32_0 f32_1 ;!
    let! lab := srgb_to_lab_f32 p lm input D50 in
    let! lab := edit_channel p (fun num => Ret (f32_mul num gain)) 0 lab in
    lab_to_srgb_f32 p lm lab D50.

  (** the closure of tone.rs:122-124 *)
  Definition gamma_fn (g : f32) (mx channel : Z) : Z :=
    f32_to_int U8 (f32_round (f32_mul (powf lm (f32_div (F channel) (F mx)) g) (F mx))).
  (** tone.rs:119-125 *)
  Definition gamma (input : image Z) (g : f32) (mx : Z) : outcome (image Z) :=
    check_non_neg num_f32 g ;!
    map_channels_if_alpha p (fun c => Ret (gamma_fn g mx c)) (fun a => Ret a) input.

  (** tone.rs:137-151 *)
  Definition histogram_equalization (input : image Z) (al : f32) (w : white) (precision : f32) : outcome (image Z) :=
    check_non_neg num_f32 precision ;!
    check_in_range num_f32 al f32_0 f32_1 ;!
    let! lab := srgb_to_lab_f32 p lm input w in
    let! percentiles := generate_histogram_percentiles p lab [] precision in
    let! lab := edit_channel p (fun num =>
        let key := f32_to_int I32 (f32_round (f32_mul num precision)) in
        match hm_get percentiles key with
        | None => Panic
        | Some v => Ret (f32_add (f32_mul (f32_mul al v) (F 100)) (f32_mul (f32_sub f32_1 al) num))
        end) 0 lab in
    lab_to_srgb_f32 p lm lab w.
End Tone.
