(** * Specification: the images a program can get hold of when the crate was built in debug mode *)
From Verif.Model Require Import Base Float Image MathM Util Par Convert Simd Colorspace Filter Transform Tone Morph Bilateral Median Trimmed.
From Verif.Spec Require Import ImageS.
Open Scope Z_scope.

(** the channel types *)
Inductive chan : Type -> Type := U8c : chan Z | F32c : chan f32 | F64c : chan f64.
Definition number_of {T} (c : chan T) : number T := match c with U8c => num_u8 | F32c => num_f32 | F64c => num_f64 end.
(** what a sample can be *)
Definition valid {T} (c : chan T) : T -> Prop := match c with U8c => is_u8 | F32c => fun _ => True | F64c => fun _ => True end.
(** the promise: a buffer of width * height * channels samples, all numbers in the range of their types *)
Definition good {T} (c : chan T) (img : image T) : Prop := wf img /\ samples (valid c) img.

Definition is_u32 (x : Z) : Prop := 0 <= x <= u32_max.
(** closures: a result, if there is one, is a value of the result type *)
Definition typed {A T} (c : chan T) (f : A -> outcome T) : Prop := forall x v, f x = Ret v -> valid c v.
Definition typed_px {T S} (c : chan S) (f : list T -> outcome (list S)) : Prop := forall px out, f px = Ret out -> Forall (valid c) out.
(** how many colour channels an image has *)
Definition colours (i : info) : Z := channels i - (if alpha i then 1 else 0).
(** closures of [map_pixels]: k samples for every pixel, and no more than there were *)
Definition shrinks {T S} (n k : Z) (f : list T -> outcome (list S)) : Prop := forall px out, len px = n -> f px = Ret out -> len out = k /\ k <= n.

(** [made c img]: a program that starts from good images and calls functions of the crate, in any order and as often as it likes,
    with any arguments of the right types, can hold [img].  Debug build, sequential or rayon ([b], [s]: any schedule), with or without SIMD ([simd]);
    [lm], [svd], [bs]: whatever libm, the SVD and the binary search of the libraries compute. *)
Inductive made : forall {T}, chan T -> image T -> Prop :=
| m_input {T} (c : chan T) img : good c img -> made c img
| m_blank {T} (c : chan T) w h ch a out : is_u32 w -> is_u32 h -> is_u8 ch -> blank Debug (number_of c) (Info w h ch a) = Ret out -> made c out
(* the methods of Image *)
| m_set_pixel {T} (c : chan T) img x y px out : made c img -> Forall (valid c) px -> set_pixel Debug img x y px = Ret out -> made c out
| m_set_pixel_indexed {T} (c : chan T) img i px out : made c img -> Forall (valid c) px -> set_pixel_indexed Debug img i px = Ret out -> made c out
| m_get_pixel_mut {T} (c : chan T) img x y f out : made c img -> typed_px c f -> get_pixel_mut Debug img x y f = Ret out -> made c out
| m_get_pixel_mut_unchecked {T} (c : chan T) img x y f out : made c img -> typed_px c f -> get_pixel_mut_unchecked Debug img x y f = Ret out -> made c out
| m_index_mut {T} (c : chan T) img i f out : made c img -> typed_px c f -> img_index_mut Debug img i f = Ret out -> made c out
| m_apply_pixels {T} (c : chan T) img f out : made c img -> typed_px c f -> apply_pixels Debug f img = Ret out -> made c out
| m_apply_pixels_if_alpha {T} (c : chan T) img f g out : made c img -> typed_px c f -> typed c g -> apply_pixels_if_alpha Debug f g img = Ret out -> made c out
| m_apply_channels {T} (c : chan T) img f out : made c img -> typed c f -> apply_channels Debug f img = Ret out -> made c out
| m_apply_channels_if_alpha {T} (c : chan T) img f g out : made c img -> typed c f -> typed c g -> apply_channels_if_alpha Debug f g img = Ret out -> made c out
| m_edit_channel {T} (c : chan T) img f k out : made c img -> typed c f -> edit_channel Debug f k img = Ret out -> made c out
| m_map_channels {T S} (c : chan T) (d : chan S) img f out : made c img -> typed d f -> map_channels Debug f img = Ret out -> made d out
| m_map_channels_if_alpha {T S} (c : chan T) (d : chan S) img f g out : made c img -> typed d f -> typed d g -> map_channels_if_alpha Debug f g img = Ret out -> made d out
| m_map_pixels {T S} (c : chan T) (d : chan S) img f k out : made c img -> typed_px d f -> shrinks (channels (info_of img)) k f -> map_pixels Debug f img = Ret out -> made d out
| m_map_pixels_if_alpha {T S} (c : chan T) (d : chan S) img f g k out : made c img -> typed_px d f -> typed d g -> shrinks (colours (info_of img)) k f ->
    map_pixels_if_alpha Debug f g img = Ret out -> made d out
(* conversions *)
| m_u8_f32 img out : made U8c img -> from_u8_f32 Debug img = Ret out -> made F32c out
| m_u8_f64 img out : made U8c img -> from_uint_f64 Debug img = Ret out -> made F64c out
| m_f32_f64 img out : made F32c img -> from_f32_f64 Debug img = Ret out -> made F64c out
| m_f64_u8 img out : made F64c img -> from_f64_u8 Debug img = Ret out -> made U8c out
| m_f32_u8 img out : made F32c img -> from_f32_u8 Debug img = Ret out -> made U8c out
| m_scale_channels img a b x y out : made F32c img -> scale_channels Debug img a b x y = Ret out -> made F32c out
| m_f32_to_u8_scale img s out : made F32c img -> f32_to_u8_scale Debug img s = Ret out -> made U8c out
| m_u8_to_f32_scale img s out : made U8c img -> u8_to_f32_scale Debug img s = Ret out -> made F32c out
(* colour spaces *)
| m_gray img out : made U8c img -> rgb_to_grayscale Debug false img = Ret out -> made U8c out
| m_gray_simd img out : made U8c img -> colours (info_of img) = 3 -> rgb_to_grayscale Debug true img = Ret out -> made U8c out
| m_gray_f32 img out : made F32c img -> 0 < colours (info_of img) -> rgb_to_grayscale_f32 Debug img = Ret out -> made F32c out
| m_hsv img out : made U8c img -> rgb_to_hsv Debug img = Ret out -> made U8c out
| m_hsv_inv img out : made U8c img -> hsv_to_rgb Debug img = Ret out -> made U8c out
| m_hsv_f32 img out : made U8c img -> rgb_to_hsv_f32 Debug img = Ret out -> made F32c out
| m_hsv_f32_inv img out : made F32c img -> hsv_to_rgb_f32 Debug img = Ret out -> made U8c out
| m_linearize lm img out : made U8c img -> linearize_srgb_f32 Debug lm img = Ret out -> made F32c out
| m_unlinearize lm img out : made F32c img -> unlinearize_srgb_f32 Debug lm img = Ret out -> made U8c out
| m_lin_xyz img out : made F32c img -> srgb_lin_to_xyz_f32 Debug img = Ret out -> made F32c out
| m_xyz_lin img out : made F32c img -> xyz_to_srgb_lin_f32 Debug img = Ret out -> made F32c out
| m_xyz_lab lm img w out : made F32c img -> xyz_to_lab_f32 Debug lm img w = Ret out -> made F32c out
| m_lab_xyz lm img w out : made F32c img -> lab_to_xyz_f32 Debug lm img w = Ret out -> made F32c out
| m_srgb_xyz lm img out : made U8c img -> srgb_to_xyz_f32 Debug lm img = Ret out -> made F32c out
| m_xyz_srgb lm img out : made F32c img -> xyz_to_srgb_f32 Debug lm img = Ret out -> made U8c out
| m_srgb_lab lm img w out : made U8c img -> srgb_to_lab_f32 Debug lm img w = Ret out -> made F32c out
| m_lab_srgb lm img w out : made F32c img -> lab_to_srgb_f32 Debug lm img w = Ret out -> made U8c out
(* tone *)
| m_brightness simd img b out : made U8c img -> brightness Debug simd img b = Ret out -> made U8c out
| m_saturation simd img s out : made U8c img -> saturation Debug simd img s = Ret out -> made U8c out
| m_contrast img g out : made U8c img -> contrast Debug img g = Ret out -> made U8c out
| m_brightness_lab lm img b out : made U8c img -> brightness_lab Debug lm img b = Ret out -> made U8c out
| m_contrast_lab lm img g out : made U8c img -> contrast_lab Debug lm img g = Ret out -> made U8c out
| m_gamma lm img g m out : made U8c img -> gamma Debug lm img g m = Ret out -> made U8c out
| m_histogram_equalization lm img al w pr out : made U8c img -> histogram_equalization Debug lm img al w pr = Ret out -> made U8c out
(* morphology *)
| m_erode img r out : made U8c img -> erode Debug img r = Ret out -> made U8c out
| m_dilate img r out : made U8c img -> dilate Debug img r = Ret out -> made U8c out
| m_majority img r out : made U8c img -> majority Debug img r = Ret out -> made U8c out
| m_open img r out : made U8c img -> morph_open Debug img r = Ret out -> made U8c out
| m_close img r out : made U8c img -> morph_close Debug img r = Ret out -> made U8c out
| m_gradient img r out : made U8c img -> gradient Debug img r = Ret out -> made U8c out
| m_summed_area_table img out : made F32c img -> generate_summed_area_table Debug img = Ret out -> made F32c out
(* transformations *)
| m_crop {T} (c : chan T) img x y w h out : made c img -> is_u32 w -> is_u32 h -> crop_seq Debug (number_of c) img x y w h = Ret out -> made c out
| m_crop_par {T} (c : chan T) s img x y w h out : made c img -> is_u32 w -> is_u32 h -> crop_par Debug s img x y w h = Ret out -> made c out
| m_superimpose back front x y al out : made F32c back -> made F32c front -> superimpose Debug back front x y al = Ret out -> made F32c out
| m_overlay {T} (c : chan T) back front x y out : made c back -> made c front -> overlay Debug back front x y = Ret out -> made c out
| m_translate {T} (c : chan T) img x y out : made c img -> translate Debug (number_of c) img x y = Ret out -> made c out
| m_reflect {T} (c : chan T) img r out : made c img -> reflect_image Debug (number_of c) img r = Ret out -> made c out
| m_scale lm img a b m out : made F32c img -> scale_seq Debug lm img a b m = Ret out -> made F32c out
| m_scale_par lm s img a b m out : made F32c img -> scale_par Debug lm s img a b m = Ret out -> made F32c out
| m_scale_lanczos lm img a b z out : made F32c img -> scale_lanczos_seq Debug lm img a b z = Ret out -> made F32c out
| m_scale_lanczos_par lm s img a b z out : made F32c img -> scale_lanczos_par Debug lm s img a b z = Ret out -> made F32c out
| m_rotate lm img d out : made F32c img -> rotate Debug lm img d = Ret out -> made F32c out
| m_shear img a b out : made F32c img -> shear Debug img a b = Ret out -> made F32c out
(* filters *)
| m_filter_1d b n img k v out : made F32c img -> filter_1d Debug b n img k v = Ret out -> made F32c out
| m_separable b n img k l out : made F32c img -> separable_filter Debug b n img k l = Ret out -> made F32c out
| m_unseparable b n img k out : made F32c img -> unseparable_filter Debug b n img k = Ret out -> made F32c out
| m_linear b svd img k out : made F32c img -> linear_filter Debug b svd img k = Ret out -> made F32c out
| m_box b img z out : made F32c img -> box_filter Debug b img z = Ret out -> made F32c out
| m_weighted_avg b img z w out : made F32c img -> weighted_avg_filter Debug b img z w = Ret out -> made F32c out
| m_gaussian b lm svd img z s out : made F32c img -> gaussian_blur Debug b lm svd img z s = Ret out -> made F32c out
| m_sharpen b img out : made F32c img -> sharpen Debug b img = Ret out -> made F32c out
| m_unsharp b img out : made F32c img -> unsharp_masking Debug b img = Ret out -> made F32c out
| m_threshold img t x m out : made F32c img -> threshold Debug img t x m = Ret out -> made F32c out
| m_residual {T} (c : chan T) a b out : made c a -> made c b -> residual Debug (number_of c) a b = Ret out -> made c out
| m_derivative_mask b lm img k l out : made F32c img -> derivative_mask Debug b lm img k l = Ret out -> made F32c out
| m_prewitt b lm img out : made F32c img -> prewitt Debug b lm img = Ret out -> made F32c out
| m_sobel b lm img out : made F32c img -> sobel Debug b lm img = Ret out -> made F32c out
| m_sobel_weighted b lm img w out : made F32c img -> sobel_weighted Debug b lm img w = Ret out -> made F32c out
| m_laplacian b img out : made F32c img -> laplacian Debug b img = Ret out -> made F32c out
| m_laplacian_of_gaussian b lm img z s out : made F32c img -> laplacian_of_gaussian Debug b lm img z s = Ret out -> made F32c out
| m_normalize_laplacian img out : made F32c img -> normalize_laplacian Debug img = Ret out -> made U8c out
| m_bilateral lm b n img r s out : made U8c img -> bilateral_filter Debug lm b n img r s = Ret out -> made U8c out
| m_median lm img r out : made U8c img -> median_filter Debug lm img r = Ret out -> made U8c out
| m_trimmed bs lm img r al out : made U8c img -> alpha_trimmed_mean_filter Debug bs lm img r al = Ret out -> made U8c out.
