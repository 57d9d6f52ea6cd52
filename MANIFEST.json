{
 "claims": [
  {
   "property": "C01",
   "status": "proved",
   "theorems": [
    "C01_from_slice",
    "C01_from_vec_of_vec",
    "C01_from_vec_of_vec_overflow",
    "C01_blank",
    "C01_blank_overflow"
   ],
   "note": ""
  },
  {
   "property": "C02",
   "status": "proved",
   "theorems": [
    "C02_set_get",
    "C02_set_get_indexed",
    "C02_paths_agree",
    "C02_set_pixel_indexed_wraps"
   ],
   "note": "Also shown: in release set_pixel_indexed wraps for an index of 2^62."
  },
  {
   "property": "C03",
   "status": "proved",
   "theorems": [
    "C03_get_pixel",
    "C03_set_pixel",
    "C03_get_pixel_mut",
    "C03_wrong_length_mod_256"
   ],
   "note": ""
  },
  {
   "property": "C04",
   "status": "proved",
   "theorems": [
    "C04_indexing",
    "C04_bijection"
   ],
   "note": ""
  },
  {
   "property": "C05",
   "status": "proved",
   "theorems": [
    "C05_iterator",
    "C05_each_pixel_once",
    "C05_empty_image_panics"
   ],
   "note": "Also proved: an image without pixels panics instead of yielding an empty iteration."
  },
  {
   "property": "C06",
   "status": "proved",
   "theorems": [
    "C06_size_hint_refuted",
    "C06_size_hint"
   ],
   "note": "The Iterator contract is refuted (C06_size_hint_refuted); the exact behaviour is proved."
  },
  {
   "property": "C07",
   "status": "proved",
   "theorems": [
    "C07_map_channels",
    "C07_map_channels_if_alpha"
   ],
   "note": ""
  },
  {
   "property": "C08",
   "status": "proved",
   "theorems": [
    "C08_map_pixels",
    "C08_map_pixels_if_alpha",
    "C08_no_alpha",
    "C08_no_pixels_panics"
   ],
   "note": ""
  },
  {
   "property": "C09",
   "status": "proved",
   "theorems": [
    "C09_apply_channels",
    "C09_apply_pixels",
    "C09_apply_pixels_if_alpha",
    "C09_apply_channels_if_alpha",
    "C09_edit_channel",
    "C09_edit_channel_out_of_range"
   ],
   "note": "Also proved: a channel number >= channels is not rejected by edit_channel but edits channel k mod channels."
  },
  {
   "property": "C10",
   "status": "proved",
   "theorems": [
    "C10_history",
    "C10_history_panics"
   ],
   "note": ""
  },
  {
   "property": "C11",
   "status": "proved",
   "theorems": [
    "C11_get_subimage_exact",
    "C11_row_or_column",
    "C11_get_subimage_refuted",
    "C11_out_of_image_panics"
   ],
   "note": "The documented behaviour is refuted; the exact behaviour is proved."
  },
  {
   "property": "C12",
   "status": "proved",
   "theorems": [
    "C12_neighborhood_1d_exact",
    "C12_neighborhood_2d_exact",
    "C12_clamp_small",
    "C12_clamp_padding_refuted"
   ],
   "note": "The documented padding is refuted for every size >= 4; the exact behaviour is proved."
  },
  {
   "property": "C13",
   "status": "proved",
   "theorems": [
    "C13_f32_to_u8",
    "C13_f64_to_u8",
    "C13_u8_to_f32_exact",
    "C13_uint_to_f64_exact",
    "C13_u64_to_f64_inexact",
    "C13_f32_to_f64_exact",
    "C13_u8_f32_u8",
    "C13_u8_f64_u8"
   ],
   "note": ""
  },
  {
   "property": "C14",
   "status": "proved",
   "theorems": [
    "C14_crop",
    "C14_crop_rayon"
   ],
   "note": ""
  },
  {
   "property": "C15",
   "status": "proved",
   "theorems": [
    "C15_crop_rejects_edges",
    "C15_crop_all_inside_refuted"
   ],
   "note": "Expectation refuted; exact behaviour proved together with C14."
  },
  {
   "property": "C16",
   "status": "proved",
   "theorems": [
    "C16_crop_overflow_debug",
    "C16_crop_overflow_release",
    "C16_crop_rayon_overflow_bogus"
   ],
   "note": "The rayon release build is refuted by a concrete run."
  },
  {
   "property": "C17",
   "status": "proved",
   "theorems": [
    "C17_bilateral_filter_seq_par",
    "C17_filter_1d_seq_par",
    "C17_separable_filter_seq_par",
    "C17_unseparable_filter_seq_par",
    "C17_derived_filters_seq_par",
    "C17_linear_filter_seq_par",
    "C17_long_kernel_differs",
    "C17_crop_seq_par",
    "C17_scale_seq_par",
    "C17_scale_lanczos_seq_par"
   ],
   "note": "Refuted only for square kernels longer than 2^24 (C17_long_kernel_differs)."
  },
  {
   "property": "C18",
   "status": "proved",
   "theorems": [
    "C18_overlay",
    "C18_overlay_channels",
    "C18_overlay_overflow"
   ],
   "note": ""
  },
  {
   "property": "C19",
   "status": "proved",
   "theorems": [
    "C19_superimpose_always_fails"
   ],
   "note": "Documented behaviour refuted: every call is an error."
  },
  {
   "property": "C20",
   "status": "proved",
   "theorems": [
    "C20_translate",
    "C20_translate_far",
    "C20_translate_zero"
   ],
   "note": ""
  },
  {
   "property": "C21",
   "status": "proved",
   "theorems": [
    "C21_reflect",
    "C21_involution",
    "C21_commute"
   ],
   "note": ""
  },
  {
   "property": "C22",
   "status": "proved",
   "theorems": [
    "C22_nearest_exact",
    "C22_integer_factors",
    "C22_identity",
    "C22_half_odd_width_refuted",
    "C22_half_even"
   ],
   "note": "Totality refuted (factor 1/2 panics on every odd width); exact success condition and result proved."
  },
  {
   "property": "C23",
   "status": "proved",
   "theorems": [
    "C23_identity",
    "C23_power_of_two_factors",
    "C23_weights_refuted"
   ],
   "note": "Documented weights refuted (swapped); the exact value is proved for power-of-two factors and u8-valued samples, and identity for factor 1."
  },
  {
   "property": "C24",
   "status": "proved",
   "theorems": [
    "C24_rotate_0",
    "C24_identity_refuted"
   ],
   "note": "Identity refuted; the exact result of rotate(img,0) is proved, given that the math library returns sin 0 = 0 and cos 0 = 1. Other angles: C74."
  },
  {
   "property": "C25",
   "status": "proved",
   "theorems": [
    "C25_integer_factors",
    "C25_zero_identity",
    "C25_total_refuted"
   ],
   "note": "Totality refuted by a concrete factor; exact result for integer factors and identity for 0 proved."
  },
  {
   "property": "C26",
   "status": "proved",
   "theorems": [
    "C26_summed_area_table",
    "C26_summed_area_table_u8",
    "C26_bound_needed"
   ],
   "note": ""
  },
  {
   "property": "C27",
   "status": "proved",
   "theorems": [
    "C27_rectangular_sum"
   ],
   "note": ""
  },
  {
   "property": "C28",
   "status": "proved",
   "theorems": [
    "C28_vector_mul",
    "C28_wrong_dimension",
    "C28_empty_vector",
    "C28_vector_mul_f32",
    "C28_vector_mul_int"
   ],
   "note": ""
  },
  {
   "property": "C29",
   "status": "proved",
   "theorems": [
    "C29_max_3",
    "C29_min_3",
    "C29_max_4",
    "C29_min_4",
    "C29_max_3_nan"
   ],
   "note": ""
  },
  {
   "property": "C30",
   "status": "proved",
   "theorems": [
    "C30_gaussian_kernel",
    "C30_log_kernel",
    "C30_symmetric"
   ],
   "note": ""
  },
  {
   "property": "C31",
   "status": "proved",
   "theorems": [
    "C31_spatial_mat",
    "C31_even_size",
    "C31_negative_sigma",
    "C31_distance"
   ],
   "note": "Proved for odd sizes; even sizes are proved to fail."
  },
  {
   "property": "C32",
   "status": "proved",
   "theorems": [
    "C32_lookup_table"
   ],
   "note": ""
  },
  {
   "property": "C33",
   "status": "proved",
   "theorems": [
    "C33_percentiles",
    "C33_total",
    "C33_above_one_refuted"
   ],
   "note": "Documented value refuted: each counter starts at 2 instead of 1; the exact value is proved (images of up to 2^30-1 pixels; refutation for up to 2^22 pixels)."
  },
  {
   "property": "C34",
   "status": "proved",
   "theorems": [
    "C34_erode",
    "C34_C35_bound_refuted"
   ],
   "note": "The exactness bound is necessary: refuted for long white rows (C34_C35_bound_refuted)."
  },
  {
   "property": "C35",
   "status": "proved",
   "theorems": [
    "C35_dilate",
    "C35_dilation_refuted"
   ],
   "note": "Documented behaviour refuted near the border; exact window proved. Exactness bound necessary, see C34."
  },
  {
   "property": "C36",
   "status": "proved",
   "theorems": [
    "C36_majority_is_dilate",
    "C36_majority_refuted"
   ],
   "note": "Documented rule refuted: majority computes dilate."
  },
  {
   "property": "C37",
   "status": "proved",
   "theorems": [
    "C37_open",
    "C37_close",
    "C37_gradient",
    "C37_close_border_refuted"
   ],
   "note": "Extensivity of closing is refuted at the border."
  },
  {
   "property": "C38",
   "status": "proved",
   "theorems": [
    "C38_rejects",
    "C38_accepts",
    "C38_big_radius_refuted",
    "C38_alpha_refuted",
    "C38_alpha_blank",
    "C38_mask_overflow_refuted"
   ],
   "note": "'Never panics' refuted in three ways."
  },
  {
   "property": "C39",
   "status": "proved",
   "theorems": [
    "C39_brightness",
    "C39_rejects",
    "C39_min_value"
   ],
   "note": ""
  },
  {
   "property": "C40",
   "status": "proved",
   "theorems": [
    "C40_simd_exact",
    "C40_simd_agrees",
    "C40_simd_refuted",
    "C40_huge"
   ],
   "note": "Expectation refuted; the exact result of the vector path is proved."
  },
  {
   "property": "C41",
   "status": "proved",
   "theorems": [
    "C41_saturation_scalar",
    "C41_simd_exact",
    "C41_simd_UB",
    "C41_simd_agrees",
    "C41_rejects",
    "C41_value_kept"
   ],
   "note": "Memory safety and agreement of the vector path refuted; exact behaviour of both paths proved (buffers up to 2^32-33 samples for the vector path)."
  },
  {
   "property": "C42",
   "status": "proved",
   "theorems": [
    "C42_contrast",
    "C42_curve",
    "C42_rejects",
    "C42_gains",
    "C42_nan"
   ],
   "note": "The curve is round(fl32(c*g)); undetected NaN gain proved to blacken the image."
  },
  {
   "property": "C43",
   "status": "proved",
   "theorems": [
    "C43_gamma",
    "C43_rejects",
    "C43_gamma_one"
   ],
   "note": "For every power function (oracle); also: gamma 1 with maximum 255 is the identity if powf(x,1)=x."
  },
  {
   "property": "C44",
   "status": "proved",
   "theorems": [
    "C44_rgb_to_hsv",
    "C44_value_saturation_hue",
    "C44_needs_three"
   ],
   "note": ""
  },
  {
   "property": "C45",
   "status": "proved",
   "theorems": [
    "C45_hsv_to_rgb",
    "C45_max_min",
    "C45_round_trip",
    "C45_gray_round_trip"
   ],
   "note": ""
  },
  {
   "property": "C46",
   "status": "proved",
   "theorems": [
    "C46_grayscale",
    "C46_between",
    "C46_no_color"
   ],
   "note": "1 to 128 colour channels (i16 sum); no colour channel panics (division by zero)."
  },
  {
   "property": "C47",
   "status": "proved",
   "theorems": [
    "C47_rgb",
    "C47_rgba",
    "C47_average",
    "C47_refuted",
    "C47_small",
    "C47_gray_UB"
   ],
   "note": "Expectation refuted; exact result of the vector path proved, including undefined behaviour on one-channel images."
  },
  {
   "property": "C48",
   "status": "proved",
   "theorems": [
    "C48_conversions",
    "C48_alpha_round_trip"
   ],
   "note": "For every power function (oracle)."
  },
  {
   "property": "C49",
   "status": "proved",
   "theorems": [
    "C49_scaled_round_trip",
    "C49_scale_0"
   ],
   "note": ""
  },
  {
   "property": "C50",
   "status": "proved",
   "theorems": [
    "C50_filter_1d",
    "C50_separable_filter",
    "C50_unseparable_filter",
    "C50_rejects",
    "C50_filter_1d_local",
    "C50_unseparable_local",
    "C50_integers_exact",
    "C50_sharpen",
    "C50_laplacian",
    "C50_dyadic_exact",
    "C50_unsharp_masking",
    "C50_linear_filter",
    "C50_gaussian_blur",
    "C50_weighted_avg_filter"
   ],
   "note": "Summation order and rounding are exact (Flocq binary32). The SVD of linear_filter/gaussian_blur is an oracle: the statement holds for every triple it may return."
  },
  {
   "property": "C51",
   "status": "proved",
   "theorems": [
    "C51_box_filter",
    "C51_box_filter_window",
    "C51_box_window_refuted",
    "C51_box_overflow_debug"
   ],
   "note": "Documented window refuted; exact computation proved."
  },
  {
   "property": "C52",
   "status": "proved",
   "theorems": [
    "C52_threshold"
   ],
   "note": ""
  },
  {
   "property": "C53",
   "status": "proved",
   "theorems": [
    "C53_info_mismatch",
    "C53_residual_f32",
    "C53_residual_int",
    "C53_residual_int_debug_panics",
    "C53_residual_self_f32",
    "C53_residual_self_int"
   ],
   "note": ""
  },
  {
   "property": "C54",
   "status": "proved",
   "theorems": [
    "C54_normalize",
    "C54_rejects",
    "C54_range_overflow_refuted"
   ],
   "note": "Refuted when max - min overflows; otherwise exact, with accuracy bound."
  },
  {
   "property": "C55",
   "status": "proved",
   "theorems": [
    "C55_derivative_mask",
    "C55_gray_alpha_refuted",
    "C55_rejects",
    "C55_sobel_weighted",
    "C55_prewitt_sobel",
    "C55_gradient_length"
   ],
   "note": "Refuted for (gray, alpha) images; powf is an oracle; with powf(x,2)=x*x the result is the correctly rounded gradient length (a*a+b*b <= 2^24)."
  },
  {
   "property": "C56",
   "status": "proved",
   "theorems": [
    "C56_histograms_count_the_window"
   ],
   "note": "For radius < 2^14 and width + block width + radius, height + radius < 2^31 (no 32-bit overflow)."
  },
  {
   "property": "C57",
   "status": "proved",
   "theorems": [
    "C57_median_filter",
    "C57_within_one_rank",
    "C57_values_of_input",
    "C57_empty",
    "C57_radius_0_refuted",
    "C57_last_column_refuted"
   ],
   "note": "Documented median refuted by two concrete runs; the exact result is proved. Same size bounds as C56. powf only determines the block width, which may be anything."
  },
  {
   "property": "C58",
   "status": "proved",
   "theorems": [
    "C58_invalid_alpha",
    "C58_first_row",
    "C58_one_row",
    "C58_first_row_documented",
    "C58_constant",
    "C58_alpha_zero_panics",
    "C58_ties_refuted",
    "C58_rows_refuted",
    "C58_removal_refuted",
    "C58_first_row_refuted",
    "C58_rows",
    "C58_returns",
    "C58_panics_refuted"
   ],
   "note": "Documented value refuted by concrete runs; first row, constant images, alpha = 0 and the errors are exact. C58_rows gives every sample of every run that returns (alpha >= 2), through a specification of one window without histograms; C58_returns says exactly when a release build returns; C58_panics_refuted is an accepted alpha >= 2 that panics. Binary search of the standard library is a parameter (any function), except in the example of C58_rows_refuted."
  },
  {
   "property": "C59",
   "status": "proved",
   "theorems": [
    "C59_negative",
    "C59_bilateral",
    "C59_even_window",
    "C59_huge_window",
    "C59_window",
    "C59_quarters",
    "C59_spatial_zero_black",
    "C59_range_zero_black",
    "C59_local",
    "C59_nonnegative_refuted"
   ],
   "note": "Expectation refuted (even windows panic). powf is an oracle; the black-image theorems use only that powers of NaN are NaN (and, for range = 0, e^NaN = NaN, e^-inf = 0). Release builds with windows above 65535 are not covered."
  },
  {
   "property": "C60",
   "status": "proved",
   "theorems": [
    "C60_write_supported",
    "C60_write_unsupported",
    "C60_write_short_buffer",
    "C60_read",
    "C60_read_fails",
    "C60_round_trip",
    "C60_bgr_refuted"
   ],
   "note": "The codec and the file system are an oracle over which the theorems quantify; only the wrapper is modelled. Losslessness of the codec is a hypothesis of the round trip. Colour order refuted for BGR pictures."
  },
  {
   "property": "C61",
   "status": "proved",
   "theorems": [
    "C61_check_odd",
    "C61_check_even",
    "C61_check_non_neg_int",
    "C61_check_in_range_int",
    "C61_check_non_neg_f32",
    "C61_check_in_range_f32",
    "C61_nan_accepted",
    "C61_infinite_accepted",
    "C61_check_square",
    "C61_check_square_large_refuted",
    "C61_check_grayscale",
    "C61_check_equal"
   ],
   "note": ""
  },
  {
   "property": "C62",
   "status": "proved",
   "theorems": [
    "C62_adds_n",
    "C62_adds_n_UB",
    "C62_invalid_n_refuted"
   ],
   "note": "Documented behaviour for invalid n refuted; exact behaviour and the undefined behaviour proved."
  },
  {
   "property": "C63",
   "status": "proved",
   "theorems": [
    "C63_brightness_lab",
    "C63_brightness_lab_rejects",
    "C63_contrast_lab",
    "C63_contrast_lab_rejects",
    "C63_histogram_equalization",
    "C63_histogram_equalization_rejects"
   ],
   "note": ""
  },
  {
   "property": "C64",
   "status": "proved",
   "theorems": [
    "C64_colour_round_trip",
    "C64_ranges",
    "C64_round_trip",
    "C64_exact_round_trip_refuted"
   ],
   "note": ""
  },
  {
   "property": "C65",
   "status": "proved",
   "theorems": [
    "C65_pixel_methods",
    "C65_empty_pixel",
    "C65_is_black",
    "C65_is_black_f32",
    "C65_shape",
    "C65_no_channels",
    "C65_sub_to_vec",
    "C65_get_subimage_to_vec",
    "C65_sub_to_vec_short"
   ],
   "note": ""
  },
  {
   "property": "C66",
   "status": "proved",
   "theorems": [
    "C66_bicubic",
    "C66_lanczos",
    "C66_scale_lanczos",
    "C66_lanczos_empty_window",
    "C66_lanczos_size_overflow"
   ],
   "note": ""
  },
  {
   "property": "C67",
   "status": "proved",
   "theorems": [
    "C67_bicubic_accuracy",
    "C67_no_overshoot",
    "C67_constant",
    "C67_identity_refuted"
   ],
   "note": ""
  },
  {
   "property": "C68",
   "status": "proved",
   "theorems": [
    "C68_linear_round_trip",
    "C68_linear_exact",
    "C68_xyz_round_trip",
    "C68_lab_round_trip",
    "C68_brightness_lab_0",
    "C68_contrast_lab_1",
    "C68_accurate_powers_exist",
    "C68_identity_refuted",
    "C68_monotone_refuted"
   ],
   "note": "Expectation refuted; exact loss bound proved for every powf with relative error at most 2^-20 (C68_accurate_powers_exist shows such functions exist)."
  },
  {
   "property": "C69",
   "status": "proved",
   "theorems": [
    "C69_open_is_opening",
    "C69_between",
    "C69_monotone",
    "C69_open_idempotent",
    "C69_close",
    "C69_erode_erode",
    "C69_radius_zero",
    "C69_dilate_radius_refuted"
   ],
   "note": "Expectation about growing radii refuted (C69_dilate_radius_refuted); the size bound keeps all f32 sums exact (see C34_C35_bound_refuted)."
  },
  {
   "property": "C70",
   "status": "proved",
   "theorems": [
    "C70_brightness_add",
    "C70_brightness_undo",
    "C70_brightness_0",
    "C70_gamma_accuracy",
    "C70_gamma_order"
   ],
   "note": "Scalar path (SIMD: C40). C70_gamma_example gives a power function meeting all hypotheses."
  },
  {
   "property": "C71",
   "status": "proved",
   "theorems": [
    "C71_crop_crop",
    "C71_overlay_crop",
    "C71_crop_overlay",
    "C71_overlay_twice",
    "C71_translate_translate",
    "C71_reflect_crop",
    "C71_map_commutes"
   ],
   "note": "crop is the sequential build; C17_crop_seq_par transfers it to rayon. Rectangles touching the right or bottom edge are rejected by crop (C15)."
  },
  {
   "property": "C72",
   "status": "proved",
   "theorems": [
    "C72_accuracy",
    "C72_weighted_avg",
    "C72_box_filter",
    "C72_unseparable_translation",
    "C72_filter_1d_translation",
    "C72_example"
   ],
   "note": "Box window documented as size x size; size^2 x size^2 proved (C51 has the refutation). Box accuracy for size <= 127."
  },
  {
   "property": "C73",
   "status": "proved",
   "theorems": [
    "C73_gaussian_fn",
    "C73_gaussian_kernel",
    "C73_normalised_refuted",
    "C73_log_kernel",
    "C73_log_sign_refuted",
    "C73_log_negative",
    "C73_spatial_mat",
    "C73_example",
    "C73_log_example"
   ],
   "note": "Expectations about total weight and LoG sign refuted; exact formula with accuracy 1/15000 proved. C73_example gives a power function meeting the hypothesis."
  },
  {
   "property": "C74",
   "status": "proved",
   "theorems": [
    "C74_rotate",
    "C74_nan_panics",
    "C74_holes_refuted"
   ],
   "note": "Expectation about half turns refuted (C74_holes_refuted); sin and cos are oracles of which only size bounds are assumed. C74_example gives an angle meeting all hypotheses."
  },
  {
   "property": "C75",
   "status": "proved",
   "theorems": [
    "C75_bilinear",
    "C75_no_overshoot",
    "C75_bound_needed"
   ],
   "note": "Expected weights refuted (C23_weights_refuted); the actual ones proved for every factor. C75_bound_needed shows that the size bound is sharp up to 7%."
  },
  {
   "property": "C76",
   "status": "proved",
   "theorems": [
    "C76_nearest",
    "C76_rounded_up_panics",
    "C76_three_halves_refuted"
   ],
   "note": "Expected totality refuted (C76_rounded_up_panics, C76_three_halves_refuted); sizes rounded up by less than 2^-22 of themselves fall in neither theorem."
  },
  {
   "property": "C77",
   "status": "proved",
   "theorems": [
    "C77_shear",
    "C77_no_room_panics",
    "C77_below_one_refuted"
   ],
   "note": "Expected totality refuted (C77_no_room_panics, C77_below_one_refuted). Between the two conditions (growth within e of an integer, but not close enough for the carry) neither theorem applies."
  },
  {
   "property": "C78",
   "status": "proved",
   "theorems": [
    "C78_gradient",
    "C78_offset",
    "C78_mirror",
    "C78_transpose",
    "C78_flat",
    "C78_ramp"
   ],
   "note": "powf(x,2) = x*x is an assumption about the math library; the expectation about borders of ramps is refuted by the second half of C78_ramp."
  },
  {
   "property": "C79",
   "status": "proved",
   "theorems": [
    "C79_scale_lanczos_accuracy",
    "C79_lanczos_accuracy",
    "C79_interpolates",
    "C79_upscale",
    "C79_u8_identity",
    "C79_flat",
    "C79_flat_refuted",
    "C79_overshoot_refuted"
   ],
   "note": "Expectations about flat areas and range refuted (C79_flat_refuted, C79_overshoot_refuted); the accuracy of sinf is an assumption about the math library, met by the correctly rounded sine (C79_example)."
  },
  {
   "property": "C80",
   "status": "proved",
   "theorems": [
    "C80_accuracy",
    "C80_mean_between",
    "C80_between",
    "C80_isolated",
    "C80_libraries_exist",
    "C80_range_refuted",
    "C80_example"
   ],
   "note": "Expected range property refuted (C80_isolated, C80_range_refuted). Differences between 9 and 15 range (partly subnormal weights) are covered by neither theorem. The accuracy and underflow of powf are assumptions about the math library, met by a correctly rounded power function (C80_libraries_exist)."
  },
  {
   "property": "C81",
   "status": "proved",
   "theorems": [
    "C81_linear",
    "C81_xyz",
    "C81_lab",
    "C81_gray_d65",
    "C81_lightness_range",
    "C81_gray_d50_refuted",
    "C81_standard_refuted",
    "C81_example"
   ],
   "note": "The documented standards are refuted (C81_standard_refuted, C81_gray_d50_refuted); the accuracy of powf is an assumption about the math library (C68_accurate_powers_exist)."
  },
  {
   "property": "C82",
   "status": "proved",
   "theorems": [
    "C82_idempotent",
    "C82_binary",
    "C82_binary_refuted",
    "C82_levels",
    "C82_order",
    "C82_order_refuted",
    "C82_higher_threshold",
    "C82_split",
    "C82_residual_swap",
    "C82_example"
   ],
   "note": "Unconditional idempotence of Binary refuted (C82_binary_refuted); splitting is for images without alpha, because residual also subtracts the alpha channel."
  },
  {
   "property": "C83",
   "status": "proved",
   "theorems": [
    "C83_lab_to_srgb",
    "C83_xyz_to_srgb",
    "C83_brightness_lab",
    "C83_contrast_lab",
    "C83_bytes",
    "C83_jump",
    "C83_tint_refuted",
    "C83_example"
   ],
   "note": "Expectation about grays refuted (C83_tint_refuted). Backward error bounds: the bytes are exact encodings of a nearby colour. The accuracy of powf is an assumption about the math library, met by the correctly rounded power function (C83_example)."
  },
  {
   "property": "C84",
   "status": "proved",
   "theorems": [
    "C84_equalize",
    "C84_large_image",
    "C84_order",
    "C84_none",
    "C84_above_100_refuted",
    "C84_doubled_refuted",
    "C84_flat",
    "C84_example"
   ],
   "note": "Expectation that shares are percentiles refuted (C84_above_100_refuted, C84_doubled_refuted). Pixels whose lightness is to be raised by more than 101 (possible only in images that are small for the precision) are covered by C63 only. The accuracy of powf is an assumption about the math library (C84_example)."
  },
  {
   "property": "C85",
   "status": "proved",
   "theorems": [
    "C85_brightness",
    "C85_contrast",
    "C85_gamma",
    "C85_saturation",
    "C85_grayscale",
    "C85_hsv",
    "C85_conversions",
    "C85_lab_tone",
    "C85_simd_refuted",
    "C85_example",
    "C85_threshold",
    "C85_numbers",
    "C85_residual"
   ],
   "note": "Refuted for the SIMD path of brightness (C85_simd_refuted). crop is the sequential crop; the parallel builds agree with it by C17."
  },
  {
   "property": "C86",
   "status": "proved",
   "theorems": [
    "C86_mirror",
    "C86_transpose",
    "C86_local",
    "C86_duality",
    "C86_duality_border_refuted",
    "C86_example"
   ],
   "note": "Duality at the border refuted (C86_duality_border_refuted)."
  },
  {
   "property": "C87",
   "status": "proved",
   "theorems": [
    "C87_grayscale",
    "C87_result_size",
    "C87_brightness",
    "C87_short_buffer_refuted",
    "C87_saturation",
    "C87_example"
   ],
   "note": "Expectation that safe functions have no undefined behaviour refuted (C87_grayscale, C87_brightness, C87_saturation, C87_short_buffer_refuted are the exact outcomes). Undefined behaviour means a raw load or store outside the buffer; saturation within 32 samples of 2^32 samples is not covered."
  },
  {
   "property": "C88",
   "status": "proved",
   "theorems": [
    "C88_one_numeral",
    "C88_text",
    "C88_faithful",
    "C88_example"
   ],
   "note": "The formatting of integers is the standard library's; its loop is modelled in Model/Display.v."
  },
  {
   "property": "C89",
   "status": "proved",
   "theorems": [
    "C89_exact",
    "C89_superposition",
    "C89_separable_is_outer",
    "C89_mirror",
    "C89_mirror_lines",
    "C89_crop",
    "C89_crop_edges",
    "C89_mirror_refuted",
    "C89_example"
   ],
   "note": "Mirror law beyond 2^24 refuted (C89_mirror_refuted). Integer results are stated as values (the sign of a zero is not specified). crop is the sequential crop (the parallel one agrees by C17)."
  },
  {
   "property": "C90",
   "status": "proved",
   "theorems": [
    "C90_hue_accuracy",
    "C90_desaturate",
    "C90_gray",
    "C90_all_red",
    "C90_monotone",
    "C90_zero",
    "C90_identity_refuted",
    "C90_order_refuted",
    "C90_gray_refuted"
   ],
   "note": "Three expected laws refuted (C90_identity_refuted, C90_order_refuted, C90_gray_refuted); the bound 18 is attained (C45_worst). Scalar path; the SIMD path differs in the ways C41 and C87 state."
  },
  {
   "property": "C91",
   "status": "proved",
   "theorems": [
    "C91_integers",
    "C91_pixels",
    "C91_write",
    "C91_f32",
    "C91_f32_laws",
    "C91_f32_refuted"
   ],
   "note": "Expectations for f32 refuted (C91_f32_refuted). Images of f64 are compared the same way and are not stated separately."
  },
  {
   "property": "C92",
   "status": "proved",
   "theorems": [
    "C92_crop",
    "C92_translate",
    "C92_reflect",
    "C92_shear",
    "C92_rotate",
    "C92_crop_par",
    "C92_scale",
    "C92_scale_lanczos",
    "C92_scale_par",
    "C92_scale_lanczos_par",
    "C92_overlay",
    "C92_filter_1d",
    "C92_separable_filter",
    "C92_unseparable_filter",
    "C92_linear_filter",
    "C92_box_filter",
    "C92_weighted_avg_filter",
    "C92_gaussian_blur",
    "C92_sharpen",
    "C92_unsharp_masking",
    "C92_laplacian",
    "C92_laplacian_of_gaussian",
    "C92_median_filter",
    "C92_alpha_trimmed_mean_filter",
    "C92_invert_refuted"
   ],
   "note": "For every run that returns a well-formed image (sequential and parallel builds, both profiles, any powf/sin/cos, any SVD, any binary search). Selections take at most as many channels as the image has, in any order and with repetitions; the alpha flag of the selected image is arbitrary. Operations that single out the alpha channel are not of this kind (C92_invert_refuted)."
  },
  {
   "property": "C93",
   "status": "proved",
   "theorems": [
    "C93_increasing",
    "C93_brightness",
    "C93_constant",
    "C93_posterize_refuted",
    "C93_negative_refuted",
    "C93_monotone_refuted",
    "C93_mirror_refuted"
   ],
   "note": "Four expected laws refuted (posterising, negative, monotonicity, mirror images) on concrete pictures, for every math library with 1^(2/3) = 1; the cause is the repeated value after ties (C57)."
  },
  {
   "property": "C94",
   "status": "proved",
   "theorems": [
    "C94_meaning",
    "C94_sequence",
    "C94_loop",
    "C94_numbers",
    "C94_image_access",
    "C94_image_maps",
    "C94_conversions",
    "C94_util",
    "C94_lookup_table",
    "C94_colours",
    "C94_tone",
    "C94_morphology",
    "C94_transform",
    "C94_filters",
    "C94_residual",
    "C94_simd",
    "C94_release_goes_on_refuted",
    "C94_simd_undefined_refuted"
   ],
   "note": "Expectation of equal results refuted where the debug build panics (C94_release_goes_on_refuted), absence of undefined behaviour refuted for SIMD (C94_simd_undefined_refuted). io::read and io::write contain no arithmetic; they are as defined as the codec (C60)."
  },
  {
   "property": "C95",
   "status": "proved",
   "theorems": [
    "C95_rearranged",
    "C95_same_colour",
    "C95_reflect",
    "C95_crop_refuted",
    "C95_example"
   ],
   "note": "The expectation that only proportions matter is refuted (C95_crop_refuted), because every occupied bin is counted once too often (C84)."
  },
  {
   "property": "C96",
   "status": "proved",
   "theorems": [
    "C96_reach",
    "C96_crop",
    "C96_radius_0",
    "C96_far_refuted"
   ],
   "note": "Locality is refuted at every distance (C96_far_refuted, for math libraries with 1^(2/3) = 1); the exact reach is proved."
  },
  {
   "property": "C97",
   "status": "proved",
   "theorems": [
    "C97_same_surroundings",
    "C97_crop"
   ],
   "note": "At the border coordinates outside are replaced by the centre's (C59), so the law is stated away from it."
  },
  {
   "property": "C98",
   "status": "proved",
   "theorems": [
    "C98_twice",
    "C98_halve_double",
    "C98_reflect",
    "C98_crop",
    "C98_translate",
    "C98_pixelwise",
    "C98_threshold",
    "C98_scale_channels",
    "C98_halve_reflect_refuted",
    "C98_undo_refuted"
   ],
   "note": "Two expectations refuted (C98_undo_refuted, C98_halve_reflect_refuted). Stated for the sequential build; the parallel build computes the same images (C22)."
  },
  {
   "property": "C99",
   "status": "proved",
   "theorems": [
    "C99_reach",
    "C99_crop",
    "C99_lanczos_crop",
    "C99_mirror_refuted"
   ],
   "note": "The expectation about mirroring is refuted (C99_mirror_refuted). For other factors the f32 positions x / factor round differently in different places, so the law holds only approximately there and is not stated. Stated for the sequential build; the parallel build computes the same images (C22, C66)."
  },
  {
   "property": "C100",
   "status": "proved",
   "theorems": [
    "C100_reach",
    "C100_crop",
    "C100_window_refuted"
   ],
   "note": "Expectation refuted (C100_window_refuted). Partial correctness: the theorems speak about runs that return an image (C58_returns says exactly which runs of a release build those are); C100_reach_example_runs shows two such runs."
  },
  {
   "property": "C101",
   "status": "proved",
   "theorems": [
    "C101_made",
    "C101_release_refuted",
    "C101_constructors_refuted",
    "C101_simd_gray_refuted"
   ],
   "note": "Debug builds; in a SIMD build only calls that return count (C87 shows undefined behaviour). C101_made is by induction over the inductive predicate made of Spec/PipeS.v, one constructor per public function. Refuted for release builds and for constructors that take a buffer (C101_release_refuted, C101_constructors_refuted, C101_simd_gray_refuted)."
  },
  {
   "property": "C102",
   "status": "proved",
   "theorems": [
    "C102_numbers",
    "C102_image_access",
    "C102_image_maps",
    "C102_plain_conversions",
    "C102_plain_util",
    "C102_result_never_err",
    "C102_invalid_util",
    "C102_invalid_tone",
    "C102_invalid_transform",
    "C102_invalid_filters",
    "C102_invalid_residual",
    "C102_filter_1d_exactly",
    "C102_separable_exactly",
    "C102_box_exactly",
    "C102_edges_exactly",
    "C102_svd_refuted",
    "C102_tone_exactly",
    "C102_tone_minimum",
    "C102_morphology_exactly",
    "C102_transform_exactly",
    "C102_util_exactly",
    "C102_kernel_filters_exactly",
    "C102_sized_filters_exactly",
    "C102_spatial_exactly",
    "C102_other_filters_exactly"
   ],
   "note": "The expectation about RulinalgError is refuted (C102_svd_refuted). The message texts inside the errors are not modelled. C102_*_exactly give the precise error conditions, under the stated bounds: brightness and saturation with -32768 apart (C102_tone_minimum), crop and overlay without overflowing corners, kernels up to 2^24 elements (beyond, check_square rounds, see C61), sizes up to 4096, radii up to 32767."
  }
 ]
}