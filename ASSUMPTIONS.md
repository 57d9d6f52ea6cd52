# Print Assumptions of every theorem in MANIFEST.json (generated by tools/assumptions.py)

## Closed under the global context (no axioms)

171 theorems

* C01_from_slice
* C01_from_vec_of_vec
* C01_from_vec_of_vec_overflow
* C01_blank
* C01_blank_overflow
* C02_set_get
* C02_set_get_indexed
* C02_paths_agree
* C02_set_pixel_indexed_wraps
* C03_get_pixel
* C03_set_pixel
* C03_get_pixel_mut
* C03_wrong_length_mod_256
* C04_indexing
* C04_bijection
* C05_iterator
* C05_each_pixel_once
* C05_empty_image_panics
* C06_size_hint_refuted
* C06_size_hint
* C07_map_channels
* C07_map_channels_if_alpha
* C08_map_pixels
* C08_map_pixels_if_alpha
* C08_no_alpha
* C08_no_pixels_panics
* C09_apply_channels
* C09_apply_pixels
* C09_apply_pixels_if_alpha
* C09_apply_channels_if_alpha
* C09_edit_channel
* C09_edit_channel_out_of_range
* C10_history
* C10_history_panics
* C11_get_subimage_exact
* C11_row_or_column
* C11_get_subimage_refuted
* C11_out_of_image_panics
* C12_neighborhood_1d_exact
* C12_neighborhood_2d_exact
* C12_clamp_small
* C12_clamp_padding_refuted
* C14_crop
* C14_crop_rayon
* C15_crop_rejects_edges
* C15_crop_all_inside_refuted
* C16_crop_overflow_debug
* C16_crop_overflow_release
* C16_crop_rayon_overflow_bogus
* C17_crop_seq_par
* C18_overlay
* C18_overlay_channels
* C18_overlay_overflow
* C20_translate
* C20_translate_far
* C20_translate_zero
* C21_reflect
* C21_involution
* C21_commute
* C28_vector_mul
* C28_wrong_dimension
* C28_empty_vector
* C28_vector_mul_int
* C30_symmetric
* C32_lookup_table
* C39_brightness
* C39_rejects
* C39_min_value
* C40_simd_exact
* C40_simd_agrees
* C40_simd_refuted
* C40_huge
* C41_saturation_scalar
* C41_simd_exact
* C41_simd_UB
* C41_simd_agrees
* C41_rejects
* C41_value_kept
* C44_rgb_to_hsv
* C44_value_saturation_hue
* C44_needs_three
* C45_hsv_to_rgb
* C45_max_min
* C45_round_trip
* C45_gray_round_trip
* C46_between
* C46_no_color
* C47_average
* C52_threshold
* C53_info_mismatch
* C53_residual_int
* C53_residual_int_debug_panics
* C53_residual_self_int
* C58_first_row_documented
* C60_write_supported
* C60_write_unsupported
* C60_write_short_buffer
* C60_read
* C60_read_fails
* C60_round_trip
* C60_bgr_refuted
* C61_check_odd
* C61_check_even
* C61_check_non_neg_int
* C61_check_in_range_int
* C61_check_grayscale
* C61_check_equal
* C62_adds_n
* C62_adds_n_UB
* C62_invalid_n_refuted
* C65_pixel_methods
* C65_empty_pixel
* C65_is_black
* C65_shape
* C65_no_channels
* C65_sub_to_vec
* C65_get_subimage_to_vec
* C65_sub_to_vec_short
* C70_brightness_add
* C70_brightness_undo
* C70_brightness_0
* C71_crop_crop
* C71_overlay_crop
* C71_crop_overlay
* C71_overlay_twice
* C71_translate_translate
* C71_reflect_crop
* C71_map_commutes
* C82_binary
* C85_brightness
* C85_saturation
* C85_hsv
* C85_simd_refuted
* C85_example
* C87_brightness
* C87_short_buffer_refuted
* C87_saturation
* C88_one_numeral
* C88_text
* C88_faithful
* C88_example
* C90_desaturate
* C90_gray
* C90_all_red
* C90_monotone
* C90_zero
* C90_identity_refuted
* C90_order_refuted
* C90_gray_refuted
* C91_integers
* C91_pixels
* C91_write
* C92_crop
* C92_translate
* C92_reflect
* C92_crop_par
* C92_overlay
* C92_invert_refuted
* C94_meaning
* C94_sequence
* C94_loop
* C94_image_access
* C94_image_maps
* C94_lookup_table
* C94_residual
* C94_release_goes_on_refuted
* C101_release_refuted
* C101_constructors_refuted
* C102_image_access
* C102_image_maps
* C102_invalid_residual

## ClassicalDedekindReals.sig_forall_dec, FunctionalExtensionality.functional_extensionality_dep

3 theorems

* C84_above_100_refuted
* C84_doubled_refuted
* C90_hue_accuracy

## ClassicalDedekindReals.sig_forall_dec, ClassicalDedekindReals.sig_not_dec, FunctionalExtensionality.functional_extensionality_dep

1 theorems

* C80_mean_between

## ClassicalDedekindReals.sig_forall_dec, ClassicalDedekindReals.sig_not_dec, Classical_Prop.classic, FunctionalExtensionality.functional_extensionality_dep

381 theorems

* C13_f32_to_u8
* C13_f64_to_u8
* C13_u8_to_f32_exact
* C13_uint_to_f64_exact
* C13_u64_to_f64_inexact
* C13_f32_to_f64_exact
* C13_u8_f32_u8
* C13_u8_f64_u8
* C17_bilateral_filter_seq_par
* C17_filter_1d_seq_par
* C17_separable_filter_seq_par
* C17_unseparable_filter_seq_par
* C17_derived_filters_seq_par
* C17_linear_filter_seq_par
* C17_long_kernel_differs
* C17_scale_seq_par
* C17_scale_lanczos_seq_par
* C19_superimpose_always_fails
* C22_nearest_exact
* C22_integer_factors
* C22_identity
* C22_half_odd_width_refuted
* C22_half_even
* C23_identity
* C23_power_of_two_factors
* C23_weights_refuted
* C24_rotate_0
* C24_identity_refuted
* C25_integer_factors
* C25_zero_identity
* C25_total_refuted
* C26_summed_area_table
* C26_summed_area_table_u8
* C26_bound_needed
* C27_rectangular_sum
* C28_vector_mul_f32
* C29_max_3
* C29_min_3
* C29_max_4
* C29_min_4
* C29_max_3_nan
* C30_gaussian_kernel
* C30_log_kernel
* C31_spatial_mat
* C31_even_size
* C31_negative_sigma
* C31_distance
* C33_percentiles
* C33_total
* C33_above_one_refuted
* C34_erode
* C34_C35_bound_refuted
* C35_dilate
* C35_dilation_refuted
* C36_majority_is_dilate
* C36_majority_refuted
* C37_open
* C37_close
* C37_gradient
* C37_close_border_refuted
* C38_rejects
* C38_accepts
* C38_big_radius_refuted
* C38_alpha_refuted
* C38_alpha_blank
* C38_mask_overflow_refuted
* C42_contrast
* C42_curve
* C42_rejects
* C42_gains
* C42_nan
* C43_gamma
* C43_rejects
* C43_gamma_one
* C46_grayscale
* C47_rgb
* C47_rgba
* C47_refuted
* C47_small
* C47_gray_UB
* C48_conversions
* C48_alpha_round_trip
* C49_scaled_round_trip
* C49_scale_0
* C50_filter_1d
* C50_separable_filter
* C50_unseparable_filter
* C50_rejects
* C50_filter_1d_local
* C50_unseparable_local
* C50_integers_exact
* C50_sharpen
* C50_laplacian
* C50_dyadic_exact
* C50_unsharp_masking
* C50_linear_filter
* C50_gaussian_blur
* C50_weighted_avg_filter
* C51_box_filter
* C51_box_filter_window
* C51_box_window_refuted
* C51_box_overflow_debug
* C53_residual_f32
* C53_residual_self_f32
* C54_normalize
* C54_rejects
* C54_range_overflow_refuted
* C55_derivative_mask
* C55_gray_alpha_refuted
* C55_rejects
* C55_sobel_weighted
* C55_prewitt_sobel
* C55_gradient_length
* C56_histograms_count_the_window
* C57_median_filter
* C57_within_one_rank
* C57_values_of_input
* C57_empty
* C57_radius_0_refuted
* C57_last_column_refuted
* C58_invalid_alpha
* C58_first_row
* C58_one_row
* C58_constant
* C58_alpha_zero_panics
* C58_ties_refuted
* C58_rows_refuted
* C58_removal_refuted
* C58_first_row_refuted
* C58_rows
* C58_returns
* C58_panics_refuted
* C59_negative
* C59_bilateral
* C59_even_window
* C59_huge_window
* C59_window
* C59_quarters
* C59_spatial_zero_black
* C59_range_zero_black
* C59_local
* C59_nonnegative_refuted
* C61_check_non_neg_f32
* C61_check_in_range_f32
* C61_nan_accepted
* C61_infinite_accepted
* C61_check_square
* C61_check_square_large_refuted
* C63_brightness_lab
* C63_brightness_lab_rejects
* C63_contrast_lab
* C63_contrast_lab_rejects
* C63_histogram_equalization
* C63_histogram_equalization_rejects
* C64_colour_round_trip
* C64_ranges
* C64_round_trip
* C64_exact_round_trip_refuted
* C65_is_black_f32
* C66_bicubic
* C66_lanczos
* C66_scale_lanczos
* C66_lanczos_empty_window
* C66_lanczos_size_overflow
* C67_bicubic_accuracy
* C67_no_overshoot
* C67_constant
* C67_identity_refuted
* C68_linear_round_trip
* C68_linear_exact
* C68_xyz_round_trip
* C68_lab_round_trip
* C68_brightness_lab_0
* C68_contrast_lab_1
* C68_accurate_powers_exist
* C68_identity_refuted
* C68_monotone_refuted
* C69_open_is_opening
* C69_between
* C69_monotone
* C69_open_idempotent
* C69_close
* C69_erode_erode
* C69_radius_zero
* C69_dilate_radius_refuted
* C70_gamma_accuracy
* C70_gamma_order
* C72_accuracy
* C72_weighted_avg
* C72_box_filter
* C72_unseparable_translation
* C72_filter_1d_translation
* C72_example
* C73_gaussian_fn
* C73_gaussian_kernel
* C73_normalised_refuted
* C73_log_kernel
* C73_log_sign_refuted
* C73_log_negative
* C73_spatial_mat
* C73_example
* C73_log_example
* C74_rotate
* C74_nan_panics
* C74_holes_refuted
* C75_bilinear
* C75_no_overshoot
* C75_bound_needed
* C76_nearest
* C76_rounded_up_panics
* C76_three_halves_refuted
* C77_shear
* C77_no_room_panics
* C77_below_one_refuted
* C78_gradient
* C78_offset
* C78_mirror
* C78_transpose
* C78_flat
* C78_ramp
* C79_scale_lanczos_accuracy
* C79_lanczos_accuracy
* C79_interpolates
* C79_upscale
* C79_u8_identity
* C79_flat
* C79_flat_refuted
* C79_overshoot_refuted
* C80_accuracy
* C80_between
* C80_isolated
* C80_libraries_exist
* C80_range_refuted
* C80_example
* C81_linear
* C81_xyz
* C81_lab
* C81_gray_d65
* C81_lightness_range
* C81_gray_d50_refuted
* C81_standard_refuted
* C81_example
* C82_idempotent
* C82_binary_refuted
* C82_levels
* C82_order
* C82_order_refuted
* C82_higher_threshold
* C82_split
* C82_residual_swap
* C82_example
* C83_lab_to_srgb
* C83_xyz_to_srgb
* C83_brightness_lab
* C83_contrast_lab
* C83_bytes
* C83_jump
* C83_tint_refuted
* C83_example
* C84_equalize
* C84_large_image
* C84_order
* C84_none
* C84_flat
* C84_example
* C85_contrast
* C85_gamma
* C85_grayscale
* C85_conversions
* C85_lab_tone
* C85_threshold
* C85_numbers
* C85_residual
* C86_mirror
* C86_transpose
* C86_local
* C86_duality
* C86_duality_border_refuted
* C86_example
* C87_grayscale
* C87_result_size
* C87_example
* C89_exact
* C89_superposition
* C89_separable_is_outer
* C89_mirror
* C89_mirror_lines
* C89_crop
* C89_crop_edges
* C89_mirror_refuted
* C89_example
* C91_f32
* C91_f32_laws
* C91_f32_refuted
* C92_shear
* C92_rotate
* C92_scale
* C92_scale_lanczos
* C92_scale_par
* C92_scale_lanczos_par
* C92_filter_1d
* C92_separable_filter
* C92_unseparable_filter
* C92_linear_filter
* C92_box_filter
* C92_weighted_avg_filter
* C92_gaussian_blur
* C92_sharpen
* C92_unsharp_masking
* C92_laplacian
* C92_laplacian_of_gaussian
* C92_median_filter
* C92_alpha_trimmed_mean_filter
* C93_increasing
* C93_brightness
* C93_constant
* C93_posterize_refuted
* C93_negative_refuted
* C93_monotone_refuted
* C93_mirror_refuted
* C94_numbers
* C94_conversions
* C94_util
* C94_colours
* C94_tone
* C94_morphology
* C94_transform
* C94_filters
* C94_simd
* C94_simd_undefined_refuted
* C95_rearranged
* C95_same_colour
* C95_reflect
* C95_crop_refuted
* C95_example
* C96_reach
* C96_crop
* C96_radius_0
* C96_far_refuted
* C97_same_surroundings
* C97_crop
* C98_twice
* C98_halve_double
* C98_reflect
* C98_crop
* C98_translate
* C98_pixelwise
* C98_threshold
* C98_scale_channels
* C98_halve_reflect_refuted
* C98_undo_refuted
* C99_reach
* C99_crop
* C99_lanczos_crop
* C99_mirror_refuted
* C100_reach
* C100_crop
* C100_window_refuted
* C101_made
* C101_simd_gray_refuted
* C102_numbers
* C102_plain_conversions
* C102_plain_util
* C102_result_never_err
* C102_invalid_util
* C102_invalid_tone
* C102_invalid_transform
* C102_invalid_filters
* C102_filter_1d_exactly
* C102_separable_exactly
* C102_box_exactly
* C102_edges_exactly
* C102_svd_refuted
* C102_tone_exactly
* C102_morphology_exactly
* C102_transform_exactly
* C102_util_exactly
* C102_kernel_filters_exactly
* C102_sized_filters_exactly
* C102_spatial_exactly
* C102_other_filters_exactly
