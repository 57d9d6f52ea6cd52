NOTE["C05"]="Also proved: an image without pixels panics instead of yielding an empty iteration."
NOTE["C06"]="The Iterator contract is refuted (C06_size_hint_refuted); the exact behaviour is proved."
NOTE["C09"]="Also proved: a channel number >= channels is not rejected by edit_channel but edits channel k mod channels."
NOTE["C02"]="Also shown: in release set_pixel_indexed wraps for an index of 2^62."
NOTE["C11"]="The documented behaviour is refuted; the exact behaviour is proved."
NOTE["C12"]="The documented padding is refuted for every size >= 4; the exact behaviour is proved."
NOTE["C15"]="Expectation refuted; exact behaviour proved together with C14."
NOTE["C16"]="The rayon release build is refuted by a concrete run."
NOTE["C19"]="Documented behaviour refuted: every call is an error."
NOTE["C33"]="Documented value refuted: each counter starts at 2 instead of 1; the exact value is proved (images of up to 2^30-1 pixels; refutation for up to 2^22 pixels)."
NOTE["C31"]="Proved for odd sizes; even sizes are proved to fail."
NOTE["C22"]="Totality refuted (factor 1/2 panics on every odd width); exact success condition and result proved."
NOTE["C23"]="Documented weights refuted (swapped); the exact value is proved for power-of-two factors and u8-valued samples, and identity for factor 1."
NOTE["C24"]="Identity refuted; the exact result of rotate(img,0) is proved, given that the math library returns sin 0 = 0 and cos 0 = 1. Other angles: C74."
NOTE["C25"]="Totality refuted by a concrete factor; exact result for integer factors and identity for 0 proved."
NOTE["C34"]="The exactness bound is necessary: refuted for long white rows (C34_C35_bound_refuted)."
NOTE["C35"]="Documented behaviour refuted near the border; exact window proved. Exactness bound necessary, see C34."
NOTE["C36"]="Documented rule refuted: majority computes dilate."
NOTE["C37"]="Extensivity of closing is refuted at the border."
NOTE["C38"]="'Never panics' refuted in three ways."
NOTE["C40"]="Expectation refuted; the exact result of the vector path is proved."
NOTE["C41"]="Memory safety and agreement of the vector path refuted; exact behaviour of both paths proved (buffers up to 2^32-33 samples for the vector path)."
NOTE["C62"]="Documented behaviour for invalid n refuted; exact behaviour and the undefined behaviour proved."
NOTE["C42"]="The curve is round(fl32(c*g)); undetected NaN gain proved to blacken the image."
NOTE["C43"]="For every power function (oracle); also: gamma 1 with maximum 255 is the identity if powf(x,1)=x."
NOTE["C46"]="1 to 128 colour channels (i16 sum); no colour channel panics (division by zero)."
NOTE["C47"]="Expectation refuted; exact result of the vector path proved, including undefined behaviour on one-channel images."
NOTE["C48"]="For every power function (oracle)."
NOTE["C50"]="Summation order and rounding are exact (Flocq binary32). The SVD of linear_filter/gaussian_blur is an oracle: the statement holds for every triple it may return."
NOTE["C51"]="Documented window refuted; exact computation proved."
NOTE["C17"]="Refuted only for square kernels longer than 2^24 (C17_long_kernel_differs)."
NOTE["C54"]="Refuted when max - min overflows; otherwise exact, with accuracy bound."
NOTE["C55"]="Refuted for (gray, alpha) images; powf is an oracle; with powf(x,2)=x*x the result is the correctly rounded gradient length (a*a+b*b <= 2^24)."
NOTE["C56"]="For radius < 2^14 and width + block width + radius, height + radius < 2^31 (no 32-bit overflow)."
NOTE["C57"]="Documented median refuted by two concrete runs; the exact result is proved. Same size bounds as C56. powf only determines the block width, which may be anything."
NOTE["C58"]="Documented value refuted by concrete runs; first row, constant images, alpha = 0 and the errors are exact. C58_rows gives every sample of every run that returns (alpha >= 2), through a specification of one window without histograms; C58_returns says exactly when a release build returns; C58_panics_refuted is an accepted alpha >= 2 that panics. Binary search of the standard library is a parameter (any function), except in the example of C58_rows_refuted."
NOTE["C59"]="Expectation refuted (even windows panic). powf is an oracle; the black-image theorems use only that powers of NaN are NaN (and, for range = 0, e^NaN = NaN, e^-inf = 0). Release builds with windows above 65535 are not covered."
NOTE["C60"]="The codec and the file system are an oracle over which the theorems quantify; only the wrapper is modelled. Losslessness of the codec is a hypothesis of the round trip. Colour order refuted for BGR pictures."
NOTE["C68"]="Expectation refuted; exact loss bound proved for every powf with relative error at most 2^-20 (C68_accurate_powers_exist shows such functions exist)."
NOTE["C69"]="Expectation about growing radii refuted (C69_dilate_radius_refuted); the size bound keeps all f32 sums exact (see C34_C35_bound_refuted)."
NOTE["C70"]="Scalar path (SIMD: C40). C70_gamma_example gives a power function meeting all hypotheses."
NOTE["C71"]="crop is the sequential build; C17_crop_seq_par transfers it to rayon. Rectangles touching the right or bottom edge are rejected by crop (C15)."
NOTE["C72"]="Box window documented as size x size; size^2 x size^2 proved (C51 has the refutation). Box accuracy for size <= 127."
NOTE["C73"]="Expectations about total weight and LoG sign refuted; exact formula with accuracy 1/15000 proved. C73_example gives a power function meeting the hypothesis."
NOTE["C74"]="Expectation about half turns refuted (C74_holes_refuted); sin and cos are oracles of which only size bounds are assumed. C74_example gives an angle meeting all hypotheses."
NOTE["C75"]="Expected weights refuted (C23_weights_refuted); the actual ones proved for every factor. C75_bound_needed shows that the size bound is sharp up to 7%."
NOTE["C76"]="Expected totality refuted (C76_rounded_up_panics, C76_three_halves_refuted); sizes rounded up by less than 2^-22 of themselves fall in neither theorem."
NOTE["C77"]="Expected totality refuted (C77_no_room_panics, C77_below_one_refuted). Between the two conditions (growth within e of an integer, but not close enough for the carry) neither theorem applies."
NOTE["C78"]="powf(x,2) = x*x is an assumption about the math library; the expectation about borders of ramps is refuted by the second half of C78_ramp."
NOTE["C79"]="Expectations about flat areas and range refuted (C79_flat_refuted, C79_overshoot_refuted); the accuracy of sinf is an assumption about the math library, met by the correctly rounded sine (C79_example)."
NOTE["C80"]="Expected range property refuted (C80_isolated, C80_range_refuted). Differences between 9 and 15 range (partly subnormal weights) are covered by neither theorem. The accuracy and underflow of powf are assumptions about the math library, met by a correctly rounded power function (C80_libraries_exist)."
NOTE["C81"]="The documented standards are refuted (C81_standard_refuted, C81_gray_d50_refuted); the accuracy of powf is an assumption about the math library (C68_accurate_powers_exist)."
NOTE["C82"]="Unconditional idempotence of Binary refuted (C82_binary_refuted); splitting is for images without alpha, because residual also subtracts the alpha channel."
NOTE["C83"]="Expectation about grays refuted (C83_tint_refuted). Backward error bounds: the bytes are exact encodings of a nearby colour. The accuracy of powf is an assumption about the math library, met by the correctly rounded power function (C83_example)."
NOTE["C84"]="Expectation that shares are percentiles refuted (C84_above_100_refuted, C84_doubled_refuted). Pixels whose lightness is to be raised by more than 101 (possible only in images that are small for the precision) are covered by C63 only. The accuracy of powf is an assumption about the math library (C84_example)."
NOTE["C85"]="Refuted for the SIMD path of brightness (C85_simd_refuted). crop is the sequential crop; the parallel builds agree with it by C17."
NOTE["C86"]="Duality at the border refuted (C86_duality_border_refuted)."
NOTE["C87"]="Expectation that safe functions have no undefined behaviour refuted (C87_grayscale, C87_brightness, C87_saturation, C87_short_buffer_refuted are the exact outcomes). Undefined behaviour means a raw load or store outside the buffer; saturation within 32 samples of 2^32 samples is not covered."
NOTE["C88"]="The formatting of integers is the standard library's; its loop is modelled in Model/Display.v."
NOTE["C89"]="Mirror law beyond 2^24 refuted (C89_mirror_refuted). Integer results are stated as values (the sign of a zero is not specified). crop is the sequential crop (the parallel one agrees by C17)."
NOTE["C90"]="Three expected laws refuted (C90_identity_refuted, C90_order_refuted, C90_gray_refuted); the bound 18 is attained (C45_worst). Scalar path; the SIMD path differs in the ways C41 and C87 state."
NOTE["C91"]="Expectations for f32 refuted (C91_f32_refuted). Images of f64 are compared the same way and are not stated separately."
NOTE["C92"]="For every run that returns a well-formed image (sequential and parallel builds, both profiles, any powf/sin/cos, any SVD, any binary search). Selections take at most as many channels as the image has, in any order and with repetitions; the alpha flag of the selected image is arbitrary. Operations that single out the alpha channel are not of this kind (C92_invert_refuted)."
NOTE["C93"]="Four expected laws refuted (posterising, negative, monotonicity, mirror images) on concrete pictures, for every math library with 1^(2/3) = 1; the cause is the repeated value after ties (C57)."
NOTE["C94"]="Expectation of equal results refuted where the debug build panics (C94_release_goes_on_refuted), absence of undefined behaviour refuted for SIMD (C94_simd_undefined_refuted). io::read and io::write contain no arithmetic; they are as defined as the codec (C60)."
NOTE["C95"]="The expectation that only proportions matter is refuted (C95_crop_refuted), because every occupied bin is counted once too often (C84)."
NOTE["C96"]="Locality is refuted at every distance (C96_far_refuted, for math libraries with 1^(2/3) = 1); the exact reach is proved."
NOTE["C97"]="At the border coordinates outside are replaced by the centre's (C59), so the law is stated away from it."
NOTE["C98"]="Two expectations refuted (C98_undo_refuted, C98_halve_reflect_refuted). Stated for the sequential build; the parallel build computes the same images (C22)."
NOTE["C99"]="The expectation about mirroring is refuted (C99_mirror_refuted). For other factors the f32 positions x / factor round differently in different places, so the law holds only approximately there and is not stated. Stated for the sequential build; the parallel build computes the same images (C22, C66)."
NOTE["C100"]="Expectation refuted (C100_window_refuted). Partial correctness: the theorems speak about runs that return an image (C58_returns says exactly which runs of a release build those are); C100_reach_example_runs shows two such runs."
NOTE["C101"]="Debug builds; in a SIMD build only calls that return count (C87 shows undefined behaviour). C101_made is by induction over the inductive predicate made of Spec/PipeS.v, one constructor per public function. Refuted for release builds and for constructors that take a buffer (C101_release_refuted, C101_constructors_refuted, C101_simd_gray_refuted)."
NOTE["C102"]="The expectation about RulinalgError is refuted (C102_svd_refuted). The message texts inside the errors are not modelled. C102_*_exactly give the precise error conditions, under the stated bounds: brightness and saturation with -32768 apart (C102_tone_minimum), crop and overlay without overflowing corners, kernels up to 2^24 elements (beyond, check_square rounds, see C61), sizes up to 4096, radii up to 32767."
