# Further properties, added while the model grew.
p("C63","Tone operations in CIELAB validate, are total, keep size and alpha",
  "brightness_lab (|bias|<=255), contrast_lab (gain not <0, not >1) and histogram_equalization (alpha and precision in range; at most 2^30-1 pixels) return Ok for every non-empty RGB/RGBA image, with the same info and unchanged alpha samples, and give equal input colours equal output colours; histogram_equalization finds the percentile of every pixel (no missing-key panic). Out-of-range arguments give an error. For every libm power function.",
  "every RGB(A) u8 image, all arguments incl. NaN, every libm",
  "Ranges over all images, arguments and math libraries.",
  ["src/tone.rs: brightness_lab, contrast_lab, histogram_equalization","src/util/mod.rs: generate_histogram_percentiles"])
p("C64","f32 HSV: ranges, accuracy, and a round trip that loses at most one level",
  "For every 8-bit colour, rgb_to_hsv_f32 gives H in [0,1), S and V in [0,1]; V is the f32 nearest to max/255, S is within 6*2^-25*255/max of (max-min)/max, H within 11*2^-25*255/(max-min) of the true hue, grays have H = S = 0. Expected: hsv_to_rgb_f32(rgb_to_hsv_f32(img)) = img. Actual: on every non-empty RGB(A) image it keeps size, layout and alpha, and every colour sample comes back unchanged or exactly one smaller; the largest sample of each pixel and all gray pixels come back unchanged. Exactness is refuted: (0,1,6) becomes (0,0,6).",
  "all 2^24 colours, every RGB(A) image",
  "Rounding errors of some twenty f32 operations must be bounded for every colour.",
  ["src/colorspace.rs: rgb_to_hsv_f32, hsv_to_rgb_f32"])
p("C65","Pixel, shape and sub-image helpers",
  "On a pixel cs ++ [a]: alpha() = a, channels_without_alpha() = cs, map_all/apply map every channel, map_alpha/apply_alpha map the colours with f and the last channel with g; is_black holds iff every channel is zero, is_black_alpha iff every channel but the last is (for floats both zeros count, NaN and infinities do not). On an empty pixel every method that needs an alpha panics, in both profiles, without calling the closures. size, full_size and channels_non_alpha are width*height, width*height*channels and the number of colour channels (alpha with 0 channels: panic in debug, 255 in release). SubImage::to_vec is the concatenation of get_pixel row by row, panics if pixels are missing, and on get_subimage's result gives the samples of the rectangle column by column.",
  "every pixel of every length, every channel type modelled, every closure, every shape and every sub-image",
  "Ranges over all pixels, closures and sub-images.",
  ["src/image/pixel.rs: Pixel","src/image/mod.rs: ImageInfo","src/image/sub_image.rs: SubImage"])
p("C66","Bicubic and Lanczos scaling: exact values, totality and degenerate sizes",
  "For every image of at most 2^24 columns and rows and every factor pair not below 0 whose output shape fits, scale(Bicubic), scale(Lanczos) and scale_lanczos(size) return an image of round(w*xf) x round(h*yf) pixels; each sample is the f32 sum, column offset outermost, over the window (-1..2, -2..3, 1-size..size) of the input sample at the offset position (coordinates limited to the image) times the product of the two kernel values (cubic B-spline, resp. Lanczos) at the fractional parts. Sequential and rayon builds agree for every schedule, and no factor, not even NaN or infinity, causes a panic or an out-of-range read. size = 0 and sizes above 2^31+1 give an all-zero image; sizes 2^31-1..2^31+1 panic in debug builds. For every libm.",
  "every f32 image up to 2^24 in each direction, every factor, every window size, every schedule, every libm",
  "Ranges over all images, factors, sizes, schedules and math libraries.",
  ["src/transform.rs: scale, scale_lanczos, interpolate_bicubic, interpolate_lanczos","src/util/math.rs: cubic_weighting_fn, lanczos_kernel, sinc_norm"])
p("C67","Bicubic scaling is B-spline smoothing: accuracy, no overshoot, constants kept; not an interpolation",
  "If the samples are finite and at most 2^k in absolute value, every sample of scale(Bicubic) is within 2^k/2048 of the cubic-B-spline smoothing (over the reals) of the input around the source position, for every libm that computes third powers of 0..5 to within 2^-16. Hence each channel stays between its smallest and largest input sample up to that tolerance, and constant channels stay constant. Expected: scaling by factor 1 returns the image. Actual: refuted, the B-spline smooths: a 0/36 step becomes about 6 at the dark pixel.",
  "every f32 image up to 2^24 in each direction, all positive finite factors, every libm with accurate cubes",
  "Error bounds of a hundred f32 operations for all images, positions and factors.",
  ["src/transform.rs: scale, interpolate_bicubic","src/util/math.rs: cubic_weighting_fn"])
p("C68","8-bit images through linear, XYZ and CIELAB images and back: at most one level darker",
  "Expected: converting a u8 sRGB image to linear light, XYZ or CIELAB (either white point) and back returns the image, and brightness_lab(0) and contrast_lab(1) leave an image unchanged. Actual: on every non-empty RGB(A) image each of these keeps size, layout and alpha, and every colour sample comes back unchanged or exactly one smaller (never larger), for every libm whose powf has relative error at most 2^-20 on bases 1/1024..2 and exponents up to 3. Through linear light, samples up to 10 come back exactly for every libm, and 255 whenever powf(1,y)=1. The identity is refuted even for a correctly rounded powf: (124,124,124) comes back as (123,123,123). Expected: unlinearize_srgb_f32 is monotone. Actual: refuted for every accurate powf: 0.0031308 becomes 10 and the brighter 0.0031309 becomes 5.",
  "all 2^24 colours in every RGB(A) u8 image, both profiles and white points, every libm with an accurate powf",
  "The error of forty f32 operations and six powers must be bounded for every colour and every math library.",
  ["src/colorspace.rs: linearize_srgb_f32, unlinearize_srgb_f32, srgb_to_xyz_f32, xyz_to_srgb_f32, srgb_to_lab_f32, lab_to_srgb_f32","src/util/math.rs: xyz_to_lab_fn, lab_to_xyz_fn","src/tone.rs: brightness_lab, contrast_lab"])

p("C69","Morphology obeys the laws of opening and closing",
  "On every binary image of at most 32896 pixels and every radius that fits: open is the textbook opening (the union of all (2r+1)-squares that are entirely white and inside), although dilate looks at truncated windows; erode <= open <= input <= dilate; erode, dilate, open and close are monotone; open and close are idempotent; close keeps every white pixel at distance r from the border and blackens the rest; eroding by r and then s equals eroding by r+s; radius 0 changes nothing and gives a black gradient. Expected: a larger radius dilates more. Actual: refuted near the border.",
  "all binary images up to 32896 pixels, all radii that fit, pairs of ordered images",
  "Laws relating several operators on all images.",
  ["src/morphology.rs: erode, dilate, majority, open, close, gradient"])
p("C70","Tone curves: brightness adds up and can be undone exactly when nothing saturates; gamma is accurate and keeps order",
  "Without SIMD: brightness(a) then brightness(b) equals brightness(a+b) for a, b of the same sign; brightness(0) is the identity; brightness(b) then brightness(-b) restores the image if and only if no colour sample saturates. gamma applies one curve to all colour samples; for every libm whose powf has relative error 2^-20 and maps 0 to 0, gamma in [1/16,3] and max in 1..255 the curve is within 1/2+1/1000 of max*(c/max)^gamma for c <= max and fixes 0 and max; for a powf increasing on [0,1] it keeps order and never exceeds max.",
  "every u8 image with at least a colour channel, all biases, all gammas in the range, every libm with the stated accuracy or monotonicity",
  "Ranges over all images, parameters and math libraries.",
  ["src/tone.rs: brightness, gamma"])
p("C71","Geometric operations compose",
  "crop of a crop is one crop at the sum of the offsets; cropping the overlaid region returns the overlaid image; overlaying a crop at its origin returns the image; overlaying twice at the same place leaves the last; translations add up; cropping a mirrored image is mirroring the crop of the mirrored rectangle; and any per-sample map commutes with crop, reflect, overlay and (if it keeps zero) translate.",
  "every image of every sample type, all offsets and rectangles accepted by crop, every sample function",
  "Equations between compositions on all images.",
  ["src/transform.rs: crop, overlay, translate, reflect","src/image/mod.rs: map_channels"])
p("C72","Linear filters compute real averages up to rounding, and depend only on what their window shows",
  "For any kernel and any finite samples whose absolute products sum to at most 2^k, every sample of a filtered image is finite and within 3*taps*2^k/2^25 of the exact (real) correlation. For samples in 0..255: weighted_avg_filter(size, w) is within size^2/25000 of the true weighted mean of the size x size window, centre counted w times; box_filter(size) is within size^2/12000 of the true mean of the size^2 x size^2 window (documented: size x size, see C51). Translation: if the windows around (x, y) in one image and (x', y') in another (of any size) show the same samples, filter_1d and unseparable_filter give the same sample there, so tiles can be filtered separately. Image coordinates outside the image repeat the centre coordinate.",
  "every f32 image, kernel, size, centre weight, schedule and position; pairs of images for translation",
  "Rounding errors of arbitrarily many f32 operations must be bounded for all kernels and images.",
  ["src/filter/mod.rs: filter_1d, unseparable_filter, box_filter, weighted_avg_filter, linear_filter"])
p("C73","Gaussian functions and kernels are accurate but not normalised; the Laplacian-of-Gaussian kernel has a wrong sign",
  "For every sigma in [1/256, 256] and every libm whose powf has relative error at most 2^-20 on the powers used, as long as d^2/(2 sigma^2) <= 60: gaussian_fn(d, sigma), every entry of generate_gaussian_kernel and every entry but the centre (which is 0) of generate_spatial_mat are within 1/15000 (relatively) of exp(-d^2/(2 sigma^2))/(2 pi sigma^2), d the distance from the centre. Expected: a blur kernel has total weight 1. Actual: refuted, the 3x3 kernel for sigma=1 sums to less than 0.79, so gaussian_blur darkens. Documented: laplacian_of_gaussian is the LoG operator and its output contains positive and negative values. Actual: the factor 1 - d^2/(2 sigma^2) is computed as 1 + d^2/(2 sigma^2): every kernel entry is within 1/15000 of that wrong value and negative, also where the true LoG is positive; so on every non-negative image the output is never positive, and at most -v/(4 sigma^4) where the image has sample v.",
  "every kernel size, sigma, distance, every libm with the stated accuracy, every non-negative image, schedule and position",
  "Error analysis of exponentials for all parameters and math libraries; sign of arbitrarily long f32 sums.",
  ["src/util/mod.rs: generate_gaussian_kernel, generate_log_kernel, generate_spatial_mat","src/util/math.rs: gaussian_fn","src/filter/edge.rs: laplacian_of_gaussian"])
p("C74","Rotation by any angle returns, has the size of the rotated rectangle and puts pixels where they belong, but leaves holes",
  "For every non-empty image with width+height+2 <= 2^k <= 2^22 and every angle whose sine and cosine are numbers of size at most 1 with |sin|+|cos| in [1,1.45], rotate returns a well-formed image (no write ever falls outside): its width is w|cos|+h|sin| rounded down and its height w|sin|+h|cos| rounded down, up to e = 2^k/2^21; every output pixel is zero or an input pixel whose offset from the centre pixel, rotated, ends there (truncated towards zero, possibly one column to the left, error e); and for every input pixel such a position does show an input pixel that goes there. Angles with NaN sine and cosine (NaN, infinite) panic on every non-empty image. Expected: rotate(180) of a full image is the image reversed. Actual: refuted, a 3x3 image loses the middle column, the last column is empty.",
  "every f32 image in the size range, every angle, every libm with bounded sine and cosine, both profiles",
  "A write outside the output panics; absence of such a write must hold for every angle, size and rounding error.",
  ["src/transform.rs: rotate","src/util/math.rs: vector_mul, vector_mul_mut, max_4, min_4"])
p("C75","Bilinear scaling by every factor: no panic, mixes the four neighbours of the source position, with the weights the wrong way round",
  "For every finite positive factors a, b with width*a and height*b at most 2^22 and samples of size at most 2^k, scale with Bilinear returns (sequentially and with rayon, any schedule) an image of size round(width*a) x round(height*b); the source position of output pixel (x, y) is (x/a, y/b) up to a relative error of 2^-24 and always inside the image; every sample is within 2^k/2^19 of the mix of the samples at the four surrounding pixels. Expected: the nearer neighbour weighs more. Actual: each neighbour gets the weight of the opposite one (bilinear_swapped, refutation in C23). Still no sample leaves the range of its channel by more than 2^k/2^19. The bound 2^22 is needed: a 4177 pixel wide line scaled by 1064.7685546875 panics in both builds.",
  "every f32 image with finite samples, all factors in the range, schedules and output positions; both profiles",
  "Whether a rounded quotient can reach the image width, and how far the rounded mix is from the real one, must be settled for all sizes and factors.",
  ["src/transform.rs: scale, scale_bilinear, interpolate_bilinear"])
p("C76","Nearest-neighbour scaling by every factor: copies the pixel before (x+1)/a, and panics whenever the output size was rounded up",
  "For every finite positive factors a, b with width*a and height*b at most 2^22: the output size is round(width*a) x round(height*b). Expected: every image can be scaled by every factor. Actual: if neither rounding went up, scale with NearestNeighbor returns (sequentially and with rayon, any schedule) an image each of whose pixels (x, y) is the input pixel (i, j) with i the last integer before (x+1)/a and j the last one before (y+1)/b (up to a relative error of 2^-24 of the quotients); if a rounded size exceeds the exact one by more than 2^-22 of itself, every build panics. In particular every image of odd width panics when scaled by 3/2.",
  "every f32 image, all factors in the range, schedules and output positions; both profiles",
  "Whether a rounded quotient can reach the image width must be settled for all sizes and factors.",
  ["src/transform.rs: scale, scale_nearest_neighbor, interpolate_nearest_neighbor"])
p("C77","Shear by any factors: size and positions, and the panic when the growth is just below an integer",
  "For finite factors a, b such that the sheared rectangle is less than K = 2^k <= 2^22 wide and high, and e = K/2^22: if the growths |a|*height and |b|*width are at least e below the next integer, shear returns an image of size width + floor(|a|*height), height + floor(|b|*width) in which every pixel is zero or an input pixel (x, y) found at (floor(x - a*y + max(a,0)*height), floor(y - b*x + max(b,0)*width)) up to e, and the position of every input pixel shows such a pixel. Expected: no finite factor makes shear panic. Actual: if a > 0 and the f32 product a*height is less than 2^(j-25) below the next integer, where the output is at least 2^j wide, shear panics in every build, whatever b is; e.g. for a = 1 - 2^-24 on every image with one row of four or more pixels.",
  "every f32 image, all finite factors in the range, both profiles",
  "Whether a rounded position can reach the width of the output must be settled for all sizes and factors.",
  ["src/transform.rs: shear","src/util/math.rs: vector_mul_mut"])
p("C78","Edge operators see differences only and treat all directions alike",
  "For every gray image without alpha whose samples are integers of size at most m (8-bit images: 255), every centre weight w with (w+2)*m <= 1448 (Prewitt: w=1, Sobel: w=2) and every libm whose powf(x, 2) is x*x: sobel_weighted, sobel and prewitt return the correctly rounded length of the gradient. Consequences: adding a constant to all samples, or replacing v by k - v, gives the same result bit for bit; the edges of the mirrored image are the mirrored edges, and transposition works likewise; a flat image gives exactly 0 everywhere (and laplacian gives 0, sharpen and unsharp_masking leave it alone). On a linear ramp a*x + c*y + k: in the interior the result is the rounded length of 2(w+2)(a, c) and the Laplacian is 0. Expected: the same on the border. Actual: on the left border column the horizontal derivative is halved and the Laplacian is -a, because missing neighbours are replaced by the centre.",
  "every integer gray image in the range, every weight, offset, axis, ramp and position, every schedule, both profiles",
  "Symmetry and invariance laws relate the results on all pairs of images; no finite set of images settles them.",
  ["src/filter/edge.rs: derivative_mask, prewitt, sobel, sobel_weighted, laplacian","src/filter/mod.rs: sharpen, unsharp_masking","src/transform.rs: reflect"])
p("C79","Lanczos scaling: accurate, exact at source pixels, but darkens flat areas and overshoots at steps",
  "For every positive finite factors, every kernel size 1..32, samples of size at most 2^k and every libm whose sinf has error at most |t|/2^22: scale with Lanczos (size 3) and scale_lanczos return, sequentially and with rayon, an image each of whose samples is close to the real Lanczos sum sinc(x) sinc(x/a) over the window (size 3: within 2^k/2048). Where the source position is a pixel, the sample is that pixel up to the tolerance; so upscaling by integers n, m puts pixel (i, j) at (n i, m j), and an 8-bit image converted to f32, scaled by 1 and converted back is itself. Expected: a flat image stays flat, and results stay in the range of the input. Actual: both refuted; weights are not normalised, so doubling the width of any flat image of 255 gives about 253.5 at column 1; and the row 0 0 255 255 doubled has a sample below -28.",
  "every f32 image with finite samples, all positive factors, kernel sizes 1..32, schedules and output positions, every sine with the stated accuracy; both profiles",
  "Error analysis of transcendental weights over all positions, images and math libraries.",
  ["src/transform.rs: scale, scale_lanczos, interpolate_lanczos","src/util/math.rs: lanczos_kernel, sinc_norm"])
p("C80","Bilateral filter: accurate in calm windows, and pixels that stand out become black",
  "For 1/256 <= range <= 256, spatial <= 64, an odd window of side 2h+1 >= 3 and every accurate power function, bilateral_filter works on the CIELAB image (finite samples, at most 512): every sample whose window differs from it by at most 9*range becomes the real mean of its neighbours (not of itself), weighted by exp(-distance^2/(2 spatial^2)) * exp(-difference^2/(2 range^2)), up to m(1013+(2h+1)^2)/2^22, where m bounds the samples of the window; so it stays between the smallest and the largest sample of the window up to that tolerance, and flat windows are kept. Expected: the result of a smoothing filter stays within the colours of the window. Actual: a pixel at distance at least h from the border whose L, a or b differs from all others in its window by at least 15*range becomes (0,0,0): all weights underflow and 0/0 is not a number. E.g. a gray pixel 100 in a 3x3 image of 255 becomes 0 for range 1, spatial 1/2.",
  "every 8-bit RGB or RGBA image of valid size, all parameters in the range, both builds, every schedule and every power function with the stated accuracy",
  "Rounding errors of exponentials, products, sums and quotients must be bounded for all windows and values.",
  ["src/filter/bilateral.rs: bilateral_filter, bilateral_direct_pixel","src/util/math.rs: gaussian_fn","src/util/mod.rs: generate_spatial_mat"])
p("C81","Linear light, XYZ and CIELAB values agree with the real formulas; the transfer curve and D50 do not agree with the standards",
  "For every 8-bit colour image and every accurate power function: linearize_srgb gives every sample's linear light (the formula with exponent 2.2) up to 4*10^-6; srgb_to_xyz gives the product with the sRGB/D65 matrix up to 5*10^-6; srgb_to_lab gives L*, a*, b* for the chosen white point up to 0.0063, 0.0531, 0.0221; L* lies in [-0.01, 100.01]; gray pixels have |a*| <= 0.14 and |b*| <= 0.04 for D65. Expected: linear light as in the sRGB standard; gray pixels neutral for every white point. Actual: the standard's exponent is 2.4 (byte 128 is below 0.217, the library gives more than 0.24); with D50 the matrix is not adapted and white has b* < -19.1.",
  "every 8-bit image with three colour channels, both white points, every power function with relative error 2^-20 on the range used, both profiles",
  "Error analysis over all 2^24 colours and all admissible math libraries.",
  ["src/colorspace.rs: linearize_srgb_f32, srgb_to_xyz_f32, srgb_to_lab_f32, xyz_to_lab_f32", "src/util/math.rs: xyz_to_lab_fn"])
p("C82","Threshold laws: idempotence, composition, order and splitting",
  "For every f32 gray image (infinities and NaN samples included unless said otherwise): thresholding twice with Trunc, ToZero or ToZeroInv is the same as once; if 0 <= t < max then Binary twice is Binary, BinaryInv twice is Binary, and mixing both gives BinaryInv, in both orders. Expected: Binary is always idempotent. Actual: not if max <= t: the pixel 250 with t=200, max=100 becomes 100 and then 0. Trunc at two levels in either order is Trunc at the lower level, ToZero at two levels is ToZero at the higher. Binary (max >= 0), Trunc and ToZero (t >= 0) keep the order of images, BinaryInv reverses it, ToZeroInv does neither; a higher threshold gives a smaller Binary image. For finite samples, the residual of an image and its ToZero image is its ToZeroInv image bit for bit and conversely. The residual with swapped arguments is the negative (integer samples of size at most 2^23).",
  "every f32 gray image, all thresholds and maxima, both profiles",
  "Laws relate the results of several calls on all images and parameters, including NaN and infinities.",
  ["src/filter/mod.rs: threshold, residual"])
p("C83","CIELAB and XYZ back to 8-bit, and brightness_lab / contrast_lab, agree with the real formulas; brightening tints grays",
  "For every accurate power function: lab_to_srgb turns every finite colour whose CIELAB coordinates (L+16)/116, (L+16)/116+a/500, (L+16)/116-b/200 lie between -1 and 1.98 into the bytes that encode its real linear light (inverse CIELAB curve, white point, inverse matrix) up to 1/8000, cut off to 0..255; xyz_to_srgb does so up to 1/60000. So away from the jump of the library's transfer curve at 0.0031308 (where it drops from 10.3 to below 6) each byte is at most half a level above and one and a half below the exact value. For every 8-bit colour image and every bias from -255 to 255, brightness_lab shows the colour with lightness L + 100*bias/255 and unchanged a, b, up to 0.0063, 0.0531, 0.0221 in L, a, b; contrast_lab with gain 0..1 shows gain*L likewise. Expected: a gray stays gray when only its lightness changes. Actual: black brightened by 128 becomes brown (red at least 118, blue at most 96), because the white point D50 is used with the D65 matrix.",
  "every f32 Lab or XYZ image with colours in the range, every 8-bit colour image, all biases and gains, both white points, every power function with relative error 2^-20 on bases up to 32, both profiles",
  "Error analysis over all colours, parameters and admissible math libraries.",
  ["src/colorspace.rs: lab_to_srgb_f32, lab_to_xyz_f32, xyz_to_srgb_f32, unlinearize_srgb_f32","src/tone.rs: brightness_lab, contrast_lab","src/util/math.rs: lab_to_xyz_fn"])
p("C84","Histogram equalization: what lightness a pixel gets",
  "For every 8-bit colour image of at most 2^30-1 pixels, either white point, alpha from 0 to 1, precision from 0 to 10^6 and every accurate power function: there is an assignment of colours to bins, where the number of the bin is precision*L* rounded, up to 0.501+0.0064*precision, and a colour lighter by at least 0.0126 never lies in a lower bin, such that every pixel of the result of histogram_equalization shows the colour with lightness alpha*100*share + (1-alpha)*L* and unchanged a*, b*, up to 0.0064, 0.0531, 0.0221, provided its lightness is to be raised by at most 101 (always so if the image has at least 10002*precision+300 pixels). share is (pixels in bins up to the pixel's bin + different bins up to it)/(pixels). Clearly lighter pixels are never aimed below darker ones. With alpha 0 every sample comes back or loses one level. A gray image of a single level with at least 100 pixels turns white (bytes 254 or 255) with alpha 1 and D65. Expected: share is a percentile, at most 1. Actual: the lightest pixel always has a share of 1 + (different bins)/(pixels) > 1, and if all pixels lie in different bins every share is twice the percentile.",
  "every 8-bit colour image in the range, both white points, all alphas and precisions, every power function with relative error 2^-20, both profiles",
  "The result of each pixel depends on the whole image; error analysis over all images, parameters and math libraries.",
  ["src/tone.rs: histogram_equalization","src/util/mod.rs: generate_histogram_percentiles","src/colorspace.rs: srgb_to_lab_f32, lab_to_srgb_f32"])
p("C85","Pixelwise operations commute with crop, reflect and overlay",
  "For every non-empty 8-bit image (for the f32 inputs: every f32 image) of the layout the operation needs, brightness (scalar path), contrast, gamma, saturation (scalar path), rgb_to_grayscale (scalar path), rgb_to_hsv, hsv_to_rgb, the sRGB/XYZ/Lab/HSV f32 conversions in both directions, brightness_lab, contrast_lab, threshold (grayscale images), the conversions between u8, f32 and f64 and the rescalings succeed, and applying them before or after crop (every accepted rectangle), reflect (both axes) or overlay (every position and front image of the same layout) gives bit-identical results; so does the residual of two f32 images, for crop and reflect. Expected: the SIMD build does so too. Actual: with the SIMD path of brightness a crop of 10 samples comes out black although the same pixels are brightened in the whole image.",
  "every image of the layout, every rectangle strictly inside, both axes, every overlay position, all accepted parameters, every math library, both profiles",
  "A law between two compositions of calls over all images, rectangles and positions.",
  ["src/tone.rs: brightness, contrast, gamma, saturation, brightness_lab, contrast_lab","src/colorspace.rs","src/transform/mod.rs: crop, reflect, overlay"])
p("C86","Morphology treats all directions alike, looks no further than its radius, and is self-dual away from the border",
  "For every binary image of at most 32896 pixels and every radius up to its width and height, each of erode, dilate, majority, open, close and gradient commutes bit for bit with both reflections, and gives the transposed result on the transposed image. A pixel at least one radius (two radii for open and close) away from the edges of a cropped part is the same whether the operation is done before or after the crop. Where the whole window lies inside the image, dilating the negative is the negative of eroding, eroding the negative is the negative of dilating, and the gradient of the negative is the gradient. Expected: this duality holds at every pixel. Actual: at the border both sides can be black.",
  "every binary image in the range, every radius, both axes, every accepted crop rectangle, both profiles",
  "Laws between compositions of calls over all images, radii and rectangles.",
  ["src/morphology.rs: erode, dilate, majority, open, close, gradient","src/transform.rs: reflect, crop"])
p("C87","Safe calls of the SIMD build that touch memory outside their buffers",
  "Expected: no safe public function has undefined behaviour. Actual, for the AVX2 build: rgb_to_grayscale on every well-formed image ends as a complete table over alpha flag, number of channels and number of pixels says: it is undefined for gray images of 34 or more pixels, for two-channel images with and without alpha of most sizes from 33 pixels, for one-channel alpha images from 35 pixels and three-channel alpha images with 1..10 leftover pixels; it panics for others; of the calls that return (3 pixels or more), exactly those on RGB without alpha and RGBA return an image whose buffer fits its size. brightness on a well-formed image is undefined exactly in release builds from 4294967264 samples on; on an image built by from_vec with a buffer shorter than the whole 32-sample chunks announced it is always undefined. saturation (below the 32-bit edge) is undefined exactly for colour images without alpha whose number of pixels is a multiple of ten.",
  "every well-formed image of every channel count, every short buffer, all accepted biases and saturations, both profiles",
  "Undefined behaviour need not show in a test run, and the claim ranges over all image sizes.",
  ["src/colorspace.rs: rgb_to_grayscale","src/tone.rs: brightness, saturation","src/simd.rs: adds_256_u8, adds_n_256_u8, avg_256_u8, avg_alpha_256_u8","src/image/mod.rs: Image::from_vec"])
p("C88","The text of an ImageInfo is faithful",
  "Formatting an ImageInfo with {} gives four lines, \"width: W\", \"height: H\", \"channels: C\", \"alpha: true|false\", where W, H, C are the usual decimal numerals (digits only, no leading zero; a number has exactly one); two different layouts never give the same text.",
  "every layout (u32 sides, u8 channels, both alpha flags)",
  "Injectivity relates all pairs of 2^73 layouts.",
  ["src/image/mod.rs: impl Display for ImageInfo"])
p("C89","Linear filters: superposition, separability, mirror images and crops",
  "For integer images and integer kernels whose products sum to at most 2^24: unseparable_filter computes the exact integer correlation, so filtering a combination a*A+b*B gives a*(filtered A)+b*(filtered B); separable_filter with lines v and h gives the same values as unseparable_filter with the product kernel v*h, borders included; filtering the mirrored image with the mirrored kernel gives the mirrored result. Bit for bit and for all samples: a vertical 1D filter commutes with left-right reflection and a horizontal one with up-down reflection; and for filter_1d, separable_filter, unseparable_filter, linear_filter, gaussian_blur, box_filter, weighted_avg_filter, sharpen, unsharp_masking, laplacian, laplacian_of_gaussian, prewitt, sobel and every derivative_mask on gray images, filtering a crop gives, away from the edges of the crop by the radius of the filter, the crop of the filtered image, whatever the builds and schedules. Expected: mirrored images give mirrored results for all samples. Actual: beyond 2^24 the order of summation shows: the row 16777216, 1, 1 with weights 1, 1, 1 gives 16777216, its mirror image 16777218.",
  "every f32 image with sides up to 2^30, every kernel in the range, every rectangle strictly inside, both axes, all schedules, both profiles",
  "Laws between compositions of calls over all images, kernels and rectangles.",
  ["src/filter/mod.rs: filter_1d, separable_filter, unseparable_filter, linear_filter, box_filter, weighted_avg_filter, gaussian_blur, sharpen, unsharp_masking","src/filter/edge.rs: derivative_mask, prewitt, sobel, sobel_weighted, laplacian, laplacian_of_gaussian","src/transform.rs: crop, reflect"])
p("C90","8-bit hue accuracy, and what saturation does to colours",
  "For every non-empty 8-bit RGB(A) image: rgb_to_hsv gives every pixel that is not gray a hue less than one step (1/255 of the circle, across the wrap-around) from its exact position on the colour wheel. saturation(-255) turns every pixel into the gray of its largest sample; a larger argument never gives a larger smallest sample, and the largest sample is always kept; an argument of 0 keeps largest and smallest and moves the third sample by at most 18. Expected: 0 changes nothing, the strongest channel stays strongest, grays stay gray. Actual: (0,255,0) becomes (3,255,0) for 0; (255,30,245) becomes (253,30,255); for every d>0 a gray v becomes the red [v, v(255-d)/255, v(255-d)/255], so saturation(-255) followed by saturation(255) turns every image into pure reds. The alpha sample is kept throughout.",
  "every non-empty 8-bit image with three colour channels, every argument from -255 to 255, both profiles (scalar path)",
  "Ranges over 2^24 colours times 511 arguments and all image sizes; the exact hue is a real number.",
  ["src/tone.rs: saturation","src/colorspace.rs: rgb_to_hsv, hsv_to_rgb"])
p("C91","What == on images means",
  "Two images of integers are == exactly when they have the same width, height, channel count and alpha flag and the same pixel at every position; in particular writing a pixel leaves an equal image exactly when that pixel was already there. Two f32 images are == exactly when layout and number of samples agree and the samples are pairwise the same number (neither is NaN, and they are identical or both zeros); this is symmetric and transitive. Expected: an image equals its clone, and equal images cannot be told apart. Actual for f32: an image equals its clone exactly when it holds no NaN, and a pixelwise function can turn two equal images (0 and -0) into unequal ones.",
  "every pair of images of any integer channel type and of f32, every position and pixel, both profiles",
  "An equivalence over all pairs of images; tests compare a few.",
  ["src/image/mod.rs: derive(PartialEq) for Image and ImageInfo, get_pixel, set_pixel"])

p("C92","Channels are treated separately and alike",
  "Take some of the channels of an image, in any order and possibly repeated (for example only the green plane, or BGR instead of RGB). Then crop, translate, reflect, shear, rotate, scale (every interpolation), Lanczos scaling, overlay (of the same channels of both pictures), the one-dimensional, separable, two-dimensional and linear filters, box, weighted average, Gaussian blur, sharpen, unsharp masking, Laplacian, Laplacian of Gaussian, median filter and alpha-trimmed mean give on the selected channels, bit for bit, those channels of what they give on the whole image; the alpha flag plays no part and is passed on. The mapping functions that spare the alpha channel are not of this kind.",
  "every image, every choice of channels, every argument for which the operation returns, both profiles, every schedule of the parallel build, every math library",
  "Two runs on different images are compared, over all images and all choices of channels.",
  ["src/transform.rs: crop, overlay, translate, reflect, rotate, shear, scale, scale_lanczos","src/filter/mod.rs: filter_1d, separable_filter, unseparable_filter, linear_filter, box_filter, weighted_avg_filter, gaussian_blur, sharpen, unsharp_masking","src/filter/edge.rs: laplacian, laplacian_of_gaussian","src/filter/median.rs: median_filter, alpha_trimmed_mean_filter"])

p("C93","Median filter and tone curves",
  "Expected: the median filter commutes with every increasing tone curve, with the negative and with mirroring, and brightening pixels never darkens the result. Actual: it commutes with every curve that is strictly increasing on the levels occurring in the picture (in particular with a brightness change that does not saturate), and it leaves pictures of a single colour alone; but it does not commute with posterising, with the negative, or with mirroring in either direction, and brightening two pixels can darken a third.",
  "every u8 image (within 2^31), radius, math library, profile, and every tone curve with the stated property",
  "A law relating two runs, for all images and all curves.",
  ["src/filter/median.rs: median_filter","src/image/mod.rs: map_channels","src/tone.rs: brightness"])

p("C94","Debug and release builds agree unless the debug build panics; without SIMD nothing is undefined",
  "For every call of every operation of the crate (images, pixels, iterators, conversions, kernels and tables, colour spaces, tone, morphology, transformations, filters; sequential or rayon build), with any arguments whatsoever, including images whose buffer does not fit their announced size: either the debug build panics, or the release build does exactly the same (same value, same error, same panic); and neither build has undefined behaviour, unless SIMD is used. Operations that take closures inherit this from the closure, and so do programs made of several calls. With SIMD the debug build still panics or does what the release build does, but undefined behaviour is possible. Expected: both builds give the same result. Actual: where the debug build panics the release build may go on with a wrapped number: the residual of the 8-bit samples 0 and 1 is 255, a 65536 x 65536 layout has size 0, a crop from x = 4294967295 returns an empty image.",
  "every argument of every operation, without any assumption on the images; every schedule, math library, SVD and binary search",
  "Two builds are compared on all inputs; a test runs one build on a few.",
  ["src/image/mod.rs","src/image/pixel.rs","src/image/sub_image.rs","src/image/pixel_iter.rs","src/image/from_impl.rs","src/convert.rs","src/util/mod.rs","src/util/math.rs","src/colorspace.rs","src/tone.rs","src/morphology.rs","src/transform.rs","src/filter/mod.rs","src/filter/edge.rs","src/filter/bilateral.rs","src/filter/median.rs","src/simd.rs"])

p("C95","What histogram equalization depends on",
  "Histogram equalization of an RGB or RGBA image depends only on how often each colour occurs, not on where: two images whose colours are rearrangements of each other (of any shapes, with or without alpha) are equalized alike, the same colour becoming the same colour; equal colours of one image stay equal; and equalizing commutes with mirroring the image in either direction. Expected: only the proportions of the colours matter. Actual: with half equalization a black image of one pixel becomes nearly white and a black image of four pixels a medium gray, so that equalizing does not commute with cropping.",
  "every 8-bit RGB(A) image of up to 2^30 pixels, every accepted amount and precision, both white points, every powf (every accurate powf for the refutation), both profiles",
  "Relates runs on all pairs of rearranged images.",
  ["src/tone.rs: histogram_equalization","src/util/mod.rs: generate_histogram_percentiles","src/transform.rs: reflect"])

p("C96","What a sample of the median filter depends on",
  "Expected: every sample of median_filter depends only on its window. Actual: it depends only on the same channel, on the columns within the radius and on the rows from the first down to y + radius; but of those rows none is too far: for radius 1 and every n up to 2^29 there are two images that differ in a single pixel of the first row and whose results differ in row n. Filtering a part that begins at the first row gives, away from its left, right and lower edge by the radius, the same part of the filtered image. With radius 0 the filter does not leave the image alone: every sample becomes the largest of its column so far.",
  "every u8 image (within 2^31), radius, part, distance, math library, profile",
  "Two runs on all pairs of images, at every distance.",
  ["src/filter/median.rs: median_filter","src/transform.rs: crop"])

p("C97","The bilateral filter treats equal surroundings alike",
  "Two pixels, of the same or of different images (with the same alpha flag), that are at least half a window away from the borders and have the same pixels around them become the same pixel, bit for bit, whatever the sizes of the images, the positions, the builds (sequential or rayon) and the schedules. So filtering a cropped part gives, away from its edges by half a window, the crop of the filtered image.",
  "every pair of 8-bit RGB(A) images of accepted size, every position, every accepted range and spatial, odd windows up to 65535, both builds, every schedule, math library, profile",
  "Relates pairs of runs at all positions.",
  ["src/filter/bilateral.rs: bilateral_filter","src/transform.rs: crop","src/colorspace.rs"])

p("C98","Nearest-neighbour scaling by whole factors",
  "Scaling by whole factors with the nearest-neighbour method: scaling twice is scaling once by the product of the factors; scaling commutes with mirroring, with cropping at multiples of the factors, with shifting by multiples of the factors, with thresholding, and with every operation that works pixel by pixel; halving undoes doubling. Expected: 1/k undoes k, and scaling down commutes with mirroring. Actual: scaling a one-pixel image by 61 and then by 1/61 panics, and halving a row of four and mirroring it gives different pixels depending on the order.",
  "every f32 image and whole factors for which the scaled sides stay below 2^24 and the image within 2^32 samples; both profiles, every math library",
  "Relates composed runs on all images and all factors.",
  ["src/transform.rs: scale, crop, reflect, translate","src/filter/mod.rs: threshold"])

p("C99","Enlarging by powers of two: what a pixel depends on",
  "Scaling by factors 2^k and 2^l: an output pixel at (x, y) depends only on the source pixels from x/2^k - before to x/2^k + after (rows alike), where (before, after) is (0, 0) for nearest neighbour, (0, 1) for bilinear, (1, 2) for bicubic and (2, 3) for Lanczos; and enlarging a cropped part gives, bit for bit, away from its edges by that much, the same pixels as cropping the enlarged image (for scale_lanczos: (size - 1, size)). Expected: enlarging commutes with mirroring. Actual: not even bilinear scaling of a row of two pixels does.",
  "every f32 image, every method, exponents 0..23 with the enlarged sides below 2^24, every part, any powf and sin, both profiles",
  "Two runs on all pairs of images and all parts; equality is exact in f32.",
  ["src/transform.rs: scale, scale_lanczos, interpolate_bilinear, interpolate_bicubic, interpolate_lanczos, crop"])
p("C100","alpha_trimmed_mean_filter: what a sample depends on",
  "Expected: a sample depends only on its window, and a window of one value gives that value. Actual (radius <= 127, alpha >= 2, whenever images are returned): a sample depends only on its own channel, on the columns at most the radius away, and on all rows from the top of the image down to y + radius; so filtering a part of the picture that reaches up to its first row gives the same samples away from the part's other sides. The expectation is refuted: a difference in the first row alone is still visible far below, where all windows have the one value 50 and 40 and 80 are shown.",
  "every pair of u8 images with the same layout, radius, alpha, position, every binary search",
  "the state is carried from row to row; a test sees single pictures, not what pairs of them have in common",
  ["src/filter/median.rs: alpha_trimmed_mean_filter, MeanHist::update, process_cols_mean"])
p("C101","Whatever a program calls, its images stay well-formed",
  "Expected: a program that starts from well-formed images and calls the public functions in any order, as often as it likes, with any arguments of the right types, only ever holds images whose buffer has width * height * channels samples (a number that fits in u32) and whose u8 samples are between 0 and 255: no overflow in a size goes unnoticed and no function leaves a buffer of the wrong length. Actual: true of every debug build, sequential or rayon, with or without SIMD, for all functions that return or change an image and for closures that return values of the right types (side conditions: rgb_to_grayscale_f32 gets an image with a colour channel, rgb_to_grayscale of a SIMD build one with three). Refuted for release builds (crop under rayon turns a good 2x2 image into one of 4294967295 x 4294967295 pixels with one sample; blank of 65536 x 65536 has none) for rgb_to_grayscale of a SIMD build on a gray image (three pixels with one sample), and for the constructors that take a buffer, and empty, which check nothing.",
  "every finite sequence of calls, all arguments, closures, schedules, libm, SVD and binary search results",
  "The programs are unboundedly many; a test runs a few of them, and a wrong length shows only when a later call reads past it.",
  ["src/image/mod.rs: Image, set_pixel, apply_pixels, map_pixels, blank, empty","src/transform.rs: crop, scale","src/filter/mod.rs: residual, linear_filter"])
p("C102","Which errors a call can return",
  "Expected (from the error type and the Result signatures): a wrong argument is reported as InvalidArgError, a failed computation as NumericError, a failure of the linear algebra library as RulinalgError. Actual: outside the io module the only error a call ever returns is InvalidArgError; functions without a Result never stop with an error of a function they call; translate, reflect, rotate, shear, median_filter, scale_channels, sharpen, unsharp_masking and laplacian return a Result but never Err. With kernels of fewer than 2^32 elements filter_1d returns Err exactly for a kernel of even length, separable_filter exactly for an even length or two different lengths, box_filter exactly for an even size, prewitt, sobel and sobel_weighted, the morphological operations, threshold and normalize_laplacian exactly for an image that is not gray; up to 2^24 elements unseparable_filter and linear_filter report exactly an even or non-square length, and up to size 4096 weighted_avg_filter, gaussian_blur and laplacian_of_gaussian exactly an even size; the tone functions, crop, overlay, scale, residual, bilateral_filter, alpha_trimmed_mean_filter, gaussian_fn, the kernel generators and vector_mul report exactly the arguments outside their documented ranges (a NaN is in every range), generate_spatial_mat a negative sigma when the size is at least 2, and superimpose always reports an error; and a failed singular value decomposition makes linear_filter panic instead of returning RulinalgError.",
  "every argument of every public function outside io, both profiles, every schedule, with and without SIMD, any closures and channel types, any result of libm, svd and binary search",
  "That no input makes a call return another error is a statement about all inputs; a test shows the error of one.",
  ["src/error/mod.rs: ImgProcError","src/error/messages.rs","src/filter/mod.rs: filter_1d, separable_filter, box_filter, linear_filter","src/filter/edge.rs: derivative_mask","src/util/math.rs: separate_kernel","src/morphology.rs: open, close","src/tone.rs: brightness, contrast, gamma","src/transform.rs: crop, scale, overlay"])
