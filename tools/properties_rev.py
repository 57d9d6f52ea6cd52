# Revised statements: what the code really does, where the documented behaviour turned out false.
# R(id, title, statement)
R("C06","size_hint of the pixel iterator: exact at the start, wrong after the first item",
  "Iterator contract: at every point size_hint() = (lo, Some hi) with lo <= number of items still to come <= hi. Actual behaviour: the upper bound is always valid and the hint is exact before the first next(); but after ANY positive number of next() calls on any non-empty image the lower bound is still the full pixel count, which exceeds the number of remaining items: one of the promised items is None (contract refuted).")
R("C11","get_subimage: which pixel is really returned",
  "Documented: get_subimage(x,y,w,h).get_pixel(i,j) is get_pixel(x+i,y+j). Actual: for every rectangle inside the image it is the pixel at (x + (j*w+i) div h, y + (j*w+i) mod h) (the rectangle is stored column-major and read row-major), which agrees with the documentation for one-row and one-column rectangles and is refuted for a 2x2 one; a non-empty rectangle sticking out of the image panics.")
R("C12","Neighbourhoods: which pixels are really returned",
  "Documented: get_neighborhood_1d / 2d return size (size*size) pixels in order, entry i being the pixel at offset i - size/2 from the centre with clamp padding. Actual: the offsets and the count are as documented, but a coordinate outside the image is replaced by the CENTRE coordinate; for size <= 3 this equals clamp padding, for every size >= 4 the documented clamp padding is refuted.")
R("C15","crop rejects every rectangle that reaches the right or bottom edge",
  "Expected: crop returns Ok for every rectangle with x+w <= img.width and y+h <= img.height. Actual: every such rectangle with x+w = img.width or y+h = img.height is rejected with an error; in particular cropping to the whole image always fails, for every image (expectation refuted).")
R("C16","crop with overflowing sums",
  "If x+w or y+h exceeds u32::MAX: a debug build panics, or returns an error because x+w already reaches the image width; a sequential release build panics, returns an error, or returns Ok for a rectangle with w*h = 0 only. The rayon release build is refuted: it can return Ok with an info of 2^31 x 2 pixels and no data at all.")
R("C17","Multithreaded and sequential builds compute the same image, whatever the schedule",
  "For crop, scale (all methods), scale_lanczos, filter_1d, separable_filter, unseparable_filter and the filters built on them, the build with the rayon feature and the sequential build give the same result (same Ok image, same error, both panic) on every well-formed input, for every order in which the parallel tasks are executed: crop and scale always in debug builds, and in release builds whenever the output sizes and coordinate sums fit in 32 bits; the filters for kernel lengths up to u32::MAX (one-dimensional) and 2^24 (square). For longer square kernels this is refuted: a kernel of 16785407 weights passes the f32 squareness check, then the sequential build returns an error and the rayon build panics.")
R("C19","superimpose always returns an error",
  "Documented: for two images with equal channel counts and 0 <= alpha <= 1, superimpose returns Ok with the blend. Actual: superimpose returns an InvalidArgError for every pair of images, position and alpha (the range check is called with min and max swapped: refuted).")
R("C31","generate_spatial_mat is the Gaussian of the distance to the centre, for odd sizes",
  "For every odd size (size*size within u32) and every sigma that is not negative, generate_spatial_mat returns size*size entries: 0 at the centre, and at every other (y,x) the Gaussian of the distance of (x,y) from the centre (correctly rounded distance while dx^2+dy^2 <= 2^24). Even sizes (0 included) always panic or fail; a negative sigma is an error for every size >= 2.")
R("C33","Histogram percentiles: what is really stored",
  "Documented: every occurring bin is mapped to (number of pixels in bins <= it)/(number of pixels), so the largest is 1. Actual: every occurring bin k is mapped to (number of pixels in bins <= k + number of distinct occupied bins <= k)/(number of pixels), other keys are left alone, every pixel finds its bin; hence for every non-empty image the largest stored value exceeds 1 (documentation refuted).")
R("C22","scale by nearest neighbour: exactly when it succeeds and what it copies",
  "Expected: for finite positive factors scale(img,fx,fy,NearestNeighbor) returns Ok with dimensions round(width*fx) x round(height*fy), every output pixel being an input pixel. Actual: it is Ok exactly when every computed source coordinate ceil((x+1)/fx)-1, ceil((y+1)/fy)-1 (in f32, x, y over the output) is inside the input, and then output (x,y) is that input pixel; otherwise it panics. Integer factors n, m always succeed and give pixel (x div n, y div m); factors 1 are the identity; factor 1/2 succeeds for even sizes but panics for every image of odd width (expectation refuted).")
R("C23","bilinear scaling swaps the weights of the neighbours",
  "Expected: at fraction t between two neighbours a (left/upper) and b the result is (1-t)*a + t*b. Actual: for power-of-two factors up to 256 and integer samples 0..255 the result is exactly the mix with the weights SWAPPED (t*a + (1-t)*b) wherever the fraction is non-zero (expectation refuted); with factors 1 the result equals the input for every image of finite samples.")
R("C24","rotate by 0 degrees is not the identity: what it really returns",
  "Expected: rotate(img,0.0) returns the image itself. Actual: for every image of at least one pixel (sides below 2^23) it returns Ok with the same info; output column a holds input column min(a+1,w-1) for odd widths, and a+2 (else a+1, else zeros) for even widths; output row b holds input row b+1, and the last row is zero (unless the image has one row). The identity is refuted for every image of at least two rows whose last row is not zero.")
R("C25","shear: identity for 0, exact placement for integer factors, a panic for other factors",
  "shear(img,0,0) returns the image itself. For integer factors a, b with a*b <> 1 (output at most 2^24 wide and high) shear returns Ok with size (w+|a|h, h+|b|w); pixel (x,y) is at (x-a*y+(a>0 ? a*h : 0), y-b*x+(b>0 ? b*w : 0)) and every other pixel is zero. Totality for every finite factor of modest size is refuted: a factor just below 1 panics on a 4x1 image.")
R("C34","erode computes morphological erosion",
  "For a one-channel image without alpha (sums exact in f32: twice the sum of all samples <= 2^24, e.g. at most 32896 pixels; radius <= width, height) erode sets a pixel to 255 exactly when the whole (2r+1)^2 window around it lies inside the image and is white, else 0. Without the exactness bound this is refuted: on every all-white row of at least 65795 pixels radius 0 turns pixel 65794 black.")
R("C35","dilate: which window it really looks at",
  "Documented: for a binary one-channel image dilate sets a pixel to 255 exactly when some white pixel lies within Chebyshev distance r of it. Actual (same exactness bound as C34): on a side where the full radius does not fit in the image the window stops at the pixel itself; so the result is never more than the dilation, equals it at every pixel whose window is inside the image, and differs from it near the border (refuted).")
R("C36","majority is dilate",
  "Documented: majority sets a pixel to 255 exactly when more than half of the window pixels are white. Actual: majority returns exactly what dilate returns on every input, so every interior pixel that sees one white pixel becomes white (refuted).")
R("C37","open, close and gradient are the compositions / differences of erosion and dilation",
  "open(img,r) = dilate(erode(img,r),r) and never adds a white pixel; close(img,r) = erode(dilate(img,r),r) and keeps every white pixel at distance >= 2r from the border (but removes border pixels of an all-white image: closing is not extensive, refuted); gradient(img,r) is white exactly where dilate is white and erode is not.")
R("C38","Morphology: which images and radii are rejected, accepted, or crash",
  "Expected: the six functions return an error for non-grayscale images and never panic on grayscale ones. Actual: non-grayscale images always give an error; binary images without alpha of at most 32896 pixels always give Ok when radius <= width, height; a radius exceeding width or height makes all six panic on every non-empty grayscale image in both profiles; on (gray, alpha) images dilate and majority panic whenever some gray sample is 255 and otherwise (all gray samples 0) drop the alpha samples; a mask of more than 2^32/255 pixels panics in debug (expectation refuted).")
R("C40","SIMD brightness: processes whole 32-byte chunks only",
  "Expected: on AVX2 hardware with the default simd feature brightness returns the same image as the scalar path. Actual: the samples before the last multiple of 32 equal the scalar result (for images with alpha, sample positions 3 mod 4 are kept); all samples after it are 0. The two paths agree exactly on buffers of a multiple of 32 samples; every image of less than 32 samples becomes all zero (expectation refuted). Buffers within 32 bytes of 2^32 samples panic in debug and are undefined behaviour in release.")
R("C41","saturation: exact effect (scalar), and where the SIMD path differs or reads out of bounds",
  "Scalar: saturation(img,s), |s| <= 255, replaces every RGB triple by the triple obtained by converting to HSV, adding s to S with clamping and converting back; the largest sample of the triple is kept, alpha and info are kept; |s| > 255 is an error. Expected of the SIMD path: the same, reading and writing only inside the buffers. Actual: RGB images with a positive multiple of 10 pixels are undefined behaviour (a 32-byte load at the last 30 bytes); otherwise pixels before the last multiple of 10 (8 with alpha) equal the scalar result and the remaining ones become 0 in every channel, alpha included; agreement for RGBA images of a multiple of 8 pixels (expectation refuted).")
R("C62","adds_n_256_u8: what it adds to, and an invalid n",
  "Documented: adds_n_256_u8(img,val,n) adds val with saturation to channel n, or to all channels when n is not a channel. Actual: in the whole chunks (32 samples with alpha, 30 without) exactly the samples at positions n mod 4 (n mod 3) get val added with saturation; an n that is not a channel adds to NO channel (refuted: it returns the image unchanged); samples after the last whole chunk are copied for the 2 samples overlapped by the last store and 0 otherwise; without alpha and at least 30 samples, a sample count of 0 or 1 mod 30 is undefined behaviour.")
R("C42","contrast never brightens, keeps order, keeps alpha; NaN blackens",
  "contrast(img,g) with 0<=g<=1 maps every colour sample c to round(fl(c*g)) <= c, monotonically in c, within 1/2+2^-16 of c*g, the identity for g=1; alpha and info are kept; g<0 and g>1 (infinities included) give an error. A NaN gain is not rejected: it makes every colour sample 0.")
R("C47","SIMD rgb_to_grayscale: what it really computes",
  "Expected: on AVX2 hardware rgb_to_grayscale returns the same image as the scalar path, up to rounding of at most 1. Actual: for RGB and RGBA images, pixels (numbered row by row) before the last multiple of 32 become avg(avg(r,g),b) (rounding averages: weights 1/4,1/4,1/2, up to 43 away from the mean, but between the smallest and largest sample) with alpha kept, the remaining pixels become 0, alpha included; images of less than 32 pixels become black. One-channel images of at least 34 pixels are undefined behaviour (out-of-bounds store). Expectation refuted.")
R("C49","u8 -> scaled f32 -> u8 is lossless",
  "f32_to_u8_scale(u8_to_f32_scale(img,s),s) = img for every scale s from 1 to 2^32-1; scale 0 gives a black image.")
R("C50","Linear filters are local convolutions with the documented kernel",
  "filter_1d and unseparable_filter (separable_filter: a vertical then a horizontal filter_1d) keep info and give at (x,y), channel by channel (alpha included), the f32 sum, in kernel order, of kernel[i] times the i-th pixel of the neighbourhood (a coordinate outside the image is replaced by the centre's); hence the result depends only on pixels within half the kernel size and on the same channel; an even-length or non-square kernel gives an error. For integer (and dyadic) images and kernels the sum is exact while the sum of absolute products stays within 2^24 units. linear_filter does this with the kernel itself, or, when the decomposition returned by the SVD library has rank one, with the two vectors made of it. sharpen, unsharp_masking, laplacian, weighted_avg_filter, gaussian_blur, laplacian_of_gaussian use exactly their documented kernels. (Image sides up to 2^30, kernels up to 2^24 weights.)")
R("C51","box_filter averages a size^2 x size^2 window",
  "Documented: box_filter(img,size) averages the size x size window around each pixel. Actual: for odd size it is a vertical then a horizontal one-dimensional filter with size^2 (not size) weights 1/size^2, so it depends on the window of side size^2, and the documented window is refuted for size 3; even sizes give an error; size above 65536 panics in a debug build.")
R("C53","residual is the sample-wise difference",
  "residual(a,b) with equal infos is the image of a-b, alpha samples included; residual(a,a) is black (for f32: if all samples are finite); different infos give an error; for integer samples a difference that does not fit the type panics in debug and wraps in release.")
R("C54","normalize_laplacian maps the extremes to 0 and 255, unless the range overflows",
  "Expected: normalize_laplacian of a grayscale image without NaN maps its minimum sample to 0 and its maximum to 255 when they differ, monotonically in between. Actual: true (and every result is within 1/2 + 1/128 of the affine map, alpha samples being treated like gray samples) when the f32 difference max - min is finite; when it overflows, or when min = max, the whole image becomes 0 (expectation refuted for two samples -2^127 and 2^127). Images that are not grayscale give an error; empty images, and images of at least two samples with a NaN, panic.")
R("C55","Edge operators: exact result on gray images, panic on gray+alpha images",
  "Expected: derivative_mask, prewitt, sobel and sobel_weighted return Ok for every grayscale image (with or without alpha). Actual: for one channel without alpha they return sqrt(powf(gx,2)+powf(gy,2)), gx and gy being the image filtered with the column/row kernels and with the two swapped; on integer images gx and gy are exactly the weighted central differences (weights 1,w,1; Prewitt w=1, Sobel w=2). Every non-empty (gray, alpha) image panics (expectation refuted); other channel counts and kernels of even or different lengths give an error.")
R("C57","median_filter outputs the window median, except after ties and in the last column",
  "Documented: every output sample is the median of the (2r+1)^2 window around it (coordinates clamped to the image). Actual, for every u8 image with pixels (radius < 2^14, sums within i32): the first row is the median; in every later row the sample is the median too unless exactly half of the window (rounded up) is smaller than the result of the row above, in which case that result is repeated; the last column shows the value computed for the last column of the last block of 4 r^(2/3) columns, which may lie outside the image. Hence every sample outside the last column is within one rank of the median and every output sample occurs in the input channel, but the documented claim is refuted (radius 0 does not leave a 1x2 image alone; wrong last column for a 2x2 image with radius 1). No columns: an empty image; columns but no rows: panic.")
R("C58","alpha_trimmed_mean_filter validates alpha; its values are not the trimmed means",
  "Documented: odd alpha and alpha >= (2r+1)^2 give an error; otherwise every output sample is the rounded mean of the (2r+1)^2 window without its alpha/2 lowest and alpha/2 highest values. Actual (radius <= 127): the errors are as documented (radius < 2^15). Whenever an image is returned, its first row is computed from the first input row alone, repeated downwards, and the alpha/2 values dropped at the upper end start at the first occurrence of the value of that rank; this is the documented value if there is no tie at the upper end and the image has one row. For alpha >= 2 every sample of the later rows is also known exactly: each window carries a running 32-bit sum and two lists of dropped values from row to row, samples entering and leaving one by one by fixed rules, with occurrences counted wrongly (row 0 in place of rows 1 to r) for the rest of the column. A one-row image is always processed; an image of one colour is preserved for alpha >= 2; alpha = 0 panics on every image with two or more rows. For alpha >= 2 a release build returns an image exactly when the running state of no window gets stuck (a list of dropped values that is too short, or a position outside it); some accepted alphas do panic (a column of eight samples, radius 1, alpha 8). The documented value is refuted by ties (10 20 30, alpha 8: 30 instead of 20), by the first row ignoring the rows below, and in later rows, where results may even lie outside the range of the input (a value leaving the window is looked up among the wrong dropped values).")
R("C59","bilateral_filter: which parameters work, and the exact result",
  "Expected: bilateral_filter(img, range, spatial, Direct) returns Ok for all finite non-negative range and spatial; negative values give an error. Actual (8-bit images with three colour channels): negative values give an error; the window side is trunc(4*spatial+1); odd sides up to 65535 give Ok, with the size and layout of the input; even sides panic (so spatial = k/4 panics for every odd k), sides above 65535 panic in debug. When it succeeds, the image is converted to CIELAB (D65), every sample of every channel, alpha included, becomes the mean of its window weighted by (Gaussian of the distance) * (Gaussian of the value difference), the pixel itself having weight 0 and coordinates outside the image being replaced by the centre's, and the result is converted back; so a pixel depends only on its window. spatial in [0,1/8], and range = 0, give an all-zero (black, transparent) image. Sequential and rayon builds agree.")
R("C60","write accepts exactly the supported layouts and read . write is lossless",
  "io::write hands the unmodified samples to the encoder exactly for well-formed Gray, GrayAlpha, RGB, RGBA images and returns the encoder's answer; every other layout gives an unsupported-color-type error and a buffer that is too short a write error, both without touching the file system. io::read returns the decoded samples for the 8-bit layouts (BGR and BGRA pictures without reordering, so channel 0 is blue: reading the true colours is refuted for them), an error for 16-bit ones, and passes on decoder errors. Reading back what write wrote through a lossless codec yields an equal image.")
R("C48","Colour conversions compute the documented formulas, keep dimensions and carry alpha through",
  "On every non-empty image with three colour channels, linearize/unlinearize, sRGB<->XYZ, XYZ<->LAB, sRGB<->LAB and the HSV f32 conversions return an image of the same width, height, channel count and alpha flag in which every pixel's colour is replaced by the value of the published formula (sRGB transfer with gamma 2.2, the sRGB/XYZ matrices, CIELAB with delta = 6/29 and the D50/D65 white points, hexagonal HSV), each operation rounded to f32; alpha samples only change representation, and a u8 alpha sample survives sRGB -> LAB -> sRGB, sRGB -> XYZ -> sRGB and RGB -> HSV -> RGB unchanged, whatever the libm power function returns.")
R("C63","Tone operations in CIELAB validate, are total, change only the lightness, keep size and alpha",
  "brightness_lab (|bias|<=255), contrast_lab (gain not <0, not >1) and histogram_equalization (alpha and precision in range; at most 2^30-1 pixels) return Ok for every non-empty RGB/RGBA image, with the same info and unchanged alpha samples; every colour is converted to CIELAB, its L* is replaced by L* + bias/255*100, L* * gain, or the blend alpha*percentile*100 + (1-alpha)*L* (percentile of the L* bins of the whole image, each distinct bin counted once too often), a* and b* are kept, and the colour is converted back. histogram_equalization finds the percentile of every pixel (no missing-key panic). Out-of-range arguments give an error. For every libm power function.")
