{"id": "C01", "title": "Constructors store exactly the given samples", "statement": "from_slice, from_vec, from_vec_of_vec and from_vec_of_slice return an image whose info() is the four given values and whose data() is the given samples, resp. the concatenation of the given vectors, in order; blank(info) has width*height*channels samples all equal to zero whenever that product fits in 32 bits.", "quantifier": "all dimensions, channel counts, alpha flags and sample vectors, both overflow profiles (debug and release)", "why_tests_cant": "sizes and contents are unbounded; 32-bit overflow of the product only shows for huge dimensions", "anchors": ["src/image/mod.rs: Image::from_slice, from_vec, from_vec_of_vec, from_vec_of_slice, blank, empty"]}
{"id": "C02", "title": "set_pixel then get_pixel: the written pixel, and only that pixel, changes", "statement": "On a well-formed image, after set_pixel(x,y,p) with x,y in bounds and p of the right length, get_pixel(x,y) returns p, get_pixel at any other coordinates returns what it returned before, and info() is unchanged; the same for set_pixel_indexed and the 1D index.", "quantifier": "every well-formed image, every pair of coordinates, every pixel value, both profiles", "why_tests_cant": "needs every pair of positions in every image size; tests try two positions of one 3x3 image", "anchors": ["src/image/mod.rs: Image::set_pixel, set_pixel_indexed, get_pixel, Index"]}
{"id": "C03", "title": "Pixel access succeeds exactly on in-bounds coordinates and right-length pixels", "statement": "On a well-formed image get_pixel / get_pixel_mut return a slice of exactly `channels` samples when x<width and y<height and panic otherwise; set_pixel succeeds exactly when moreover the pixel has `channels` samples (a pixel whose length only agrees modulo 256 is still rejected), and panics otherwise; never an error value, never out-of-bounds memory.", "quantifier": "every well-formed image, every u32 coordinates, every pixel length, both profiles", "why_tests_cant": "the rejection must hold for every out-of-range coordinate and every wrong length, including the ones congruent modulo 256", "anchors": ["src/image/mod.rs: get_pixel, get_pixel_mut, set_pixel", "src/error/messages.rs: check_xy, check_channels"]}
{"id": "C04", "title": "1D and 2D indexing agree", "statement": "For in-bounds (x,y) the pixel returned by get_pixel(x,y), get_pixel_unchecked(x,y) and img[y*width+x] is the same; index(x,y) is the position of its first sample; util::get_2d_coords maps y*width+x back to (x,y), and every linear index below width*height is hit by exactly one coordinate pair.", "quantifier": "every well-formed image and every in-bounds coordinate pair / linear index", "why_tests_cant": "a bijection over all positions of all sizes", "anchors": ["src/image/mod.rs: get_pixel, get_pixel_unchecked, index, Index", "src/util/mod.rs: get_2d_coords"]}
{"id": "C05", "title": "The pixel iterator visits every pixel exactly once, in row-major order, then ends", "statement": "Iterating &image yields exactly width*height items; the k-th item is (k mod width, k div width, that pixel); afterwards next() returns None, and keeps returning None.", "quantifier": "every well-formed non-empty image, every number of next() calls", "why_tests_cant": "termination and completeness over all sizes is an inductive fact", "anchors": ["src/image/pixel_iter.rs: PixelIter::new, next", "src/image/pixel_iter.rs: IntoIterator for &Image"]}
{"id": "C06", "title": "size_hint of the pixel iterator: exact at the start, wrong after the first item", "statement": "Iterator contract: at every point size_hint() = (lo, Some hi) with lo <= number of items still to come <= hi. Actual behaviour: the upper bound is always valid and the hint is exact before the first next(); but after ANY positive number of next() calls on any non-empty image the lower bound is still the full pixel count, which exceeds the number of remaining items: one of the promised items is None (contract refuted).", "quantifier": "every well-formed image, every number of items already consumed", "why_tests_cant": "the contract is about every intermediate state of the iterator", "anchors": ["src/image/pixel_iter.rs: PixelIter::size_hint"]}
{"id": "C07", "title": "Channel maps act on each sample independently and keep the shape", "statement": "map_channels(f) returns an image with the same info whose every sample is f of the sample at the same place; map_channels_if_alpha(f,g) applies g to the last channel of each pixel and f to the others when the image has an alpha channel, and is map_channels(f) otherwise.", "quantifier": "every well-formed image, every total function f, g, both profiles", "why_tests_cant": "universally quantified over functions and image sizes", "anchors": ["src/image/mod.rs: map_channels, map_channels_if_alpha", "src/image/pixel.rs: map_alpha"]}
{"id": "C08", "title": "Pixel maps keep width, height and alpha and act pixel by pixel", "statement": "If f turns every pixel into exactly k samples (k<256), map_pixels(f) has k channels, same width, height and alpha, and its pixel at (x,y) is f of the input pixel at (x,y); map_pixels_if_alpha(f,g) gives f of the non-alpha part followed by g of the alpha sample. An image of zero pixels makes both panic (division by zero).", "quantifier": "every well-formed image, every closure with constant output length, both profiles", "why_tests_cant": "universally quantified over closures and sizes; the empty image is an edge the tests never reach", "anchors": ["src/image/mod.rs: map_pixels, map_pixels_if_alpha"]}
{"id": "C09", "title": "In-place application equals the map, and edit_channel touches one channel only", "statement": "apply_channels / apply_channels_if_alpha / apply_pixels / apply_pixels_if_alpha leave the image equal to the result of the corresponding map (for shape-preserving f); edit_channel(f,k) with k<channels changes exactly channel k of every pixel, to f of its old value.", "quantifier": "every well-formed image, every closure, every channel index, both profiles", "why_tests_cant": "equality of two different loops for all inputs", "anchors": ["src/image/mod.rs: apply_pixels, apply_pixels_if_alpha, apply_channels, apply_channels_if_alpha, edit_channel", "src/image/pixel.rs: apply_alpha"]}
{"id": "C10", "title": "Any history of image operations behaves like a coordinate-indexed map and keeps the buffer size", "statement": "Starting from a well-formed image, after any sequence of set_pixel / set_pixel_indexed / apply_channels / edit_channel calls the buffer length still equals width*height*channels, the info never changes, and the content equals what the same sequence does to a mathematical function from (x,y,channel) to samples; a call panics exactly when its arguments are out of range.", "quantifier": "all finite sequences of operations on all well-formed images", "why_tests_cant": "histories are unbounded", "anchors": ["src/image/mod.rs: set_pixel, set_pixel_indexed, apply_channels, edit_channel, data"]}
{"id": "C11", "title": "get_subimage: which pixel is really returned", "statement": "Documented: get_subimage(x,y,w,h).get_pixel(i,j) is get_pixel(x+i,y+j). Actual: for every rectangle inside the image it is the pixel at (x + (j*w+i) div h, y + (j*w+i) mod h) (the rectangle is stored column-major and read row-major), which agrees with the documentation for one-row and one-column rectangles and is refuted for a 2x2 one; a non-empty rectangle sticking out of the image panics.", "quantifier": "every well-formed image and rectangle inside it", "why_tests_cant": "the single unit test uses a one-pixel-wide rectangle, where a transposed layout is invisible", "anchors": ["src/image/mod.rs: get_subimage", "src/image/sub_image.rs: SubImage::get_pixel, Index"]}
{"id": "C12", "title": "Neighbourhoods: which pixels are really returned", "statement": "Documented: get_neighborhood_1d / 2d return size (size*size) pixels in order, entry i being the pixel at offset i - size/2 from the centre with clamp padding. Actual: the offsets and the count are as documented, but a coordinate outside the image is replaced by the CENTRE coordinate; for size <= 3 this equals clamp padding, for every size >= 4 the documented clamp padding is refuted.", "quantifier": "every well-formed image, centre and window size", "why_tests_cant": "unit tests only use size 3, where clamping and repeating the centre coincide", "anchors": ["src/image/mod.rs: get_neighborhood_1d, get_neighborhood_2d"]}
{"id": "C13", "title": "Sample type conversions are lossless / saturating as documented", "statement": "u8 -> f32 -> u8 and u8 -> f64 -> u8 conversions of an image give back the same image; u16, u32 -> f64 is exact; f32/f64 -> u8 rounds half away from zero and saturates to [0,255], NaN becoming 0.", "quantifier": "every image of the source type, every float bit pattern", "why_tests_cant": "2^32 (2^64) float values, all image sizes", "anchors": ["src/image/from_impl.rs: From impls"]}
{"id": "C14", "title": "crop returns exactly the requested rectangle, and says when it does not", "statement": "When crop(img,x,y,w,h) returns Ok, the result has width w, height h, the channels and alpha of img and pixel (i,j) equal to img pixel (x+i,y+j); it returns Ok exactly when x+w < img.width and y+h < img.height, and an error value otherwise (x+w and y+h not overflowing).", "quantifier": "every well-formed image, all u32 arguments whose sums fit in u32, both profiles", "why_tests_cant": "boundary behaviour over all sizes; the tests assert nothing about the pixels", "anchors": ["src/transform.rs: crop"]}
{"id": "C15", "title": "crop rejects every rectangle that reaches the right or bottom edge", "statement": "Expected: crop returns Ok for every rectangle with x+w <= img.width and y+h <= img.height. Actual: every such rectangle with x+w = img.width or y+h = img.height is rejected with an error; in particular cropping to the whole image always fails, for every image (expectation refuted).", "quantifier": "every well-formed image and contained rectangle", "why_tests_cant": "off-by-one at the right and bottom border only", "anchors": ["src/transform.rs: crop"]}
{"id": "C16", "title": "crop with overflowing sums", "statement": "If x+w or y+h exceeds u32::MAX: a debug build panics, or returns an error because x+w already reaches the image width; a sequential release build panics, returns an error, or returns Ok for a rectangle with w*h = 0 only. The rayon release build is refuted: it can return Ok with an info of 2^31 x 2 pixels and no data at all.", "quantifier": "all u32 arguments with an overflowing sum, both profiles", "why_tests_cant": "needs dimensions near 2^32", "anchors": ["src/transform.rs: crop"]}
{"id": "C17", "title": "Multithreaded and sequential builds compute the same image, whatever the schedule", "statement": "For crop, scale (all methods), scale_lanczos, filter_1d, separable_filter, unseparable_filter and the filters built on them, the build with the rayon feature and the sequential build give the same result (same Ok image, same error, both panic) on every well-formed input, for every order in which the parallel tasks are executed: crop and scale always in debug builds, and in release builds whenever the output sizes and coordinate sums fit in 32 bits; the filters for kernel lengths up to u32::MAX (one-dimensional) and 2^24 (square). For longer square kernels this is refuted: a kernel of 16785407 weights passes the f32 squareness check, then the sequential build returns an error and the rayon build panics.", "quantifier": "all inputs and all execution orders of the tasks", "why_tests_cant": "schedules cannot be enumerated by tests", "anchors": ["src/transform.rs: crop, scale, scale_lanczos, scale_* (both cfg variants)", "src/filter/mod.rs: filter_1d, unseparable_filter", "src/filter/bilateral.rs: bilateral_filter", "src/util/math.rs: apply_1d_kernel, apply_2d_kernel"]}
{"id": "C18", "title": "overlay pastes the front image and leaves the rest alone", "statement": "overlay(back,front,x,y) (equal channel counts) has the info of back; at (i,j) inside the pasted rectangle (x<=i<x+front.width, y<=j<y+front.height, clipped to back) it holds front pixel (i-x,j-y), elsewhere the back pixel; different channel counts give an error value.", "quantifier": "all well-formed image pairs and positions with non-overflowing sums", "why_tests_cant": "universally quantified over positions incl. clipping", "anchors": ["src/transform.rs: overlay"]}
{"id": "C19", "title": "superimpose always returns an error", "statement": "Documented: for two images with equal channel counts and 0 <= alpha <= 1, superimpose returns Ok with the blend. Actual: superimpose returns an InvalidArgError for every pair of images, position and alpha (the range check is called with min and max swapped: refuted).", "quantifier": "all well-formed f32 image pairs, all positions, all alpha", "why_tests_cant": "the only test is commented out", "anchors": ["src/transform.rs: superimpose", "src/error/messages.rs: check_in_range"]}
{"id": "C20", "title": "translate shifts the image and fills with black", "statement": "translate(img,x,y) has the info of img; pixel (i,j) is img pixel (i-x,j-y) when i>=x and j>=y and zero otherwise; in particular offsets beyond the image give a black image.", "quantifier": "every well-formed image, all u32 offsets", "why_tests_cant": "all sizes and offsets", "anchors": ["src/transform.rs: translate"]}
{"id": "C21", "title": "reflect mirrors the image and is an involution", "statement": "reflect across the vertical (horizontal) axis gives pixel (width-1-x,y) ((x,height-1-y)) at (x,y); applying it twice gives back the image; the two reflections commute.", "quantifier": "every well-formed image", "why_tests_cant": "all sizes", "anchors": ["src/transform.rs: reflect"]}
{"id": "C22", "title": "scale by nearest neighbour: exactly when it succeeds and what it copies", "statement": "Expected: for finite positive factors scale(img,fx,fy,NearestNeighbor) returns Ok with dimensions round(width*fx) x round(height*fy), every output pixel being an input pixel. Actual: it is Ok exactly when every computed source coordinate ceil((x+1)/fx)-1, ceil((y+1)/fy)-1 (in f32, x, y over the output) is inside the input, and then output (x,y) is that input pixel; otherwise it panics. Integer factors n, m always succeed and give pixel (x div n, y div m); factors 1 are the identity; factor 1/2 succeeds for even sizes but panics for every image of odd width (expectation refuted).", "quantifier": "every well-formed image (dimensions below 2^24) and every factor", "why_tests_cant": "depends on rounding of every width/factor combination", "anchors": ["src/transform.rs: scale, scale_nearest_neighbor, interpolate_nearest_neighbor"]}
{"id": "C23", "title": "bilinear scaling swaps the weights of the neighbours", "statement": "Expected: at fraction t between two neighbours a (left/upper) and b the result is (1-t)*a + t*b. Actual: for power-of-two factors up to 256 and integer samples 0..255 the result is exactly the mix with the weights SWAPPED (t*a + (1-t)*b) wherever the fraction is non-zero (expectation refuted); with factors 1 the result equals the input for every image of finite samples.", "quantifier": "every image and factor", "why_tests_cant": "tests only look at pictures", "anchors": ["src/transform.rs: interpolate_bilinear"]}
{"id": "C24", "title": "rotate by 0 degrees is not the identity: what it really returns", "statement": "Expected: rotate(img,0.0) returns the image itself. Actual: for every image of at least one pixel (sides below 2^23) it returns Ok with the same info; output column a holds input column min(a+1,w-1) for odd widths, and a+2 (else a+1, else zeros) for even widths; output row b holds input row b+1, and the last row is zero (unless the image has one row). The identity is refuted for every image of at least two rows whose last row is not zero.", "quantifier": "every well-formed f32 image", "why_tests_cant": "tests only look at pictures", "anchors": ["src/transform.rs: rotate"]}
{"id": "C25", "title": "shear: identity for 0, exact placement for integer factors, a panic for other factors", "statement": "shear(img,0,0) returns the image itself. For integer factors a, b with a*b <> 1 (output at most 2^24 wide and high) shear returns Ok with size (w+|a|h, h+|b|w); pixel (x,y) is at (x-a*y+(a>0 ? a*h : 0), y-b*x+(b>0 ? b*w : 0)) and every other pixel is zero. Totality for every finite factor of modest size is refuted: a factor just below 1 panics on a 4x1 image.", "quantifier": "every well-formed image, every pair of finite f32 factors", "why_tests_cant": "float rounding near integers decides whether the last column still fits", "anchors": ["src/transform.rs: shear"]}
{"id": "C26", "title": "The summed-area table holds prefix sums", "statement": "generate_summed_area_table gives at (x,y), per channel, the sum of all input samples (i,j) with i<=x, j<=y - exactly in f32 whenever the samples are integers and the total is small enough (2 * total <= 2^24), e.g. for converted u8 images of up to 32896 pixels.", "quantifier": "every image of every size within the exactness bound", "why_tests_cant": "f32 exactness over all contents and sizes", "anchors": ["src/util/mod.rs: generate_summed_area_table"]}
{"id": "C27", "title": "rectangular_intensity_sum is the sum over the closed rectangle", "statement": "On the summed-area table of an image, rectangular_intensity_sum(x0,y0,x1,y1) with x0<=x1<width and y0<=y1<height is, per channel, the sum of the samples with x0<=x<=x1, y0<=y<=y1 (same exactness bound).", "quantifier": "every image and rectangle", "why_tests_cant": "all rectangles of all images", "anchors": ["src/util/mod.rs: rectangular_intensity_sum"]}
{"id": "C28", "title": "vector_mul is matrix-vector multiplication and rejects wrong dimensions", "statement": "vector_mul and vector_mul_mut return, for a matrix with len = n*n and a vector of length n>0, the vector with entry i = sum_j mat[n*i+j]*input[j]; they agree with each other; a matrix whose length divided by n is not n gives an error; an empty vector panics.", "quantifier": "every size, every numeric content", "why_tests_cant": "all dimensions", "anchors": ["src/util/math.rs: vector_mul, vector_mul_mut"]}
{"id": "C29", "title": "max_3/max_4/min_3/min_4 return the extremum of their arguments", "statement": "For non-NaN arguments the result is one of the arguments and bounds all of them.", "quantifier": "all non-NaN f32 tuples", "why_tests_cant": "2^128 tuples", "anchors": ["src/util/math.rs: max_3, max_4, min_3, min_4"]}
{"id": "C30", "title": "Kernel generators: size check, shape, symmetry", "statement": "generate_gaussian_kernel and generate_log_kernel return an error for even size and otherwise a vector of size*size values, symmetric under transposition and point reflection, entry (i,j) depending only on the squared distance from the centre.", "quantifier": "every odd size (size*size and its offsets fitting in 32 bits), every sigma, every libm power function", "why_tests_cant": "all sizes and parameters", "anchors": ["src/util/mod.rs: generate_gaussian_kernel, generate_log_kernel"]}
{"id": "C31", "title": "generate_spatial_mat is the Gaussian of the distance to the centre, for odd sizes", "statement": "For every odd size (size*size within u32) and every sigma that is not negative, generate_spatial_mat returns size*size entries: 0 at the centre, and at every other (y,x) the Gaussian of the distance of (x,y) from the centre (correctly rounded distance while dx^2+dy^2 <= 2^24). Even sizes (0 included) always panic or fail; a negative sigma is an error for every size >= 2.", "quantifier": "every size and every sigma", "why_tests_cant": "the eight-fold symmetric fill and its index arithmetic must be right for every size", "anchors": ["src/util/mod.rs: generate_spatial_mat", "src/util/math.rs: distance, gaussian_fn"]}
{"id": "C32", "title": "Lookup tables are total tabulations", "statement": "generate_lookup_table(table,f) leaves table[i]=f(i) for all 256 indices.", "quantifier": "every function f and every initial table", "why_tests_cant": "universally quantified over f", "anchors": ["src/util/mod.rs: generate_lookup_table"]}
{"id": "C33", "title": "Histogram percentiles: what is really stored", "statement": "Documented: every occurring bin is mapped to (number of pixels in bins <= it)/(number of pixels), so the largest is 1. Actual: every occurring bin k is mapped to (number of pixels in bins <= k + number of distinct occupied bins <= k)/(number of pixels), other keys are left alone, every pixel finds its bin; hence for every non-empty image the largest stored value exceeds 1 (documentation refuted).", "quantifier": "every image and precision", "why_tests_cant": "all images; the test suite only runs it for its picture", "anchors": ["src/util/mod.rs: generate_histogram_percentiles", "src/tone.rs: histogram_equalization"]}
{"id": "C34", "title": "erode computes morphological erosion", "statement": "For a one-channel image without alpha (sums exact in f32: twice the sum of all samples <= 2^24, e.g. at most 32896 pixels; radius <= width, height) erode sets a pixel to 255 exactly when the whole (2r+1)^2 window around it lies inside the image and is white, else 0. Without the exactness bound this is refuted: on every all-white row of at least 65795 pixels radius 0 turns pixel 65794 black.", "quantifier": "every binary image, radius and position", "why_tests_cant": "all images; the tests only look at pictures", "anchors": ["src/morphology.rs: erode"]}
{"id": "C35", "title": "dilate: which window it really looks at", "statement": "Documented: for a binary one-channel image dilate sets a pixel to 255 exactly when some white pixel lies within Chebyshev distance r of it. Actual (same exactness bound as C34): on a side where the full radius does not fit in the image the window stops at the pixel itself; so the result is never more than the dilation, equals it at every pixel whose window is inside the image, and differs from it near the border (refuted).", "quantifier": "every binary image, radius and position", "why_tests_cant": "the truncated windows at the borders must be right too", "anchors": ["src/morphology.rs: dilate"]}
{"id": "C36", "title": "majority is dilate", "statement": "Documented: majority sets a pixel to 255 exactly when more than half of the window pixels are white. Actual: majority returns exactly what dilate returns on every input, so every interior pixel that sees one white pixel becomes white (refuted).", "quantifier": "every binary image, radius and position", "why_tests_cant": "tests only look at pictures", "anchors": ["src/morphology.rs: majority"]}
{"id": "C37", "title": "open, close and gradient are the compositions / differences of erosion and dilation", "statement": "open(img,r) = dilate(erode(img,r),r) and never adds a white pixel; close(img,r) = erode(dilate(img,r),r) and keeps every white pixel at distance >= 2r from the border (but removes border pixels of an all-white image: closing is not extensive, refuted); gradient(img,r) is white exactly where dilate is white and erode is not.", "quantifier": "every image and radius", "why_tests_cant": "all inputs", "anchors": ["src/morphology.rs: open, close, gradient"]}
{"id": "C38", "title": "Morphology: which images and radii are rejected, accepted, or crash", "statement": "Expected: the six functions return an error for non-grayscale images and never panic on grayscale ones. Actual: non-grayscale images always give an error; binary images without alpha of at most 32896 pixels always give Ok when radius <= width, height; a radius exceeding width or height makes all six panic on every non-empty grayscale image in both profiles; on (gray, alpha) images dilate and majority panic whenever some gray sample is 255 and otherwise (all gray samples 0) drop the alpha samples; a mask of more than 2^32/255 pixels panics in debug (expectation refuted).", "quantifier": "every image and radius, both profiles", "why_tests_cant": "needs gray+alpha images and radii beyond the image size", "anchors": ["src/morphology.rs: erode, dilate, majority, gradient", "src/error/messages.rs: check_grayscale"]}
{"id": "C39", "title": "brightness adds the bias with saturation and keeps alpha (scalar path)", "statement": "brightness(img,b) with |b|<=255 gives clamp(c+b,0,255) for every colour sample and leaves the alpha sample and the info unchanged; |b|>255 gives an error (for i16::MIN: error in release, panic in debug).", "quantifier": "every u8 image, every i16 bias, both profiles", "why_tests_cant": "all images and biases", "anchors": ["src/tone.rs: brightness, brightness_rgb_norm", "src/util/mod.rs: generate_lookup_table"]}
{"id": "C40", "title": "SIMD brightness: processes whole 32-byte chunks only", "statement": "Expected: on AVX2 hardware with the default simd feature brightness returns the same image as the scalar path. Actual: the samples before the last multiple of 32 equal the scalar result (for images with alpha, sample positions 3 mod 4 are kept); all samples after it are 0. The two paths agree exactly on buffers of a multiple of 32 samples; every image of less than 32 samples becomes all zero (expectation refuted). Buffers within 32 bytes of 2^32 samples panic in debug and are undefined behaviour in release.", "quantifier": "every u8 image and bias", "why_tests_cant": "tests compare no pixels; differs only in the tail of the buffer / for 2-channel images", "anchors": ["src/simd.rs: adds_256_u8", "src/tone.rs: brightness"]}
{"id": "C41", "title": "saturation: exact effect (scalar), and where the SIMD path differs or reads out of bounds", "statement": "Scalar: saturation(img,s), |s| <= 255, replaces every RGB triple by the triple obtained by converting to HSV, adding s to S with clamping and converting back; the largest sample of the triple is kept, alpha and info are kept; |s| > 255 is an error. Expected of the SIMD path: the same, reading and writing only inside the buffers. Actual: RGB images with a positive multiple of 10 pixels are undefined behaviour (a 32-byte load at the last 30 bytes); otherwise pixels before the last multiple of 10 (8 with alpha) equal the scalar result and the remaining ones become 0 in every channel, alpha included; agreement for RGBA images of a multiple of 8 pixels (expectation refuted).", "quantifier": "every RGB(A) u8 image, every s in [-255,255]", "why_tests_cant": "an out-of-bounds store past the end of a heap buffer does not show in a test", "anchors": ["src/simd.rs: adds_n_256_u8", "src/tone.rs: saturation, saturation_norm"]}
{"id": "C42", "title": "contrast never brightens, keeps order, keeps alpha; NaN blackens", "statement": "contrast(img,g) with 0<=g<=1 maps every colour sample c to round(fl(c*g)) <= c, monotonically in c, within 1/2+2^-16 of c*g, the identity for g=1; alpha and info are kept; g<0 and g>1 (infinities included) give an error. A NaN gain is not rejected: it makes every colour sample 0.", "quantifier": "every u8 image, every f32 gain (2^32 bit patterns)", "why_tests_cant": "all gains", "anchors": ["src/tone.rs: contrast"]}
{"id": "C43", "title": "gamma keeps the shape and alpha; negative gamma is rejected", "statement": "gamma(img,g,max) with g not negative returns an image with the same info and alpha samples, every sample in [0,255], equal samples mapped to equal samples, for every libm power function; g<0 is an error.", "quantifier": "every u8 image, gamma, max, power function", "why_tests_cant": "all parameters", "anchors": ["src/tone.rs: gamma"]}
{"id": "C44", "title": "rgb_to_hsv stays in range and gets value and saturation right", "statement": "rgb_to_hsv of any RGB pixel gives V = max(R,G,B), S = 255*(max-min)/max (0 for black), H in [0,255] without any truncating cast, H=0 for grays; alpha is kept.", "quantifier": "all 2^24 RGB triples in images of every size", "why_tests_cant": "no test asserts a value; intermediate values are signed", "anchors": ["src/colorspace.rs: rgb_to_hsv"]}
{"id": "C45", "title": "hsv_to_rgb is total, in range, preserves V; HSV round trip is exact on grays and close elsewhere", "statement": "hsv_to_rgb of any HSV triple produces a triple whose maximum is V, without overflow; converting a gray image to HSV and back gives the same image; the round trip of any RGB pixel keeps its maximum channel value exactly and changes no channel by more than a fixed small bound.", "quantifier": "all 2^24 triples, both directions", "why_tests_cant": "exhaustive over the colour cube", "anchors": ["src/colorspace.rs: hsv_to_rgb, rgb_to_hsv"]}
{"id": "C46", "title": "rgb_to_grayscale averages the channels (scalar path)", "statement": "Scalar rgb_to_grayscale gives a one-channel (two with alpha) image whose sample is floor of the mean of the colour samples, between their minimum and maximum, alpha kept.", "quantifier": "every u8 image with 1 to 128 colour channels", "why_tests_cant": "i16 accumulator must not overflow for the allowed channel counts", "anchors": ["src/colorspace.rs: rgb_to_grayscale, rgb_to_grayscale_norm"]}
{"id": "C47", "title": "SIMD rgb_to_grayscale: what it really computes", "statement": "Expected: on AVX2 hardware rgb_to_grayscale returns the same image as the scalar path, up to rounding of at most 1. Actual: for RGB and RGBA images, pixels (numbered row by row) before the last multiple of 32 become avg(avg(r,g),b) (rounding averages: weights 1/4,1/4,1/2, up to 43 away from the mean, but between the smallest and largest sample) with alpha kept, the remaining pixels become 0, alpha included; images of less than 32 pixels become black. One-channel images of at least 34 pixels are undefined behaviour (out-of-bounds store). Expectation refuted.", "quantifier": "every RGB / RGBA u8 image", "why_tests_cant": "differs by weights and in the tail of the buffer", "anchors": ["src/simd.rs: avg_256_u8, avg_alpha_256_u8, deinterleave_3_256_u8, deinterleave_4_256_u8, avg_checked_256_u8"]}
{"id": "C48", "title": "Colour conversions compute the documented formulas, keep dimensions and carry alpha through", "statement": "On every non-empty image with three colour channels, linearize/unlinearize, sRGB<->XYZ, XYZ<->LAB, sRGB<->LAB and the HSV f32 conversions return an image of the same width, height, channel count and alpha flag in which every pixel's colour is replaced by the value of the published formula (sRGB transfer with gamma 2.2, the sRGB/XYZ matrices, CIELAB with delta = 6/29 and the D50/D65 white points, hexagonal HSV), each operation rounded to f32; alpha samples only change representation, and a u8 alpha sample survives sRGB -> LAB -> sRGB, sRGB -> XYZ -> sRGB and RGB -> HSV -> RGB unchanged, whatever the libm power function returns.", "quantifier": "every RGBA u8 image, every libm", "why_tests_cant": "all images, all libms", "anchors": ["src/colorspace.rs: linearize_srgb_f32, unlinearize_srgb_f32, srgb_lin_to_xyz_f32, xyz_to_srgb_lin_f32, xyz_to_lab_f32, lab_to_xyz_f32, srgb_to_lab_f32, lab_to_srgb_f32"]}
{"id": "C49", "title": "u8 -> scaled f32 -> u8 is lossless", "statement": "f32_to_u8_scale(u8_to_f32_scale(img,s),s) = img for every scale s from 1 to 2^32-1; scale 0 gives a black image.", "quantifier": "every u8 image, every scale", "why_tests_cant": "2^32 scales x 256 values of f32 rounding", "anchors": ["src/convert.rs: f32_to_u8_scale, u8_to_f32_scale"]}
{"id": "C50", "title": "Linear filters are local convolutions with the documented kernel", "statement": "filter_1d and unseparable_filter (separable_filter: a vertical then a horizontal filter_1d) keep info and give at (x,y), channel by channel (alpha included), the f32 sum, in kernel order, of kernel[i] times the i-th pixel of the neighbourhood (a coordinate outside the image is replaced by the centre's); hence the result depends only on pixels within half the kernel size and on the same channel; an even-length or non-square kernel gives an error. For integer (and dyadic) images and kernels the sum is exact while the sum of absolute products stays within 2^24 units. linear_filter does this with the kernel itself, or, when the decomposition returned by the SVD library has rank one, with the two vectors made of it. sharpen, unsharp_masking, laplacian, weighted_avg_filter, gaussian_blur, laplacian_of_gaussian use exactly their documented kernels. (Image sides up to 2^30, kernels up to 2^24 weights.)", "quantifier": "every f32 image, every kernel", "why_tests_cant": "all images and kernels", "anchors": ["src/filter/mod.rs: filter_1d, unseparable_filter, separable_filter", "src/util/math.rs: apply_1d_kernel, apply_2d_kernel"]}
{"id": "C51", "title": "box_filter averages a size^2 x size^2 window", "statement": "Documented: box_filter(img,size) averages the size x size window around each pixel. Actual: for odd size it is a vertical then a horizontal one-dimensional filter with size^2 (not size) weights 1/size^2, so it depends on the window of side size^2, and the documented window is refuted for size 3; even sizes give an error; size above 65536 panics in a debug build.", "quantifier": "every image and odd size", "why_tests_cant": "tests only look at pictures", "anchors": ["src/filter/mod.rs: box_filter"]}
{"id": "C52", "title": "threshold implements the five documented rules", "statement": "threshold on a grayscale image applies to every non-alpha sample the documented rule of the chosen method, keeps alpha and info; non-grayscale images give an error.", "quantifier": "every grayscale f32 image (incl. NaN and infinities), threshold and max", "why_tests_cant": "all float values", "anchors": ["src/filter/mod.rs: threshold", "src/enums.rs: Thresh"]}
{"id": "C53", "title": "residual is the sample-wise difference", "statement": "residual(a,b) with equal infos is the image of a-b, alpha samples included; residual(a,a) is black (for f32: if all samples are finite); different infos give an error; for integer samples a difference that does not fit the type panics in debug and wraps in release.", "quantifier": "all image pairs", "why_tests_cant": "all pairs", "anchors": ["src/filter/mod.rs: residual"]}
{"id": "C54", "title": "normalize_laplacian maps the extremes to 0 and 255, unless the range overflows", "statement": "Expected: normalize_laplacian of a grayscale image without NaN maps its minimum sample to 0 and its maximum to 255 when they differ, monotonically in between. Actual: true (and every result is within 1/2 + 1/128 of the affine map, alpha samples being treated like gray samples) when the f32 difference max - min is finite; when it overflows, or when min = max, the whole image becomes 0 (expectation refuted for two samples -2^127 and 2^127). Images that are not grayscale give an error; empty images, and images of at least two samples with a NaN, panic.", "quantifier": "every grayscale f32 image", "why_tests_cant": "all float contents", "anchors": ["src/filter/edge.rs: normalize_laplacian", "src/convert.rs: scale_channels"]}
{"id": "C55", "title": "Edge operators: exact result on gray images, panic on gray+alpha images", "statement": "Expected: derivative_mask, prewitt, sobel and sobel_weighted return Ok for every grayscale image (with or without alpha). Actual: for one channel without alpha they return sqrt(powf(gx,2)+powf(gy,2)), gx and gy being the image filtered with the column/row kernels and with the two swapped; on integer images gx and gy are exactly the weighted central differences (weights 1,w,1; Prewitt w=1, Sobel w=2). Every non-empty (gray, alpha) image panics (expectation refuted); other channel counts and kernels of even or different lengths give an error.", "quantifier": "every grayscale image", "why_tests_cant": "needs a gray+alpha image", "anchors": ["src/filter/edge.rs: derivative_mask, prewitt, sobel, sobel_weighted"]}
{"id": "C56", "title": "The partial-histogram bookkeeping counts the window exactly", "statement": "At every row the partial histograms of median_filter represent, for every column of the block, value and channel, the number of pixels with that value in the (2r+1)^2 window (coordinates clamped to the image).", "quantifier": "every u8 image, radius, block width, row", "why_tests_cant": "an invariant over every prefix of the sliding-window run", "anchors": ["src/filter/median.rs: PartialHistograms::update, get_count, process_cols_med, init_cols_med"]}
{"id": "C57", "title": "median_filter outputs the window median, except after ties and in the last column", "statement": "Documented: every output sample is the median of the (2r+1)^2 window around it (coordinates clamped to the image). Actual, for every u8 image with pixels (radius < 2^14, sums within i32): the first row is the median; in every later row the sample is the median too unless exactly half of the window (rounded up) is smaller than the result of the row above, in which case that result is repeated; the last column shows the value computed for the last column of the last block of 4 r^(2/3) columns, which may lie outside the image. Hence every sample outside the last column is within one rank of the median and every output sample occurs in the input channel, but the documented claim is refuted (radius 0 does not leave a 1x2 image alone; wrong last column for a 2x2 image with radius 1). No columns: an empty image; columns but no rows: panic.", "quantifier": "every u8 image and radius", "why_tests_cant": "wrong only for particular count patterns and in the last column", "anchors": ["src/filter/median.rs: median_filter, process_row_med"]}
{"id": "C58", "title": "alpha_trimmed_mean_filter validates alpha; its values are not the trimmed means", "statement": "Documented: odd alpha and alpha >= (2r+1)^2 give an error; otherwise every output sample is the rounded mean of the (2r+1)^2 window without its alpha/2 lowest and alpha/2 highest values. Actual (radius <= 127): the errors are as documented (radius < 2^15). Whenever an image is returned, its first row is computed from the first input row alone, repeated downwards, and the alpha/2 values dropped at the upper end start at the first occurrence of the value of that rank; this is the documented value if there is no tie at the upper end and the image has one row. For alpha >= 2 every sample of the later rows is also known exactly: each window carries a running 32-bit sum and two lists of dropped values from row to row, samples entering and leaving one by one by fixed rules, with occurrences counted wrongly (row 0 in place of rows 1 to r) for the rest of the column. A one-row image is always processed; an image of one colour is preserved for alpha >= 2; alpha = 0 panics on every image with two or more rows. For alpha >= 2 a release build returns an image exactly when the running state of no window gets stuck (a list of dropped values that is too short, or a position outside it); some accepted alphas do panic (a column of eight samples, radius 1, alpha 8). The documented value is refuted by ties (10 20 30, alpha 8: 30 instead of 20), by the first row ignoring the rows below, and in later rows, where results may even lie outside the range of the input (a value leaving the window is looked up among the wrong dropped values).", "quantifier": "every u8 image, radius, alpha", "why_tests_cant": "all images", "anchors": ["src/filter/median.rs: alpha_trimmed_mean_filter, MeanHist, init_cols_mean, process_cols_mean"]}
{"id": "C59", "title": "bilateral_filter: which parameters work, and the exact result", "statement": "Expected: bilateral_filter(img, range, spatial, Direct) returns Ok for all finite non-negative range and spatial; negative values give an error. Actual (8-bit images with three colour channels): negative values give an error; the window side is trunc(4*spatial+1); odd sides up to 65535 give Ok, with the size and layout of the input; even sides panic (so spatial = k/4 panics for every odd k), sides above 65535 panic in debug. When it succeeds, the image is converted to CIELAB (D65), every sample of every channel, alpha included, becomes the mean of its window weighted by (Gaussian of the distance) * (Gaussian of the value difference), the pixel itself having weight 0 and coordinates outside the image being replaced by the centre's, and the result is converted back; so a pixel depends only on its window. spatial in [0,1/8], and range = 0, give an all-zero (black, transparent) image. Sequential and rayon builds agree.", "quantifier": "every RGB u8 image, every pair of parameters", "why_tests_cant": "the window size is computed from the float parameter; only some parities work", "anchors": ["src/filter/bilateral.rs: bilateral_filter, bilateral_direct_pixel", "src/util/mod.rs: generate_spatial_mat"]}
{"id": "C60", "title": "write accepts exactly the supported layouts and read . write is lossless", "statement": "io::write hands the unmodified samples to the encoder exactly for well-formed Gray, GrayAlpha, RGB, RGBA images and returns the encoder's answer; every other layout gives an unsupported-color-type error and a buffer that is too short a write error, both without touching the file system. io::read returns the decoded samples for the 8-bit layouts (BGR and BGRA pictures without reordering, so channel 0 is blue: reading the true colours is refuted for them), an error for 16-bit ones, and passes on decoder errors. Reading back what write wrote through a lossless codec yields an equal image.", "quantifier": "every u8 image, every lossless codec", "why_tests_cant": "the codec and file system are external; the channel/alpha dispatch is all-quantified", "anchors": ["src/io/mod.rs: from_color_type, read, write"]}
{"id": "C61", "title": "Argument checks accept exactly the documented ranges", "statement": "check_odd/check_even/check_non_neg/check_in_range/check_grayscale/check_square accept exactly the odd / even / non-negative / in-range / grayscale / square arguments. (Range checks let NaN through; squareness is decided in f32.)", "quantifier": "all argument values incl. NaN", "why_tests_cant": "all float bit patterns", "anchors": ["src/error/messages.rs: check_odd, check_even, check_non_neg, check_in_range, check_square, check_grayscale, check_equal"]}
{"id": "C62", "title": "adds_n_256_u8: what it adds to, and an invalid n", "statement": "Documented: adds_n_256_u8(img,val,n) adds val with saturation to channel n, or to all channels when n is not a channel. Actual: in the whole chunks (32 samples with alpha, 30 without) exactly the samples at positions n mod 4 (n mod 3) get val added with saturation; an n that is not a channel adds to NO channel (refuted: it returns the image unchanged); samples after the last whole chunk are copied for the 2 samples overlapped by the last store and 0 otherwise; without alpha and at least 30 samples, a sample count of 0 or 1 mod 30 is undefined behaviour.", "quantifier": "every image, val, n", "why_tests_cant": "a dedicated mask branch", "anchors": ["src/simd.rs: adds_n_256_u8"]}
{"id": "C63", "title": "Tone operations in CIELAB validate, are total, change only the lightness, keep size and alpha", "statement": "brightness_lab (|bias|<=255), contrast_lab (gain not <0, not >1) and histogram_equalization (alpha and precision in range; at most 2^30-1 pixels) return Ok for every non-empty RGB/RGBA image, with the same info and unchanged alpha samples; every colour is converted to CIELAB, its L* is replaced by L* + bias/255*100, L* * gain, or the blend alpha*percentile*100 + (1-alpha)*L* (percentile of the L* bins of the whole image, each distinct bin counted once too often), a* and b* are kept, and the colour is converted back. histogram_equalization finds the percentile of every pixel (no missing-key panic). Out-of-range arguments give an error. For every libm power function.", "quantifier": "every RGB(A) u8 image, all arguments incl. NaN, every libm", "why_tests_cant": "Ranges over all images, arguments and math libraries.", "anchors": ["src/tone.rs: brightness_lab, contrast_lab, histogram_equalization", "src/util/mod.rs: generate_histogram_percentiles"]}
{"id": "C64", "title": "f32 HSV: ranges, accuracy, and a round trip that loses at most one level", "statement": "For every 8-bit colour, rgb_to_hsv_f32 gives H in [0,1), S and V in [0,1]; V is the f32 nearest to max/255, S is within 6*2^-25*255/max of (max-min)/max, H within 11*2^-25*255/(max-min) of the true hue, grays have H = S = 0. Expected: hsv_to_rgb_f32(rgb_to_hsv_f32(img)) = img. Actual: on every non-empty RGB(A) image it keeps size, layout and alpha, and every colour sample comes back unchanged or exactly one smaller; the largest sample of each pixel and all gray pixels come back unchanged. Exactness is refuted: (0,1,6) becomes (0,0,6).", "quantifier": "all 2^24 colours, every RGB(A) image", "why_tests_cant": "Rounding errors of some twenty f32 operations must be bounded for every colour.", "anchors": ["src/colorspace.rs: rgb_to_hsv_f32, hsv_to_rgb_f32"]}
{"id": "C65", "title": "Pixel, shape and sub-image helpers", "statement": "On a pixel cs ++ [a]: alpha() = a, channels_without_alpha() = cs, map_all/apply map every channel, map_alpha/apply_alpha map the colours with f and the last channel with g; is_black holds iff every channel is zero, is_black_alpha iff every channel but the last is (for floats both zeros count, NaN and infinities do not). On an empty pixel every method that needs an alpha panics, in both profiles, without calling the closures. size, full_size and channels_non_alpha are width*height, width*height*channels and the number of colour channels (alpha with 0 channels: panic in debug, 255 in release). SubImage::to_vec is the concatenation of get_pixel row by row, panics if pixels are missing, and on get_subimage's result gives the samples of the rectangle column by column.", "quantifier": "every pixel of every length, every channel type modelled, every closure, every shape and every sub-image", "why_tests_cant": "Ranges over all pixels, closures and sub-images.", "anchors": ["src/image/pixel.rs: Pixel", "src/image/mod.rs: ImageInfo", "src/image/sub_image.rs: SubImage"]}
{"id": "C66", "title": "Bicubic and Lanczos scaling: exact values, totality and degenerate sizes", "statement": "For every image of at most 2^24 columns and rows and every factor pair not below 0 whose output shape fits, scale(Bicubic), scale(Lanczos) and scale_lanczos(size) return an image of round(w*xf) x round(h*yf) pixels; each sample is the f32 sum, column offset outermost, over the window (-1..2, -2..3, 1-size..size) of the input sample at the offset position (coordinates limited to the image) times the product of the two kernel values (cubic B-spline, resp. Lanczos) at the fractional parts. Sequential and rayon builds agree for every schedule, and no factor, not even NaN or infinity, causes a panic or an out-of-range read. size = 0 and sizes above 2^31+1 give an all-zero image; sizes 2^31-1..2^31+1 panic in debug builds. For every libm.", "quantifier": "every f32 image up to 2^24 in each direction, every factor, every window size, every schedule, every libm", "why_tests_cant": "Ranges over all images, factors, sizes, schedules and math libraries.", "anchors": ["src/transform.rs: scale, scale_lanczos, interpolate_bicubic, interpolate_lanczos", "src/util/math.rs: cubic_weighting_fn, lanczos_kernel, sinc_norm"]}
{"id": "C67", "title": "Bicubic scaling is B-spline smoothing: accuracy, no overshoot, constants kept; not an interpolation", "statement": "If the samples are finite and at most 2^k in absolute value, every sample of scale(Bicubic) is within 2^k/2048 of the cubic-B-spline smoothing (over the reals) of the input around the source position, for every libm that computes third powers of 0..5 to within 2^-16. Hence each channel stays between its smallest and largest input sample up to that tolerance, and constant channels stay constant. Expected: scaling by factor 1 returns the image. Actual: refuted, the B-spline smooths: a 0/36 step becomes about 6 at the dark pixel.", "quantifier": "every f32 image up to 2^24 in each direction, all positive finite factors, every libm with accurate cubes", "why_tests_cant": "Error bounds of a hundred f32 operations for all images, positions and factors.", "anchors": ["src/transform.rs: scale, interpolate_bicubic", "src/util/math.rs: cubic_weighting_fn"]}
{"id": "C68", "title": "8-bit images through linear, XYZ and CIELAB images and back: at most one level darker", "statement": "Expected: converting a u8 sRGB image to linear light, XYZ or CIELAB (either white point) and back returns the image, and brightness_lab(0) and contrast_lab(1) leave an image unchanged. Actual: on every non-empty RGB(A) image each of these keeps size, layout and alpha, and every colour sample comes back unchanged or exactly one smaller (never larger), for every libm whose powf has relative error at most 2^-20 on bases 1/1024..2 and exponents up to 3. Through linear light, samples up to 10 come back exactly for every libm, and 255 whenever powf(1,y)=1. The identity is refuted even for a correctly rounded powf: (124,124,124) comes back as (123,123,123). Expected: unlinearize_srgb_f32 is monotone. Actual: refuted for every accurate powf: 0.0031308 becomes 10 and the brighter 0.0031309 becomes 5.", "quantifier": "all 2^24 colours in every RGB(A) u8 image, both profiles and white points, every libm with an accurate powf", "why_tests_cant": "The error of forty f32 operations and six powers must be bounded for every colour and every math library.", "anchors": ["src/colorspace.rs: linearize_srgb_f32, unlinearize_srgb_f32, srgb_to_xyz_f32, xyz_to_srgb_f32, srgb_to_lab_f32, lab_to_srgb_f32", "src/util/math.rs: xyz_to_lab_fn, lab_to_xyz_fn", "src/tone.rs: brightness_lab, contrast_lab"]}
{"id": "C69", "title": "Morphology obeys the laws of opening and closing", "statement": "On every binary image of at most 32896 pixels and every radius that fits: open is the textbook opening (the union of all (2r+1)-squares that are entirely white and inside), although dilate looks at truncated windows; erode <= open <= input <= dilate; erode, dilate, open and close are monotone; open and close are idempotent; close keeps every white pixel at distance r from the border and blackens the rest; eroding by r and then s equals eroding by r+s; radius 0 changes nothing and gives a black gradient. Expected: a larger radius dilates more. Actual: refuted near the border.", "quantifier": "all binary images up to 32896 pixels, all radii that fit, pairs of ordered images", "why_tests_cant": "Laws relating several operators on all images.", "anchors": ["src/morphology.rs: erode, dilate, majority, open, close, gradient"]}
{"id": "C70", "title": "Tone curves: brightness adds up and can be undone exactly when nothing saturates; gamma is accurate and keeps order", "statement": "Without SIMD: brightness(a) then brightness(b) equals brightness(a+b) for a, b of the same sign; brightness(0) is the identity; brightness(b) then brightness(-b) restores the image if and only if no colour sample saturates. gamma applies one curve to all colour samples; for every libm whose powf has relative error 2^-20 and maps 0 to 0, gamma in [1/16,3] and max in 1..255 the curve is within 1/2+1/1000 of max*(c/max)^gamma for c <= max and fixes 0 and max; for a powf increasing on [0,1] it keeps order and never exceeds max.", "quantifier": "every u8 image with at least a colour channel, all biases, all gammas in the range, every libm with the stated accuracy or monotonicity", "why_tests_cant": "Ranges over all images, parameters and math libraries.", "anchors": ["src/tone.rs: brightness, gamma"]}
{"id": "C71", "title": "Geometric operations compose", "statement": "crop of a crop is one crop at the sum of the offsets; cropping the overlaid region returns the overlaid image; overlaying a crop at its origin returns the image; overlaying twice at the same place leaves the last; translations add up; cropping a mirrored image is mirroring the crop of the mirrored rectangle; and any per-sample map commutes with crop, reflect, overlay and (if it keeps zero) translate.", "quantifier": "every image of every sample type, all offsets and rectangles accepted by crop, every sample function", "why_tests_cant": "Equations between compositions on all images.", "anchors": ["src/transform.rs: crop, overlay, translate, reflect", "src/image/mod.rs: map_channels"]}
{"id": "C72", "title": "Linear filters compute real averages up to rounding, and depend only on what their window shows", "statement": "For any kernel and any finite samples whose absolute products sum to at most 2^k, every sample of a filtered image is finite and within 3*taps*2^k/2^25 of the exact (real) correlation. For samples in 0..255: weighted_avg_filter(size, w) is within size^2/25000 of the true weighted mean of the size x size window, centre counted w times; box_filter(size) is within size^2/12000 of the true mean of the size^2 x size^2 window (documented: size x size, see C51). Translation: if the windows around (x, y) in one image and (x', y') in another (of any size) show the same samples, filter_1d and unseparable_filter give the same sample there, so tiles can be filtered separately. Image coordinates outside the image repeat the centre coordinate.", "quantifier": "every f32 image, kernel, size, centre weight, schedule and position; pairs of images for translation", "why_tests_cant": "Rounding errors of arbitrarily many f32 operations must be bounded for all kernels and images.", "anchors": ["src/filter/mod.rs: filter_1d, unseparable_filter, box_filter, weighted_avg_filter, linear_filter"]}
{"id": "C73", "title": "Gaussian functions and kernels are accurate but not normalised; the Laplacian-of-Gaussian kernel has a wrong sign", "statement": "For every sigma in [1/256, 256] and every libm whose powf has relative error at most 2^-20 on the powers used, as long as d^2/(2 sigma^2) <= 60: gaussian_fn(d, sigma), every entry of generate_gaussian_kernel and every entry but the centre (which is 0) of generate_spatial_mat are within 1/15000 (relatively) of exp(-d^2/(2 sigma^2))/(2 pi sigma^2), d the distance from the centre. Expected: a blur kernel has total weight 1. Actual: refuted, the 3x3 kernel for sigma=1 sums to less than 0.79, so gaussian_blur darkens. Documented: laplacian_of_gaussian is the LoG operator and its output contains positive and negative values. Actual: the factor 1 - d^2/(2 sigma^2) is computed as 1 + d^2/(2 sigma^2): every kernel entry is within 1/15000 of that wrong value and negative, also where the true LoG is positive; so on every non-negative image the output is never positive, and at most -v/(4 sigma^4) where the image has sample v.", "quantifier": "every kernel size, sigma, distance, every libm with the stated accuracy, every non-negative image, schedule and position", "why_tests_cant": "Error analysis of exponentials for all parameters and math libraries; sign of arbitrarily long f32 sums.", "anchors": ["src/util/mod.rs: generate_gaussian_kernel, generate_log_kernel, generate_spatial_mat", "src/util/math.rs: gaussian_fn", "src/filter/edge.rs: laplacian_of_gaussian"]}
{"id": "C74", "title": "Rotation by any angle returns, has the size of the rotated rectangle and puts pixels where they belong, but leaves holes", "statement": "For every non-empty image with width+height+2 <= 2^k <= 2^22 and every angle whose sine and cosine are numbers of size at most 1 with |sin|+|cos| in [1,1.45], rotate returns a well-formed image (no write ever falls outside): its width is w|cos|+h|sin| rounded down and its height w|sin|+h|cos| rounded down, up to e = 2^k/2^21; every output pixel is zero or an input pixel whose offset from the centre pixel, rotated, ends there (truncated towards zero, possibly one column to the left, error e); and for every input pixel such a position does show an input pixel that goes there. Angles with NaN sine and cosine (NaN, infinite) panic on every non-empty image. Expected: rotate(180) of a full image is the image reversed. Actual: refuted, a 3x3 image loses the middle column, the last column is empty.", "quantifier": "every f32 image in the size range, every angle, every libm with bounded sine and cosine, both profiles", "why_tests_cant": "A write outside the output panics; absence of such a write must hold for every angle, size and rounding error.", "anchors": ["src/transform.rs: rotate", "src/util/math.rs: vector_mul, vector_mul_mut, max_4, min_4"]}
{"id": "C75", "title": "Bilinear scaling by every factor: no panic, mixes the four neighbours of the source position, with the weights the wrong way round", "statement": "For every finite positive factors a, b with width*a and height*b at most 2^22 and samples of size at most 2^k, scale with Bilinear returns (sequentially and with rayon, any schedule) an image of size round(width*a) x round(height*b); the source position of output pixel (x, y) is (x/a, y/b) up to a relative error of 2^-24 and always inside the image; every sample is within 2^k/2^19 of the mix of the samples at the four surrounding pixels. Expected: the nearer neighbour weighs more. Actual: each neighbour gets the weight of the opposite one (bilinear_swapped, refutation in C23). Still no sample leaves the range of its channel by more than 2^k/2^19. The bound 2^22 is needed: a 4177 pixel wide line scaled by 1064.7685546875 panics in both builds.", "quantifier": "every f32 image with finite samples, all factors in the range, schedules and output positions; both profiles", "why_tests_cant": "Whether a rounded quotient can reach the image width, and how far the rounded mix is from the real one, must be settled for all sizes and factors.", "anchors": ["src/transform.rs: scale, scale_bilinear, interpolate_bilinear"]}
{"id": "C76", "title": "Nearest-neighbour scaling by every factor: copies the pixel before (x+1)/a, and panics whenever the output size was rounded up", "statement": "For every finite positive factors a, b with width*a and height*b at most 2^22: the output size is round(width*a) x round(height*b). Expected: every image can be scaled by every factor. Actual: if neither rounding went up, scale with NearestNeighbor returns (sequentially and with rayon, any schedule) an image each of whose pixels (x, y) is the input pixel (i, j) with i the last integer before (x+1)/a and j the last one before (y+1)/b (up to a relative error of 2^-24 of the quotients); if a rounded size exceeds the exact one by more than 2^-22 of itself, every build panics. In particular every image of odd width panics when scaled by 3/2.", "quantifier": "every f32 image, all factors in the range, schedules and output positions; both profiles", "why_tests_cant": "Whether a rounded quotient can reach the image width must be settled for all sizes and factors.", "anchors": ["src/transform.rs: scale, scale_nearest_neighbor, interpolate_nearest_neighbor"]}
{"id": "C77", "title": "Shear by any factors: size and positions, and the panic when the growth is just below an integer", "statement": "For finite factors a, b such that the sheared rectangle is less than K = 2^k <= 2^22 wide and high, and e = K/2^22: if the growths |a|*height and |b|*width are at least e below the next integer, shear returns an image of size width + floor(|a|*height), height + floor(|b|*width) in which every pixel is zero or an input pixel (x, y) found at (floor(x - a*y + max(a,0)*height), floor(y - b*x + max(b,0)*width)) up to e, and the position of every input pixel shows such a pixel. Expected: no finite factor makes shear panic. Actual: if a > 0 and the f32 product a*height is less than 2^(j-25) below the next integer, where the output is at least 2^j wide, shear panics in every build, whatever b is; e.g. for a = 1 - 2^-24 on every image with one row of four or more pixels.", "quantifier": "every f32 image, all finite factors in the range, both profiles", "why_tests_cant": "Whether a rounded position can reach the width of the output must be settled for all sizes and factors.", "anchors": ["src/transform.rs: shear", "src/util/math.rs: vector_mul_mut"]}
{"id": "C78", "title": "Edge operators see differences only and treat all directions alike", "statement": "For every gray image without alpha whose samples are integers of size at most m (8-bit images: 255), every centre weight w with (w+2)*m <= 1448 (Prewitt: w=1, Sobel: w=2) and every libm whose powf(x, 2) is x*x: sobel_weighted, sobel and prewitt return the correctly rounded length of the gradient. Consequences: adding a constant to all samples, or replacing v by k - v, gives the same result bit for bit; the edges of the mirrored image are the mirrored edges, and transposition works likewise; a flat image gives exactly 0 everywhere (and laplacian gives 0, sharpen and unsharp_masking leave it alone). On a linear ramp a*x + c*y + k: in the interior the result is the rounded length of 2(w+2)(a, c) and the Laplacian is 0. Expected: the same on the border. Actual: on the left border column the horizontal derivative is halved and the Laplacian is -a, because missing neighbours are replaced by the centre.", "quantifier": "every integer gray image in the range, every weight, offset, axis, ramp and position, every schedule, both profiles", "why_tests_cant": "Symmetry and invariance laws relate the results on all pairs of images; no finite set of images settles them.", "anchors": ["src/filter/edge.rs: derivative_mask, prewitt, sobel, sobel_weighted, laplacian", "src/filter/mod.rs: sharpen, unsharp_masking", "src/transform.rs: reflect"]}
{"id": "C79", "title": "Lanczos scaling: accurate, exact at source pixels, but darkens flat areas and overshoots at steps", "statement": "For every positive finite factors, every kernel size 1..32, samples of size at most 2^k and every libm whose sinf has error at most |t|/2^22: scale with Lanczos (size 3) and scale_lanczos return, sequentially and with rayon, an image each of whose samples is close to the real Lanczos sum sinc(x) sinc(x/a) over the window (size 3: within 2^k/2048). Where the source position is a pixel, the sample is that pixel up to the tolerance; so upscaling by integers n, m puts pixel (i, j) at (n i, m j), and an 8-bit image converted to f32, scaled by 1 and converted back is itself. Expected: a flat image stays flat, and results stay in the range of the input. Actual: both refuted; weights are not normalised, so doubling the width of any flat image of 255 gives about 253.5 at column 1; and the row 0 0 255 255 doubled has a sample below -28.", "quantifier": "every f32 image with finite samples, all positive factors, kernel sizes 1..32, schedules and output positions, every sine with the stated accuracy; both profiles", "why_tests_cant": "Error analysis of transcendental weights over all positions, images and math libraries.", "anchors": ["src/transform.rs: scale, scale_lanczos, interpolate_lanczos", "src/util/math.rs: lanczos_kernel, sinc_norm"]}
{"id": "C80", "title": "Bilateral filter: accurate in calm windows, and pixels that stand out become black", "statement": "For 1/256 <= range <= 256, spatial <= 64, an odd window of side 2h+1 >= 3 and every accurate power function, bilateral_filter works on the CIELAB image (finite samples, at most 512): every sample whose window differs from it by at most 9*range becomes the real mean of its neighbours (not of itself), weighted by exp(-distance^2/(2 spatial^2)) * exp(-difference^2/(2 range^2)), up to m(1013+(2h+1)^2)/2^22, where m bounds the samples of the window; so it stays between the smallest and the largest sample of the window up to that tolerance, and flat windows are kept. Expected: the result of a smoothing filter stays within the colours of the window. Actual: a pixel at distance at least h from the border whose L, a or b differs from all others in its window by at least 15*range becomes (0,0,0): all weights underflow and 0/0 is not a number. E.g. a gray pixel 100 in a 3x3 image of 255 becomes 0 for range 1, spatial 1/2.", "quantifier": "every 8-bit RGB or RGBA image of valid size, all parameters in the range, both builds, every schedule and every power function with the stated accuracy", "why_tests_cant": "Rounding errors of exponentials, products, sums and quotients must be bounded for all windows and values.", "anchors": ["src/filter/bilateral.rs: bilateral_filter, bilateral_direct_pixel", "src/util/math.rs: gaussian_fn", "src/util/mod.rs: generate_spatial_mat"]}
{"id": "C81", "title": "Linear light, XYZ and CIELAB values agree with the real formulas; the transfer curve and D50 do not agree with the standards", "statement": "For every 8-bit colour image and every accurate power function: linearize_srgb gives every sample's linear light (the formula with exponent 2.2) up to 4*10^-6; srgb_to_xyz gives the product with the sRGB/D65 matrix up to 5*10^-6; srgb_to_lab gives L*, a*, b* for the chosen white point up to 0.0063, 0.0531, 0.0221; L* lies in [-0.01, 100.01]; gray pixels have |a*| <= 0.14 and |b*| <= 0.04 for D65. Expected: linear light as in the sRGB standard; gray pixels neutral for every white point. Actual: the standard's exponent is 2.4 (byte 128 is below 0.217, the library gives more than 0.24); with D50 the matrix is not adapted and white has b* < -19.1.", "quantifier": "every 8-bit image with three colour channels, both white points, every power function with relative error 2^-20 on the range used, both profiles", "why_tests_cant": "Error analysis over all 2^24 colours and all admissible math libraries.", "anchors": ["src/colorspace.rs: linearize_srgb_f32, srgb_to_xyz_f32, srgb_to_lab_f32, xyz_to_lab_f32", "src/util/math.rs: xyz_to_lab_fn"]}
{"id": "C82", "title": "Threshold laws: idempotence, composition, order and splitting", "statement": "For every f32 gray image (infinities and NaN samples included unless said otherwise): thresholding twice with Trunc, ToZero or ToZeroInv is the same as once; if 0 <= t < max then Binary twice is Binary, BinaryInv twice is Binary, and mixing both gives BinaryInv, in both orders. Expected: Binary is always idempotent. Actual: not if max <= t: the pixel 250 with t=200, max=100 becomes 100 and then 0. Trunc at two levels in either order is Trunc at the lower level, ToZero at two levels is ToZero at the higher. Binary (max >= 0), Trunc and ToZero (t >= 0) keep the order of images, BinaryInv reverses it, ToZeroInv does neither; a higher threshold gives a smaller Binary image. For finite samples, the residual of an image and its ToZero image is its ToZeroInv image bit for bit and conversely. The residual with swapped arguments is the negative (integer samples of size at most 2^23).", "quantifier": "every f32 gray image, all thresholds and maxima, both profiles", "why_tests_cant": "Laws relate the results of several calls on all images and parameters, including NaN and infinities.", "anchors": ["src/filter/mod.rs: threshold, residual"]}
{"id": "C83", "title": "CIELAB and XYZ back to 8-bit, and brightness_lab / contrast_lab, agree with the real formulas; brightening tints grays", "statement": "For every accurate power function: lab_to_srgb turns every finite colour whose CIELAB coordinates (L+16)/116, (L+16)/116+a/500, (L+16)/116-b/200 lie between -1 and 1.98 into the bytes that encode its real linear light (inverse CIELAB curve, white point, inverse matrix) up to 1/8000, cut off to 0..255; xyz_to_srgb does so up to 1/60000. So away from the jump of the library's transfer curve at 0.0031308 (where it drops from 10.3 to below 6) each byte is at most half a level above and one and a half below the exact value. For every 8-bit colour image and every bias from -255 to 255, brightness_lab shows the colour with lightness L + 100*bias/255 and unchanged a, b, up to 0.0063, 0.0531, 0.0221 in L, a, b; contrast_lab with gain 0..1 shows gain*L likewise. Expected: a gray stays gray when only its lightness changes. Actual: black brightened by 128 becomes brown (red at least 118, blue at most 96), because the white point D50 is used with the D65 matrix.", "quantifier": "every f32 Lab or XYZ image with colours in the range, every 8-bit colour image, all biases and gains, both white points, every power function with relative error 2^-20 on bases up to 32, both profiles", "why_tests_cant": "Error analysis over all colours, parameters and admissible math libraries.", "anchors": ["src/colorspace.rs: lab_to_srgb_f32, lab_to_xyz_f32, xyz_to_srgb_f32, unlinearize_srgb_f32", "src/tone.rs: brightness_lab, contrast_lab", "src/util/math.rs: lab_to_xyz_fn"]}
{"id": "C84", "title": "Histogram equalization: what lightness a pixel gets", "statement": "For every 8-bit colour image of at most 2^30-1 pixels, either white point, alpha from 0 to 1, precision from 0 to 10^6 and every accurate power function: there is an assignment of colours to bins, where the number of the bin is precision*L* rounded, up to 0.501+0.0064*precision, and a colour lighter by at least 0.0126 never lies in a lower bin, such that every pixel of the result of histogram_equalization shows the colour with lightness alpha*100*share + (1-alpha)*L* and unchanged a*, b*, up to 0.0064, 0.0531, 0.0221, provided its lightness is to be raised by at most 101 (always so if the image has at least 10002*precision+300 pixels). share is (pixels in bins up to the pixel's bin + different bins up to it)/(pixels). Clearly lighter pixels are never aimed below darker ones. With alpha 0 every sample comes back or loses one level. A gray image of a single level with at least 100 pixels turns white (bytes 254 or 255) with alpha 1 and D65. Expected: share is a percentile, at most 1. Actual: the lightest pixel always has a share of 1 + (different bins)/(pixels) > 1, and if all pixels lie in different bins every share is twice the percentile.", "quantifier": "every 8-bit colour image in the range, both white points, all alphas and precisions, every power function with relative error 2^-20, both profiles", "why_tests_cant": "The result of each pixel depends on the whole image; error analysis over all images, parameters and math libraries.", "anchors": ["src/tone.rs: histogram_equalization", "src/util/mod.rs: generate_histogram_percentiles", "src/colorspace.rs: srgb_to_lab_f32, lab_to_srgb_f32"]}
{"id": "C85", "title": "Pixelwise operations commute with crop, reflect and overlay", "statement": "For every non-empty 8-bit image (for the f32 inputs: every f32 image) of the layout the operation needs, brightness (scalar path), contrast, gamma, saturation (scalar path), rgb_to_grayscale (scalar path), rgb_to_hsv, hsv_to_rgb, the sRGB/XYZ/Lab/HSV f32 conversions in both directions, brightness_lab, contrast_lab, threshold (grayscale images), the conversions between u8, f32 and f64 and the rescalings succeed, and applying them before or after crop (every accepted rectangle), reflect (both axes) or overlay (every position and front image of the same layout) gives bit-identical results; so does the residual of two f32 images, for crop and reflect. Expected: the SIMD build does so too. Actual: with the SIMD path of brightness a crop of 10 samples comes out black although the same pixels are brightened in the whole image.", "quantifier": "every image of the layout, every rectangle strictly inside, both axes, every overlay position, all accepted parameters, every math library, both profiles", "why_tests_cant": "A law between two compositions of calls over all images, rectangles and positions.", "anchors": ["src/tone.rs: brightness, contrast, gamma, saturation, brightness_lab, contrast_lab", "src/colorspace.rs", "src/transform/mod.rs: crop, reflect, overlay"]}
{"id": "C86", "title": "Morphology treats all directions alike, looks no further than its radius, and is self-dual away from the border", "statement": "For every binary image of at most 32896 pixels and every radius up to its width and height, each of erode, dilate, majority, open, close and gradient commutes bit for bit with both reflections, and gives the transposed result on the transposed image. A pixel at least one radius (two radii for open and close) away from the edges of a cropped part is the same whether the operation is done before or after the crop. Where the whole window lies inside the image, dilating the negative is the negative of eroding, eroding the negative is the negative of dilating, and the gradient of the negative is the gradient. Expected: this duality holds at every pixel. Actual: at the border both sides can be black.", "quantifier": "every binary image in the range, every radius, both axes, every accepted crop rectangle, both profiles", "why_tests_cant": "Laws between compositions of calls over all images, radii and rectangles.", "anchors": ["src/morphology.rs: erode, dilate, majority, open, close, gradient", "src/transform.rs: reflect, crop"]}
{"id": "C87", "title": "Safe calls of the SIMD build that touch memory outside their buffers", "statement": "Expected: no safe public function has undefined behaviour. Actual, for the AVX2 build: rgb_to_grayscale on every well-formed image ends as a complete table over alpha flag, number of channels and number of pixels says: it is undefined for gray images of 34 or more pixels, for two-channel images with and without alpha of most sizes from 33 pixels, for one-channel alpha images from 35 pixels and three-channel alpha images with 1..10 leftover pixels; it panics for others; of the calls that return (3 pixels or more), exactly those on RGB without alpha and RGBA return an image whose buffer fits its size. brightness on a well-formed image is undefined exactly in release builds from 4294967264 samples on; on an image built by from_vec with a buffer shorter than the whole 32-sample chunks announced it is always undefined. saturation (below the 32-bit edge) is undefined exactly for colour images without alpha whose number of pixels is a multiple of ten.", "quantifier": "every well-formed image of every channel count, every short buffer, all accepted biases and saturations, both profiles", "why_tests_cant": "Undefined behaviour need not show in a test run, and the claim ranges over all image sizes.", "anchors": ["src/colorspace.rs: rgb_to_grayscale", "src/tone.rs: brightness, saturation", "src/simd.rs: adds_256_u8, adds_n_256_u8, avg_256_u8, avg_alpha_256_u8", "src/image/mod.rs: Image::from_vec"]}
{"id": "C88", "title": "The text of an ImageInfo is faithful", "statement": "Formatting an ImageInfo with {} gives four lines, \"width: W\", \"height: H\", \"channels: C\", \"alpha: true|false\", where W, H, C are the usual decimal numerals (digits only, no leading zero; a number has exactly one); two different layouts never give the same text.", "quantifier": "every layout (u32 sides, u8 channels, both alpha flags)", "why_tests_cant": "Injectivity relates all pairs of 2^73 layouts.", "anchors": ["src/image/mod.rs: impl Display for ImageInfo"]}
{"id": "C89", "title": "Linear filters: superposition, separability, mirror images and crops", "statement": "For integer images and integer kernels whose products sum to at most 2^24: unseparable_filter computes the exact integer correlation, so filtering a combination a*A+b*B gives a*(filtered A)+b*(filtered B); separable_filter with lines v and h gives the same values as unseparable_filter with the product kernel v*h, borders included; filtering the mirrored image with the mirrored kernel gives the mirrored result. Bit for bit and for all samples: a vertical 1D filter commutes with left-right reflection and a horizontal one with up-down reflection; and for filter_1d, separable_filter, unseparable_filter, linear_filter, gaussian_blur, box_filter, weighted_avg_filter, sharpen, unsharp_masking, laplacian, laplacian_of_gaussian, prewitt, sobel and every derivative_mask on gray images, filtering a crop gives, away from the edges of the crop by the radius of the filter, the crop of the filtered image, whatever the builds and schedules. Expected: mirrored images give mirrored results for all samples. Actual: beyond 2^24 the order of summation shows: the row 16777216, 1, 1 with weights 1, 1, 1 gives 16777216, its mirror image 16777218.", "quantifier": "every f32 image with sides up to 2^30, every kernel in the range, every rectangle strictly inside, both axes, all schedules, both profiles", "why_tests_cant": "Laws between compositions of calls over all images, kernels and rectangles.", "anchors": ["src/filter/mod.rs: filter_1d, separable_filter, unseparable_filter, linear_filter, box_filter, weighted_avg_filter, gaussian_blur, sharpen, unsharp_masking", "src/filter/edge.rs: derivative_mask, prewitt, sobel, sobel_weighted, laplacian, laplacian_of_gaussian", "src/transform.rs: crop, reflect"]}
{"id": "C90", "title": "8-bit hue accuracy, and what saturation does to colours", "statement": "For every non-empty 8-bit RGB(A) image: rgb_to_hsv gives every pixel that is not gray a hue less than one step (1/255 of the circle, across the wrap-around) from its exact position on the colour wheel. saturation(-255) turns every pixel into the gray of its largest sample; a larger argument never gives a larger smallest sample, and the largest sample is always kept; an argument of 0 keeps largest and smallest and moves the third sample by at most 18. Expected: 0 changes nothing, the strongest channel stays strongest, grays stay gray. Actual: (0,255,0) becomes (3,255,0) for 0; (255,30,245) becomes (253,30,255); for every d>0 a gray v becomes the red [v, v(255-d)/255, v(255-d)/255], so saturation(-255) followed by saturation(255) turns every image into pure reds. The alpha sample is kept throughout.", "quantifier": "every non-empty 8-bit image with three colour channels, every argument from -255 to 255, both profiles (scalar path)", "why_tests_cant": "Ranges over 2^24 colours times 511 arguments and all image sizes; the exact hue is a real number.", "anchors": ["src/tone.rs: saturation", "src/colorspace.rs: rgb_to_hsv, hsv_to_rgb"]}
{"id": "C91", "title": "What == on images means", "statement": "Two images of integers are == exactly when they have the same width, height, channel count and alpha flag and the same pixel at every position; in particular writing a pixel leaves an equal image exactly when that pixel was already there. Two f32 images are == exactly when layout and number of samples agree and the samples are pairwise the same number (neither is NaN, and they are identical or both zeros); this is symmetric and transitive. Expected: an image equals its clone, and equal images cannot be told apart. Actual for f32: an image equals its clone exactly when it holds no NaN, and a pixelwise function can turn two equal images (0 and -0) into unequal ones.", "quantifier": "every pair of images of any integer channel type and of f32, every position and pixel, both profiles", "why_tests_cant": "An equivalence over all pairs of images; tests compare a few.", "anchors": ["src/image/mod.rs: derive(PartialEq) for Image and ImageInfo, get_pixel, set_pixel"]}
{"id": "C92", "title": "Channels are treated separately and alike", "statement": "Take some of the channels of an image, in any order and possibly repeated (for example only the green plane, or BGR instead of RGB). Then crop, translate, reflect, shear, rotate, scale (every interpolation), Lanczos scaling, overlay (of the same channels of both pictures), the one-dimensional, separable, two-dimensional and linear filters, box, weighted average, Gaussian blur, sharpen, unsharp masking, Laplacian, Laplacian of Gaussian, median filter and alpha-trimmed mean give on the selected channels, bit for bit, those channels of what they give on the whole image; the alpha flag plays no part and is passed on. The mapping functions that spare the alpha channel are not of this kind.", "quantifier": "every image, every choice of channels, every argument for which the operation returns, both profiles, every schedule of the parallel build, every math library", "why_tests_cant": "Two runs on different images are compared, over all images and all choices of channels.", "anchors": ["src/transform.rs: crop, overlay, translate, reflect, rotate, shear, scale, scale_lanczos", "src/filter/mod.rs: filter_1d, separable_filter, unseparable_filter, linear_filter, box_filter, weighted_avg_filter, gaussian_blur, sharpen, unsharp_masking", "src/filter/edge.rs: laplacian, laplacian_of_gaussian", "src/filter/median.rs: median_filter, alpha_trimmed_mean_filter"]}
{"id": "C93", "title": "Median filter and tone curves", "statement": "Expected: the median filter commutes with every increasing tone curve, with the negative and with mirroring, and brightening pixels never darkens the result. Actual: it commutes with every curve that is strictly increasing on the levels occurring in the picture (in particular with a brightness change that does not saturate), and it leaves pictures of a single colour alone; but it does not commute with posterising, with the negative, or with mirroring in either direction, and brightening two pixels can darken a third.", "quantifier": "every u8 image (within 2^31), radius, math library, profile, and every tone curve with the stated property", "why_tests_cant": "A law relating two runs, for all images and all curves.", "anchors": ["src/filter/median.rs: median_filter", "src/image/mod.rs: map_channels", "src/tone.rs: brightness"]}
{"id": "C94", "title": "Debug and release builds agree unless the debug build panics; without SIMD nothing is undefined", "statement": "For every call of every operation of the crate (images, pixels, iterators, conversions, kernels and tables, colour spaces, tone, morphology, transformations, filters; sequential or rayon build), with any arguments whatsoever, including images whose buffer does not fit their announced size: either the debug build panics, or the release build does exactly the same (same value, same error, same panic); and neither build has undefined behaviour, unless SIMD is used. Operations that take closures inherit this from the closure, and so do programs made of several calls. With SIMD the debug build still panics or does what the release build does, but undefined behaviour is possible. Expected: both builds give the same result. Actual: where the debug build panics the release build may go on with a wrapped number: the residual of the 8-bit samples 0 and 1 is 255, a 65536 x 65536 layout has size 0, a crop from x = 4294967295 returns an empty image.", "quantifier": "every argument of every operation, without any assumption on the images; every schedule, math library, SVD and binary search", "why_tests_cant": "Two builds are compared on all inputs; a test runs one build on a few.", "anchors": ["src/image/mod.rs", "src/image/pixel.rs", "src/image/sub_image.rs", "src/image/pixel_iter.rs", "src/image/from_impl.rs", "src/convert.rs", "src/util/mod.rs", "src/util/math.rs", "src/colorspace.rs", "src/tone.rs", "src/morphology.rs", "src/transform.rs", "src/filter/mod.rs", "src/filter/edge.rs", "src/filter/bilateral.rs", "src/filter/median.rs", "src/simd.rs"]}
{"id": "C95", "title": "What histogram equalization depends on", "statement": "Histogram equalization of an RGB or RGBA image depends only on how often each colour occurs, not on where: two images whose colours are rearrangements of each other (of any shapes, with or without alpha) are equalized alike, the same colour becoming the same colour; equal colours of one image stay equal; and equalizing commutes with mirroring the image in either direction. Expected: only the proportions of the colours matter. Actual: with half equalization a black image of one pixel becomes nearly white and a black image of four pixels a medium gray, so that equalizing does not commute with cropping.", "quantifier": "every 8-bit RGB(A) image of up to 2^30 pixels, every accepted amount and precision, both white points, every powf (every accurate powf for the refutation), both profiles", "why_tests_cant": "Relates runs on all pairs of rearranged images.", "anchors": ["src/tone.rs: histogram_equalization", "src/util/mod.rs: generate_histogram_percentiles", "src/transform.rs: reflect"]}
{"id": "C96", "title": "What a sample of the median filter depends on", "statement": "Expected: every sample of median_filter depends only on its window. Actual: it depends only on the same channel, on the columns within the radius and on the rows from the first down to y + radius; but of those rows none is too far: for radius 1 and every n up to 2^29 there are two images that differ in a single pixel of the first row and whose results differ in row n. Filtering a part that begins at the first row gives, away from its left, right and lower edge by the radius, the same part of the filtered image. With radius 0 the filter does not leave the image alone: every sample becomes the largest of its column so far.", "quantifier": "every u8 image (within 2^31), radius, part, distance, math library, profile", "why_tests_cant": "Two runs on all pairs of images, at every distance.", "anchors": ["src/filter/median.rs: median_filter", "src/transform.rs: crop"]}
{"id": "C97", "title": "The bilateral filter treats equal surroundings alike", "statement": "Two pixels, of the same or of different images (with the same alpha flag), that are at least half a window away from the borders and have the same pixels around them become the same pixel, bit for bit, whatever the sizes of the images, the positions, the builds (sequential or rayon) and the schedules. So filtering a cropped part gives, away from its edges by half a window, the crop of the filtered image.", "quantifier": "every pair of 8-bit RGB(A) images of accepted size, every position, every accepted range and spatial, odd windows up to 65535, both builds, every schedule, math library, profile", "why_tests_cant": "Relates pairs of runs at all positions.", "anchors": ["src/filter/bilateral.rs: bilateral_filter", "src/transform.rs: crop", "src/colorspace.rs"]}
{"id": "C98", "title": "Nearest-neighbour scaling by whole factors", "statement": "Scaling by whole factors with the nearest-neighbour method: scaling twice is scaling once by the product of the factors; scaling commutes with mirroring, with cropping at multiples of the factors, with shifting by multiples of the factors, with thresholding, and with every operation that works pixel by pixel; halving undoes doubling. Expected: 1/k undoes k, and scaling down commutes with mirroring. Actual: scaling a one-pixel image by 61 and then by 1/61 panics, and halving a row of four and mirroring it gives different pixels depending on the order.", "quantifier": "every f32 image and whole factors for which the scaled sides stay below 2^24 and the image within 2^32 samples; both profiles, every math library", "why_tests_cant": "Relates composed runs on all images and all factors.", "anchors": ["src/transform.rs: scale, crop, reflect, translate", "src/filter/mod.rs: threshold"]}
{"id": "C99", "title": "Enlarging by powers of two: what a pixel depends on", "statement": "Scaling by factors 2^k and 2^l: an output pixel at (x, y) depends only on the source pixels from x/2^k - before to x/2^k + after (rows alike), where (before, after) is (0, 0) for nearest neighbour, (0, 1) for bilinear, (1, 2) for bicubic and (2, 3) for Lanczos; and enlarging a cropped part gives, bit for bit, away from its edges by that much, the same pixels as cropping the enlarged image (for scale_lanczos: (size - 1, size)). Expected: enlarging commutes with mirroring. Actual: not even bilinear scaling of a row of two pixels does.", "quantifier": "every f32 image, every method, exponents 0..23 with the enlarged sides below 2^24, every part, any powf and sin, both profiles", "why_tests_cant": "Two runs on all pairs of images and all parts; equality is exact in f32.", "anchors": ["src/transform.rs: scale, scale_lanczos, interpolate_bilinear, interpolate_bicubic, interpolate_lanczos, crop"]}
{"id": "C100", "title": "alpha_trimmed_mean_filter: what a sample depends on", "statement": "Expected: a sample depends only on its window, and a window of one value gives that value. Actual (radius <= 127, alpha >= 2, whenever images are returned): a sample depends only on its own channel, on the columns at most the radius away, and on all rows from the top of the image down to y + radius; so filtering a part of the picture that reaches up to its first row gives the same samples away from the part's other sides. The expectation is refuted: a difference in the first row alone is still visible far below, where all windows have the one value 50 and 40 and 80 are shown.", "quantifier": "every pair of u8 images with the same layout, radius, alpha, position, every binary search", "why_tests_cant": "the state is carried from row to row; a test sees single pictures, not what pairs of them have in common", "anchors": ["src/filter/median.rs: alpha_trimmed_mean_filter, MeanHist::update, process_cols_mean"]}
{"id": "C101", "title": "Whatever a program calls, its images stay well-formed", "statement": "Expected: a program that starts from well-formed images and calls the public functions in any order, as often as it likes, with any arguments of the right types, only ever holds images whose buffer has width * height * channels samples (a number that fits in u32) and whose u8 samples are between 0 and 255: no overflow in a size goes unnoticed and no function leaves a buffer of the wrong length. Actual: true of every debug build, sequential or rayon, with or without SIMD, for all functions that return or change an image and for closures that return values of the right types (side conditions: rgb_to_grayscale_f32 gets an image with a colour channel, rgb_to_grayscale of a SIMD build one with three). Refuted for release builds (crop under rayon turns a good 2x2 image into one of 4294967295 x 4294967295 pixels with one sample; blank of 65536 x 65536 has none) for rgb_to_grayscale of a SIMD build on a gray image (three pixels with one sample), and for the constructors that take a buffer, and empty, which check nothing.", "quantifier": "every finite sequence of calls, all arguments, closures, schedules, libm, SVD and binary search results", "why_tests_cant": "The programs are unboundedly many; a test runs a few of them, and a wrong length shows only when a later call reads past it.", "anchors": ["src/image/mod.rs: Image, set_pixel, apply_pixels, map_pixels, blank, empty", "src/transform.rs: crop, scale", "src/filter/mod.rs: residual, linear_filter"]}
{"id": "C102", "title": "Which errors a call can return", "statement": "Expected (from the error type and the Result signatures): a wrong argument is reported as InvalidArgError, a failed computation as NumericError, a failure of the linear algebra library as RulinalgError. Actual: outside the io module the only error a call ever returns is InvalidArgError; functions without a Result never stop with an error of a function they call; translate, reflect, rotate, shear, median_filter, scale_channels, sharpen, unsharp_masking and laplacian return a Result but never Err. With kernels of fewer than 2^32 elements filter_1d returns Err exactly for a kernel of even length, separable_filter exactly for an even length or two different lengths, box_filter exactly for an even size, prewitt, sobel and sobel_weighted, the morphological operations, threshold and normalize_laplacian exactly for an image that is not gray; up to 2^24 elements unseparable_filter and linear_filter report exactly an even or non-square length, and up to size 4096 weighted_avg_filter, gaussian_blur and laplacian_of_gaussian exactly an even size; the tone functions, crop, overlay, scale, residual, bilateral_filter, alpha_trimmed_mean_filter, gaussian_fn, the kernel generators and vector_mul report exactly the arguments outside their documented ranges (a NaN is in every range), generate_spatial_mat a negative sigma when the size is at least 2, and superimpose always reports an error; and a failed singular value decomposition makes linear_filter panic instead of returning RulinalgError.", "quantifier": "every argument of every public function outside io, both profiles, every schedule, with and without SIMD, any closures and channel types, any result of libm, svd and binary search", "why_tests_cant": "That no input makes a call return another error is a statement about all inputs; a test shows the error of one.", "anchors": ["src/error/mod.rs: ImgProcError", "src/error/messages.rs", "src/filter/mod.rs: filter_1d, separable_filter, box_filter, linear_filter", "src/filter/edge.rs: derivative_mask", "src/util/math.rs: separate_kernel", "src/morphology.rs: open, close", "src/tone.rs: brightness, contrast, gamma", "src/transform.rs: crop, scale, overlay"]}
