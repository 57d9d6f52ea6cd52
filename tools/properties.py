#!/usr/bin/env python3
"""Single source of /verif/properties.jsonl (run: python3 tools/properties.py)."""
import json, os
P = []
def p(id, title, statement, quantifier, why, anchors):
    P.append(dict(id=id, title=title, statement=statement, quantifier=quantifier,
                  why_tests_cant=why, anchors=anchors))

IM="src/image/mod.rs"; TR="src/transform.rs"; UT="src/util/mod.rs"; MA="src/util/math.rs"
MO="src/morphology.rs"; TO="src/tone.rs"; CO="src/colorspace.rs"; FI="src/filter/mod.rs"
ED="src/filter/edge.rs"; ME="src/filter/median.rs"; BI="src/filter/bilateral.rs"; SI="src/simd.rs"
IO="src/io/mod.rs"; CV="src/convert.rs"; ER="src/error/messages.rs"; PX="src/image/pixel.rs"
PI="src/image/pixel_iter.rs"; SU="src/image/sub_image.rs"; FR="src/image/from_impl.rs"

# ---------------------------------------------------------------- image core
p("C01","Constructors store exactly the given samples",
  "from_slice, from_vec, from_vec_of_vec and from_vec_of_slice return an image whose info() is the four given values and whose data() is the given samples, resp. the concatenation of the given vectors, in order; blank(info) has width*height*channels samples all equal to zero whenever that product fits in 32 bits.",
  "all dimensions, channel counts, alpha flags and sample vectors, both overflow profiles (debug and release)",
  "sizes and contents are unbounded; 32-bit overflow of the product only shows for huge dimensions",
  [f"{IM}: Image::from_slice, from_vec, from_vec_of_vec, from_vec_of_slice, blank, empty"])
p("C02","set_pixel then get_pixel: the written pixel, and only that pixel, changes",
  "On a well-formed image, after set_pixel(x,y,p) with x,y in bounds and p of the right length, get_pixel(x,y) returns p, get_pixel at any other coordinates returns what it returned before, and info() is unchanged; the same for set_pixel_indexed and the 1D index.",
  "every well-formed image, every pair of coordinates, every pixel value, both profiles",
  "needs every pair of positions in every image size; tests try two positions of one 3x3 image",
  [f"{IM}: Image::set_pixel, set_pixel_indexed, get_pixel, Index"])
p("C03","Pixel access succeeds exactly on in-bounds coordinates and right-length pixels",
  "On a well-formed image get_pixel / get_pixel_mut return a slice of exactly `channels` samples when x<width and y<height and panic otherwise; set_pixel succeeds exactly when moreover the pixel has `channels` samples (a pixel whose length only agrees modulo 256 is still rejected), and panics otherwise; never an error value, never out-of-bounds memory.",
  "every well-formed image, every u32 coordinates, every pixel length, both profiles",
  "the rejection must hold for every out-of-range coordinate and every wrong length, including the ones congruent modulo 256",
  [f"{IM}: get_pixel, get_pixel_mut, set_pixel", f"{ER}: check_xy, check_channels"])
p("C04","1D and 2D indexing agree",
  "For in-bounds (x,y) the pixel returned by get_pixel(x,y), get_pixel_unchecked(x,y) and img[y*width+x] is the same; index(x,y) is the position of its first sample; util::get_2d_coords maps y*width+x back to (x,y), and every linear index below width*height is hit by exactly one coordinate pair.",
  "every well-formed image and every in-bounds coordinate pair / linear index",
  "a bijection over all positions of all sizes",
  [f"{IM}: get_pixel, get_pixel_unchecked, index, Index", f"{UT}: get_2d_coords"])
p("C05","The pixel iterator visits every pixel exactly once, in row-major order, then ends",
  "Iterating &image yields exactly width*height items; the k-th item is (k mod width, k div width, that pixel); afterwards next() returns None, and keeps returning None.",
  "every well-formed non-empty image, every number of next() calls",
  "termination and completeness over all sizes is an inductive fact",
  [f"{PI}: PixelIter::new, next", f"{PI}: IntoIterator for &Image"])
p("C06","size_hint brackets the number of remaining items",
  "At every point of the iteration, size_hint() of the pixel iterator returns bounds (lo, Some hi) with lo <= number of items still to come <= hi, as the Iterator contract demands.",
  "every well-formed image, every number of items already consumed",
  "the contract is about every intermediate state of the iterator",
  [f"{PI}: PixelIter::size_hint"])
p("C07","Channel maps act on each sample independently and keep the shape",
  "map_channels(f) returns an image with the same info whose every sample is f of the sample at the same place; map_channels_if_alpha(f,g) applies g to the last channel of each pixel and f to the others when the image has an alpha channel, and is map_channels(f) otherwise.",
  "every well-formed image, every total function f, g, both profiles",
  "universally quantified over functions and image sizes",
  [f"{IM}: map_channels, map_channels_if_alpha", f"{PX}: map_alpha"])
p("C08","Pixel maps keep width, height and alpha and act pixel by pixel",
  "If f turns every pixel into exactly k samples (k<256), map_pixels(f) has k channels, same width, height and alpha, and its pixel at (x,y) is f of the input pixel at (x,y); map_pixels_if_alpha(f,g) gives f of the non-alpha part followed by g of the alpha sample. An image of zero pixels makes both panic (division by zero).",
  "every well-formed image, every closure with constant output length, both profiles",
  "universally quantified over closures and sizes; the empty image is an edge the tests never reach",
  [f"{IM}: map_pixels, map_pixels_if_alpha"])
p("C09","In-place application equals the map, and edit_channel touches one channel only",
  "apply_channels / apply_channels_if_alpha / apply_pixels / apply_pixels_if_alpha leave the image equal to the result of the corresponding map (for shape-preserving f); edit_channel(f,k) with k<channels changes exactly channel k of every pixel, to f of its old value.",
  "every well-formed image, every closure, every channel index, both profiles",
  "equality of two different loops for all inputs",
  [f"{IM}: apply_pixels, apply_pixels_if_alpha, apply_channels, apply_channels_if_alpha, edit_channel", f"{PX}: apply_alpha"])
p("C10","Any history of image operations behaves like a coordinate-indexed map and keeps the buffer size",
  "Starting from a well-formed image, after any sequence of set_pixel / set_pixel_indexed / apply_channels / edit_channel calls the buffer length still equals width*height*channels, the info never changes, and the content equals what the same sequence does to a mathematical function from (x,y,channel) to samples; a call panics exactly when its arguments are out of range.",
  "all finite sequences of operations on all well-formed images",
  "histories are unbounded",
  [f"{IM}: set_pixel, set_pixel_indexed, apply_channels, edit_channel, data"])
p("C11","get_subimage returns the requested rectangle",
  "get_subimage(x,y,w,h).get_pixel(i,j) is get_pixel(x+i,y+j) of the image for all i<w, j<h.",
  "every well-formed image and rectangle inside it",
  "the single unit test uses a one-pixel-wide rectangle, where a transposed layout is invisible",
  [f"{IM}: get_subimage", f"{SU}: SubImage::get_pixel, Index"])
p("C12","Neighbourhoods contain the right pixels and pad by repeating the edge",
  "get_neighborhood_1d / get_neighborhood_2d return `size` (resp. size*size) pixels in order, entry i being the image pixel at offset i - size/2 from the centre, with coordinates outside the image replaced by the nearest edge coordinate (clamp padding).",
  "every well-formed image, centre and window size",
  "unit tests only use size 3, where clamping and repeating the centre coincide",
  [f"{IM}: get_neighborhood_1d, get_neighborhood_2d"])
p("C13","Sample type conversions are lossless / saturating as documented",
  "u8 -> f32 -> u8 and u8 -> f64 -> u8 conversions of an image give back the same image; u16, u32 -> f64 is exact; f32/f64 -> u8 rounds half away from zero and saturates to [0,255], NaN becoming 0.",
  "every image of the source type, every float bit pattern",
  "2^32 (2^64) float values, all image sizes",
  [f"{FR}: From impls"])
# ---------------------------------------------------------------- transform
p("C14","crop returns exactly the requested rectangle, and says when it does not",
  "When crop(img,x,y,w,h) returns Ok, the result has width w, height h, the channels and alpha of img and pixel (i,j) equal to img pixel (x+i,y+j); it returns Ok exactly when x+w < img.width and y+h < img.height, and an error value otherwise (x+w and y+h not overflowing).",
  "every well-formed image, all u32 arguments whose sums fit in u32, both profiles",
  "boundary behaviour over all sizes; the tests assert nothing about the pixels",
  [f"{TR}: crop"])
p("C15","crop accepts every rectangle that lies inside the image",
  "For every rectangle with x+w <= img.width and y+h <= img.height crop returns Ok.",
  "every well-formed image and contained rectangle",
  "off-by-one at the right and bottom border only",
  [f"{TR}: crop"])
p("C16","crop never returns Ok on wrapped-around sums unless the result is empty",
  "If x+w or y+h exceeds u32::MAX, crop panics in a debug build, and in a release build it returns an error or panics, or returns an image with no pixels.",
  "all u32 arguments with an overflowing sum, both profiles",
  "needs dimensions near 2^32",
  [f"{TR}: crop"])
p("C17","Multithreaded and sequential builds compute the same image, whatever the schedule",
  "For crop, scale (all methods), scale_lanczos, filter_1d, unseparable_filter, separable_filter and bilateral_filter, the build with the rayon feature and the sequential build give the same result (same Ok image, same error, both panic) on every input, for every order in which the parallel tasks are executed.",
  "all inputs and all execution orders of the tasks",
  "schedules cannot be enumerated by tests",
  [f"{TR}: crop, scale, scale_lanczos, scale_* (both cfg variants)", f"{FI}: filter_1d, unseparable_filter", f"{BI}: bilateral_filter", f"{MA}: apply_1d_kernel, apply_2d_kernel"])
p("C18","overlay pastes the front image and leaves the rest alone",
  "overlay(back,front,x,y) (equal channel counts) has the info of back; at (i,j) inside the pasted rectangle (x<=i<x+front.width, y<=j<y+front.height, clipped to back) it holds front pixel (i-x,j-y), elsewhere the back pixel; different channel counts give an error value.",
  "all well-formed image pairs and positions with non-overflowing sums",
  "universally quantified over positions incl. clipping",
  [f"{TR}: overlay"])
p("C19","superimpose blends with weight alpha for every alpha in [0,1]",
  "For two images with equal channel counts and 0 <= alpha <= 1, superimpose returns Ok with alpha*back + (1-alpha)*front on the overlap and back elsewhere.",
  "all well-formed f32 image pairs, all positions, all alpha",
  "the only test is commented out",
  [f"{TR}: superimpose", f"{ER}: check_in_range"])
p("C20","translate shifts the image and fills with black",
  "translate(img,x,y) has the info of img; pixel (i,j) is img pixel (i-x,j-y) when i>=x and j>=y and zero otherwise; in particular offsets beyond the image give a black image.",
  "every well-formed image, all u32 offsets",
  "all sizes and offsets",
  [f"{TR}: translate"])
p("C21","reflect mirrors the image and is an involution",
  "reflect across the vertical (horizontal) axis gives pixel (width-1-x,y) ((x,height-1-y)) at (x,y); applying it twice gives back the image; the two reflections commute.",
  "every well-formed image",
  "all sizes",
  [f"{TR}: reflect"])
p("C22","scale by nearest neighbour never fails on valid input and only copies input pixels",
  "For finite positive factors scale(img,fx,fy,NearestNeighbor) returns Ok, with dimensions round(width*fx) x round(height*fy), every output pixel being an input pixel; with factors 1 it is the identity.",
  "every well-formed image (dimensions below 2^24) and every factor",
  "depends on rounding of every width/factor combination",
  [f"{TR}: scale, scale_nearest_neighbor, interpolate_nearest_neighbor"])
p("C23","bilinear scaling interpolates towards the nearer neighbour",
  "In scale(...,Bilinear) the weight of the left (upper) neighbour decreases with the distance of the sampling point from it: at fraction t the result of a two-pixel row (a,b) is (1-t)*a + t*b; with factors 1 the result equals the input.",
  "every image and factor",
  "tests only look at pictures",
  [f"{TR}: interpolate_bilinear"])
p("C24","rotate by 0 degrees is the identity; rotate returns an image for every input",
  "rotate(img,0.0) returns the image itself.",
  "every well-formed f32 image",
  "tests only look at pictures",
  [f"{TR}: rotate"])
p("C25","shear never fails on finite small factors and shear by 0 is the identity",
  "shear(img,0,0) returns the image itself, and shear(img,sx,sy) returns Ok (does not panic) for every finite sx, sy of modest size.",
  "every well-formed image, every pair of finite f32 factors",
  "float rounding near integers decides whether the last column still fits",
  [f"{TR}: shear"])
# ---------------------------------------------------------------- util
p("C26","The summed-area table holds prefix sums",
  "generate_summed_area_table gives at (x,y), per channel, the sum of all input samples (i,j) with i<=x, j<=y - exactly in f32 whenever the samples are integers and the total is small enough (2 * total <= 2^24), e.g. for converted u8 images of up to 32896 pixels.",
  "every image of every size within the exactness bound",
  "f32 exactness over all contents and sizes",
  [f"{UT}: generate_summed_area_table"])
p("C27","rectangular_intensity_sum is the sum over the closed rectangle",
  "On the summed-area table of an image, rectangular_intensity_sum(x0,y0,x1,y1) with x0<=x1<width and y0<=y1<height is, per channel, the sum of the samples with x0<=x<=x1, y0<=y<=y1 (same exactness bound).",
  "every image and rectangle",
  "all rectangles of all images",
  [f"{UT}: rectangular_intensity_sum"])
p("C28","vector_mul is matrix-vector multiplication and rejects wrong dimensions",
  "vector_mul and vector_mul_mut return, for a matrix with len = n*n and a vector of length n>0, the vector with entry i = sum_j mat[n*i+j]*input[j]; they agree with each other; a matrix whose length divided by n is not n gives an error; an empty vector panics.",
  "every size, every numeric content",
  "all dimensions",
  [f"{MA}: vector_mul, vector_mul_mut"])
p("C29","max_3/max_4/min_3/min_4 return the extremum of their arguments",
  "For non-NaN arguments the result is one of the arguments and bounds all of them.",
  "all non-NaN f32 tuples",
  "2^128 tuples",
  [f"{MA}: max_3, max_4, min_3, min_4"])
p("C30","Kernel generators: size check, shape, symmetry",
  "generate_gaussian_kernel and generate_log_kernel return an error for even size and otherwise a vector of size*size values, symmetric under transposition and point reflection, entry (i,j) depending only on the squared distance from the centre.",
  "every odd size (size*size and its offsets fitting in 32 bits), every sigma, every libm power function",
  "all sizes and parameters",
  [f"{UT}: generate_gaussian_kernel, generate_log_kernel"])
p("C31","generate_spatial_mat is the Gaussian of the distance to the centre",
  "generate_spatial_mat(size, s) returns size*size entries, entry (y,x) being the Gaussian of the distance from (x,y) to the centre.",
  "every size and every sigma",
  "the eight-fold symmetric fill and its index arithmetic must be right for every size",
  [f"{UT}: generate_spatial_mat", f"{MA}: distance, gaussian_fn"])
p("C32","Lookup tables are total tabulations",
  "generate_lookup_table(table,f) leaves table[i]=f(i) for all 256 indices.",
  "every function f and every initial table",
  "universally quantified over f",
  [f"{UT}: generate_lookup_table"])
p("C33","Histogram percentiles are cumulative relative frequencies",
  "generate_histogram_percentiles maps every occurring key to (number of pixels with a key <= it)/(number of pixels); the largest percentile is 1, and every pixel's key has an entry.",
  "every image and precision",
  "all images; the test suite only runs it for its picture",
  [f"{UT}: generate_histogram_percentiles", f"{TO}: histogram_equalization"])
# ---------------------------------------------------------------- morphology
p("C34","erode computes morphological erosion",
  "For a binary one-channel image (and radius <= width,height, within the f32 exactness bound) erode sets a pixel to 255 exactly when the whole (2r+1)^2 window around it lies inside the image and is white, else 0 (the outside counts as black).",
  "every binary image, radius and position",
  "all images; the tests only look at pictures",
  [f"{MO}: erode"])
p("C35","dilate computes morphological dilation",
  "For a binary one-channel image dilate sets a pixel to 255 exactly when some white pixel lies within Chebyshev distance r of it, else 0.",
  "every binary image, radius and position",
  "the truncated windows at the borders must be right too",
  [f"{MO}: dilate"])
p("C36","majority takes the majority value of the window",
  "majority sets a pixel to 255 exactly when more than half of the window pixels are white.",
  "every binary image, radius and position",
  "tests only look at pictures",
  [f"{MO}: majority"])
p("C37","open, close and gradient are the compositions / differences of erosion and dilation",
  "open(img,r) = dilate(erode(img,r),r), close(img,r) = erode(dilate(img,r),r), gradient(img,r) is white exactly where dilate and erode differ; errors and panics propagate.",
  "every image and radius",
  "all inputs",
  [f"{MO}: open, close, gradient"])
p("C38","Morphology rejects unsuitable images instead of crashing",
  "erode, dilate, majority, gradient return an error for non-grayscale images; they do not panic on grayscale images (with or without alpha), whatever the radius.",
  "every image and radius, both profiles",
  "needs gray+alpha images and radii beyond the image size",
  [f"{MO}: erode, dilate, majority, gradient", f"{ER}: check_grayscale"])
# ---------------------------------------------------------------- tone / colour
p("C39","brightness adds the bias with saturation and keeps alpha (scalar path)",
  "brightness(img,b) with |b|<=255 gives clamp(c+b,0,255) for every colour sample and leaves the alpha sample and the info unchanged; |b|>255 gives an error (for i16::MIN: error in release, panic in debug).",
  "every u8 image, every i16 bias, both profiles",
  "all images and biases",
  [f"{TO}: brightness, brightness_rgb_norm", f"{UT}: generate_lookup_table"])
p("C40","SIMD brightness equals the scalar brightness",
  "On AVX2 hardware with the default simd feature brightness returns the same image as the scalar path.",
  "every u8 image and bias",
  "tests compare no pixels; differs only in the tail of the buffer / for 2-channel images",
  [f"{SI}: adds_256_u8", f"{TO}: brightness"])
p("C41","saturation stays inside its buffers and adds to S only",
  "saturation(img,s) reads and writes only inside the image buffers and the SIMD path computes the same as the scalar path.",
  "every RGB(A) u8 image, every s in [-255,255]",
  "an out-of-bounds store past the end of a heap buffer does not show in a test",
  [f"{SI}: adds_n_256_u8", f"{TO}: saturation, saturation_norm"])
p("C42","contrast never brightens, keeps order, keeps alpha",
  "contrast(img,g) with 0<=g<=1 maps every colour sample c to a value <= c, monotonically in c, and leaves alpha; it rejects g<0 and g>1 with an error.",
  "every u8 image, every f32 gain (2^32 bit patterns)",
  "all gains",
  [f"{TO}: contrast"])
p("C43","gamma keeps the shape and alpha; negative gamma is rejected",
  "gamma(img,g,max) with g not negative returns an image with the same info and alpha samples, every sample in [0,255], equal samples mapped to equal samples, for every libm power function; g<0 is an error.",
  "every u8 image, gamma, max, power function",
  "all parameters",
  [f"{TO}: gamma"])
p("C44","rgb_to_hsv stays in range and gets value and saturation right",
  "rgb_to_hsv of any RGB pixel gives V = max(R,G,B), S = 255*(max-min)/max (0 for black), H in [0,255] without any truncating cast, H=0 for grays; alpha is kept.",
  "all 2^24 RGB triples in images of every size",
  "no test asserts a value; intermediate values are signed",
  [f"{CO}: rgb_to_hsv"])
p("C45","hsv_to_rgb is total, in range, preserves V; HSV round trip is exact on grays and close elsewhere",
  "hsv_to_rgb of any HSV triple produces a triple whose maximum is V, without overflow; converting a gray image to HSV and back gives the same image; the round trip of any RGB pixel keeps its maximum channel value exactly and changes no channel by more than a fixed small bound.",
  "all 2^24 triples, both directions",
  "exhaustive over the colour cube",
  [f"{CO}: hsv_to_rgb, rgb_to_hsv"])
p("C46","rgb_to_grayscale averages the channels (scalar path)",
  "Scalar rgb_to_grayscale gives a one-channel (two with alpha) image whose sample is floor of the mean of the colour samples, between their minimum and maximum, alpha kept.",
  "every u8 image with 1 to 128 colour channels",
  "i16 accumulator must not overflow for the allowed channel counts",
  [f"{CO}: rgb_to_grayscale, rgb_to_grayscale_norm"])
p("C47","SIMD rgb_to_grayscale equals the scalar average",
  "On AVX2 hardware rgb_to_grayscale returns the same image as the scalar path, up to rounding of at most 1.",
  "every RGB / RGBA u8 image",
  "differs by weights and in the tail of the buffer",
  [f"{SI}: avg_256_u8, avg_alpha_256_u8, deinterleave_3_256_u8, deinterleave_4_256_u8, avg_checked_256_u8"])
p("C48","Colour conversions keep dimensions and carry alpha through",
  "linearize/unlinearize, sRGB<->XYZ, XYZ<->LAB, sRGB<->LAB and HSV f32 conversions return images with the same width, height and alpha flag; a u8 alpha sample survives sRGB -> LAB -> sRGB (and sRGB -> XYZ -> sRGB) unchanged, whatever the libm power function returns.",
  "every RGBA u8 image, every libm",
  "all images, all libms",
  [f"{CO}: linearize_srgb_f32, unlinearize_srgb_f32, srgb_lin_to_xyz_f32, xyz_to_srgb_lin_f32, xyz_to_lab_f32, lab_to_xyz_f32, srgb_to_lab_f32, lab_to_srgb_f32"])
# ---------------------------------------------------------------- convert / filter
p("C49","u8 -> scaled f32 -> u8 is lossless",
  "f32_to_u8_scale(u8_to_f32_scale(img,s),s) = img for every scale s from 1 to 2^32-1.",
  "every u8 image, every scale",
  "2^32 scales x 256 values of f32 rounding",
  [f"{CV}: f32_to_u8_scale, u8_to_f32_scale"])
p("C50","Linear filters are local convolutions with the documented kernel",
  "filter_1d and unseparable_filter keep info, and give at (x,y), channel by channel, the f32 sum (in kernel order) of kernel[i] times the i-th pixel of the neighbourhood; hence the result depends only on pixels within half the kernel size and on the same channel; an even-length or non-square kernel gives an error.",
  "every f32 image, every kernel",
  "all images and kernels",
  [f"{FI}: filter_1d, unseparable_filter, separable_filter", f"{MA}: apply_1d_kernel, apply_2d_kernel"])
p("C51","box_filter averages a size x size window",
  "box_filter(img,size) depends only on the size x size window around each pixel.",
  "every image and odd size",
  "tests only look at pictures",
  [f"{FI}: box_filter"])
p("C52","threshold implements the five documented rules",
  "threshold on a grayscale image applies to every non-alpha sample the documented rule of the chosen method, keeps alpha and info; non-grayscale images give an error.",
  "every grayscale f32 image (incl. NaN and infinities), threshold and max",
  "all float values",
  [f"{FI}: threshold", "src/enums.rs: Thresh"])
p("C53","residual is the sample-wise difference",
  "residual(a,b) with equal infos is the image of a-b; residual(a,a) is black; different infos give an error; for u8 a negative difference panics in debug and wraps in release.",
  "all image pairs",
  "all pairs",
  [f"{FI}: residual"])
p("C54","normalize_laplacian maps the extremes to 0 and 255",
  "normalize_laplacian of a grayscale image without NaN maps its minimum sample to 0, and its maximum to 255 when they differ, monotonically in between.",
  "every grayscale f32 image",
  "all float contents",
  [f"{ED}: normalize_laplacian", f"{CV}: scale_channels"])
p("C55","Edge operators accept every grayscale image",
  "derivative_mask, prewitt, sobel and sobel_weighted return Ok for every grayscale image (with or without alpha).",
  "every grayscale image",
  "needs a gray+alpha image",
  [f"{ED}: derivative_mask, prewitt, sobel, sobel_weighted"])
p("C56","The partial-histogram bookkeeping counts the window exactly",
  "At every row the partial histograms of median_filter represent, for every column of the block, value and channel, the number of pixels with that value in the (2r+1)^2 window (coordinates clamped to the image).",
  "every u8 image, radius, block width, row",
  "an invariant over every prefix of the sliding-window run",
  [f"{ME}: PartialHistograms::update, get_count, process_cols_med, init_cols_med"])
p("C57","median_filter outputs the window median",
  "Every output sample of median_filter is the median of the (2r+1)^2 window around it (coordinates clamped to the image).",
  "every u8 image and radius",
  "wrong only for particular count patterns and in the last column",
  [f"{ME}: median_filter, process_row_med"])
p("C58","alpha_trimmed_mean_filter validates alpha and averages the trimmed window",
  "alpha_trimmed_mean_filter rejects odd alpha and alpha >= (2r+1)^2 with an error; otherwise it returns the rounded mean of the window without its alpha/2 lowest and highest values.",
  "every u8 image, radius, alpha",
  "all images",
  [f"{ME}: alpha_trimmed_mean_filter, MeanHist, init_cols_mean, process_cols_mean"])
p("C59","bilateral_filter returns an image for every non-negative range and spatial",
  "bilateral_filter(img, range, spatial, Direct) returns Ok for all finite non-negative range and spatial; negative values give an error.",
  "every RGB u8 image, every pair of parameters",
  "the window size is computed from the float parameter; only some parities work",
  [f"{BI}: bilateral_filter, bilateral_direct_pixel", f"{UT}: generate_spatial_mat"])
p("C60","write accepts exactly the supported layouts and read . write is lossless",
  "io::write hands the unmodified samples to the encoder exactly for Gray, GrayAlpha, RGB, RGBA images with a sufficient buffer and otherwise returns an error; reading back through a lossless codec yields an equal image.",
  "every u8 image, every lossless codec",
  "the codec and file system are external; the channel/alpha dispatch is all-quantified",
  [f"{IO}: from_color_type, read, write"])
p("C61","Argument checks accept exactly the documented ranges",
  "check_odd/check_even/check_non_neg/check_in_range/check_grayscale/check_square accept exactly the odd / even / non-negative / in-range / grayscale / square arguments. (Range checks let NaN through; squareness is decided in f32.)",
  "all argument values incl. NaN",
  "all float bit patterns",
  [f"{ER}: check_odd, check_even, check_non_neg, check_in_range, check_square, check_grayscale, check_equal"])
p("C62","adds_n_256_u8 adds to all channels when n is not a channel",
  "adds_n_256_u8(img,val,n) with n not a valid channel number adds val with saturation to all channels (documented).",
  "every image, val, n",
  "a dedicated mask branch",
  [f"{SI}: adds_n_256_u8"])
exec(open(os.path.join(os.path.dirname(__file__),"properties_extra.py")).read()) if os.path.exists(os.path.join(os.path.dirname(__file__),"properties_extra.py")) else None
def R(id, title, statement):
    q=[q for q in P if q["id"]==id][0]; q["title"]=title; q["statement"]=statement
exec(open(os.path.join(os.path.dirname(__file__),"properties_rev.py")).read())
out=os.path.join(os.path.dirname(__file__),"..","properties.jsonl")
ids=[q["id"] for q in P]; assert len(set(ids))==len(ids)
with open(out,"w") as f:
    for q in P: f.write(json.dumps(q)+"\n")
print(len(P))
