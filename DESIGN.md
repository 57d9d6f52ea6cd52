# Formal model of imgproc-rs in Coq 8.16 (Rocq) — design

The plan per property was committed before the proofs; it is kept current as the work grows.
Property texts are in properties.jsonl, theorem names in MANIFEST.json.

## Layout

    rocq/theories/Model/*.v    the model: total, computable Gallina functions, one file per source file
    rocq/theories/Spec/*.v     small independent vocabulary in which the theorems are stated
    rocq/theories/Proofs/*.v   lemmas
    rocq/theories/Props/*.v    only property theorems, `Example`s of their hypotheses, Print Assumptions
    properties.jsonl, MANIFEST.json, seeded/LOG.jsonl, tools/

## Modelling conventions

* A Rust call is a value of `outcome A := Ret a | Fail e | Panic | UB`: normal return, an
  `Err(..)` of a `Result`, a panic, and undefined behaviour (out-of-bounds access through a
  raw pointer in the `unsafe` SIMD code).  `?` is the monadic bind, `.unwrap()` turns `Fail`
  into `Panic`.
* Integers are `Z` inside the range of their Rust type. Every `+ - *` on a machine integer is
  written with a checked operation taking the build profile `p : profile := Debug | Release`:
  overflow panics in `Debug` and wraps modulo 2^n in `Release`.  Theorems quantify over `p`.
  `usize` has 64 bits.
* `f32`/`f64` are Flocq's IEEE-754 `binary_float 24 128` / `53 1024` with a single NaN,
  round-to-nearest-even; `round/floor/ceil/trunc/sqrt/as` are the exact IEEE/Rust operations
  (saturating float->int casts).  libm functions (`powf`, `sin`, `cos`) are fields of a record
  `libm` over which every theorem quantifies; the SVD of `rulinalg` likewise.
* `Vec<T>`/`&[T]` are lists; indexing and slicing return `Panic` out of range.
  `&mut` functions return the new value.  Loops are monadic folds over explicit ranges.
* `rayon` `into_par_iter().map(f).collect()` is modelled as running the tasks in an arbitrary
  order given by a schedule (a permutation) and storing each result in its own slot.
* An image is well formed (`wf`) when its fields are in their type's range, the buffer holds
  width*height*channels samples and that product fits in u32.  (The constructors do not check
  it; the theorems state it as hypothesis, and it is shown to be preserved.)

## Reading a theorem

Every statement in Props/*.v uses (a) the model function under its Rust name, (b) the outcome
constructors, and (c) vocabulary from Spec/*.v or a few `Definition`s just above it (for example
`pixel_at img x y` = the samples of pixel (x, y), `shows`, `recolored`, `repixeled`, `correlates`,
`window_median`).  Nothing from Proofs/*.v occurs in a statement, except the real-number reading of a
float (`fin x r`: x is finite and its real value is r; `isZ x z`: r = z).  Beside each group there
is an `Example` with a concrete, non-trivial image meeting the hypotheses.

When the documentation (or the obvious expectation) is false of the code, the property says
"Documented/Expected: ... Actual: ...".  The theorems then prove the actual behaviour for all
inputs, and a theorem ending in `_refuted` proves that the expectation does not hold.

## Plan and technique per property

| property | model | how it is proved |
|---|---|---|
| C01-C04, C07-C09 | Model/Image.v | list lemmas; a put/get algebra for the row-major buffer (Proofs/ImageL, ImageOps) |
| C05, C06 | Image.v (iterator state machine) | induction over the calls of next(); size_hint refuted |
| C10 | Image.v | refinement: induction over the list of operations against a function (x,y,c) -> sample |
| C11, C12 | Image.v | exact index arithmetic; documented padding / order refuted |
| C13 | Convert.v, Float.v | Flocq: integers up to 2^24 / 2^53 are exact; saturating casts |
| C14-C16, C18-C21 | Transform.v, Par.v | one lemma on "for y, for x, set_pixel(x,y,g x y)" loops, with panics |
| C17 | Par.v | slot writes commute: every schedule that is a permutation gives the sequential result |
| C22-C25 | Transform.v | f32 index computations by Flocq error analysis; refutations by evaluated runs and families |
| C26, C27 | Util.v | inductive prefix sums; exactness of small integers in f32 |
| C28-C33 | MathM.v, Util.v | direct; C31 invariant over the eight-fold symmetric filling; C33 invariant over the B-tree |
| C34-C38 | Morph.v | from C26/C27, plus the window arithmetic at the border |
| C39-C41, C47, C62 | Simd.v, Tone.v, Colorspace.v | 32-byte registers; loop invariants over chunks; `UB` = out-of-bounds load/store |
| C42, C43, C49 | Tone.v, Convert.v | pixel-map lemma + Flocq relative error |
| C44, C45 | Colorspace.v | integer arithmetic lemmas |
| C46, C48, C63 | Colorspace.v, Tone.v | composition of pixel maps |
| C50-C55 | Filter.v | taps lemma + scan lemma; dyadic exactness (DyadL) for integer images |
| C56, C57 | Median.v | invariant over rows of the sliding window of partial histograms; postcondition of the pivot search |
| C58 | Trimmed.v | the same bookkeeping; first row, constant images, every later row by refinement of a one-window machine in both directions (TrimmedRowsS, TrimmedL6 to TrimmedL8), refutations by evaluation |
| C59 | Bilateral.v | C31 + scan lemma + colour-conversion composition; degenerate parameters by case analysis on floats |
| C60 | Io.v | case analysis; codec and file system are an oracle |
| C61 | Image.v (checks), Float.v | case analysis, Flocq for squareness |
| C64 | Colorspace.v, ConvS | f32 error analysis (ApproxL: `approx X x e`), truncation at the end |
| C65 | Image.v | case analysis on lists |
| C66, C67 | Transform.v, ResampleS, BsplineS | loop unfolding to a window sum; error analysis against the real B-spline |
| C68 | Colorspace.v, PowS | relative errors of real powers (PowL), forward error analysis of decode, matrix, CIELAB curve and back (SrgbL, SrgbL2), exact evaluation of two rounded powers (SrgbL3) |
| C69 | Morph.v | order theory on top of C34/C35: windows that are entirely white keep distance r from the border, where the truncated windows are the full ones |
| C70 | Tone.v, PowS | recolouring composed; relative errors (frel) for the gamma curve |
| C71 | Transform.v | extensionality of images over C14, C18, C20, C21 |
| C72 | Filter.v, Spec/RealFilterS.v | induction over the taps with an absolute error budget; weights within one rounding of the real weights; grid sums |
| C73 | MathM.v, Util.v, Spec/GaussS.v | relative error analysis (GaussL) with numeric bounds of pi and e from alternating series (ExpPiL); monotone rounding for sums of negative products |
| C74 | Transform.v, Spec/RotateS.v | RotL/RotL2: every coordinate is a monotone f32 function of the offsets, so corners bound it; exactness of x-1 near the upper bound keeps the truncated position inside; error analysis for the position; WriteL for the last write |
| C75 | Transform.v, Spec/BilinearS.v | the last source position is at most w - 3/(8a), and relative rounding errors are smaller; ApproxL for the mix |
| C76 | Transform.v | the quotient (x+1)/a is at most w exactly when x+1 <= w*a; rounding is monotone and w is representable |
| C77 | Transform.v, Spec/ShearS.v | ApproxL for the positions along each axis; last write wins (WriteL); for the panic: the predecessor of M >= 2^j is at most M - 2^(j-24) |
| C78 | Filter.v, Transform.v (reflect); gradient of EdgeP | from the exact integer gradient of C55: laws of the padded coordinates, squares of equal or opposite integers are the same f32 |
| C79 | Transform.v (interpolate_lanczos, scale, scale_lanczos); sine is an oracle | error analysis of the f32 kernel against the real one (sin u/u is 1-Lipschitz and insensitive to relative perturbations), sums as in C67; sinc vanishes at the integers |
| C80 | Filter.v (bilateral_filter); powf is an oracle with a stated accuracy | C59 reduces the call to f32 weighted means in CIELAB; relative error analysis of the weights (WmeanL, BilatL) against Spec/BilatRealS; underflow to 0/0 for isolated pixels |
| C81 | Tone.v / Util.v (colour conversions); powf is an oracle with a stated accuracy | C48 reduces the call to f32 formulas per pixel; Lipschitz bound of the CIELAB curve, error analysis against Spec/LabS; root bounds for the refutations |
| C82 | Filter.v (threshold, residual) | threshold is a map over the colour samples; case analysis on f32 comparisons (ordered by ext, NaN apart); image extensionality |
| C83 | Colorspace.v, Tone.v; powf is an oracle with a stated accuracy | C48/C63 reduce the calls to f32 formulas per pixel; Lipschitz bound of the inverse curve, backward error against Spec/LabInvS; mean value theorem for the transfer curve; root bounds for the refutation |
| C84 | Tone.v, Util.v, Colorspace.v; powf is an oracle with a stated accuracy | C63/C33 give the exact f32 result; error bounds for lightness, bin numbers, shares and blend, then C83's backward error; counting lemmas for order, doubling and the maximum; numeric bounds for flat images |
| C85 | Transform.v, Tone.v, Colorspace.v | one theorem: every operation that maps each pixel by the same function commutes with crop, reflect and overlay (from C14/C18/C21 and image extensionality); the operations are instances by C39, C41–C48, C63 |
| C86 | Morph.v, Transform.v | what each operator shows as a predicate of the white pixels (C34–C37, C69); the predicates are transported along involutions that keep distances and windows, along crops for deep pixels, and dualised by finite search in the window |
| C87 | Simd.v, Colorspace.v, Tone.v | positions and sizes of all raw accesses: loop lemmas (stops at the first bad access / runs to the end), case analysis over channel counts; C40/C41/C62 for brightness and saturation |
| C88 | Display.v | the digit loop of the standard library produces the numeral (induction); numerals are unique, and a newline ends each, so the text can be parsed back |
| C89 | Filter.v | exact integer correlation as a double sum over the window (C50_integers_exact), algebra of finite sums; locality as a relation between two images and their windows, closed under composition, one lemma per public filter |
| C90 | Colorspace.v, Tone.v | real-number wheel (WheelS): quotient by the spread rounded towards 0, three cases of the strongest channel; saturation per pixel from C41/C45 |
| C91 | Equal.v (derived PartialEq of Image) | induction over the buffers; IEEE comparison characterised by Flocq's Beqb; observable form through get_pixel/set_pixel (C02) |
| C92 | Transform.v, Filter.v, MathM.v, Median.v, Trimmed.v | two runs side by side (simulation relation `selection` kept by every loop, Proofs/ChannelL.v); Spec/ChannelS.v says what a selection of channels is |
| C93 | Median.v | from the exact recursion of C57: strictly increasing maps preserve the window counts, so both recursions have the same unique solution; refutations by evaluation |
| C94 | all of Model/ | a relation between the debug and the release outcome (panic, or equal; not UB), preserved by every construct of the language; one lemma per function, proved by following its text |
| C95 | tone.rs histogram_equalization | C63/C84 give the result as a function of the list of colours; the counts are invariant under permutation; reflection permutes the colours; the refutation from the real formulas of C84 |
| C96 | filter/median.rs | the recurrence of C57 for two images whose clamped samples agree, by induction on the row; for the refutation a 3-column image with period 3 in which every window has an exact tie |
| C97 | filter/bilateral.rs | the exact formula of C59 is a fold over the offsets of the window, and the colour conversions are pixelwise (C85) |
| C98 | transform.rs (scale) | the source column of whole-factor scaling is x / n (C22), so the laws follow from integer division: product of factors, mirroring, crop, translate, pixelwise operations (via `pixelwise` of C85), halving after doubling; refuted: 1/61 after 61 panics (the quotient rounds up), halving against mirroring |
| C99 | transform.rs (scale, scale_lanczos) | for factors 2^k the positions x / 2^k, their fractional parts and the taps are exact in f32 (DyadL), so the formulas of C22, C23 and C66 depend on x only through x / 2^k and x mod 2^k |
| C100 | median.rs (alpha_trimmed_mean_filter) | every row refines the one-window machine of Spec/TrimmedRowsS.v (TrimmedL6, TrimmedL7: relation between the difference histograms of all columns and the state of each window, step by step); two machines fed with the same rows agree |
| C101 | Props/PipeP.v | the images a program can hold: an inductive predicate with one constructor per public function (Spec/PipeS.v); by induction, with one partial-correctness lemma per function (Proofs/PipeL.v, PipeL2.v, PipeSimdL.v: loops keep the buffer's length and the samples' range); release build and unchecked constructors refuted by concrete runs |
| C102 | Props/ErrP.v, ErrP2.v | the outcome of a call is a value, a panic or an error; structural induction over every function of the model (Proofs/ErrL.v: which `Fail` can come out), plus the exact condition for the kernel filters (Proofs/ErrL2.v: neighbourhoods have the kernel's size) and, in ErrP2.v, for every other function with an argument check (the rest of the body returns no error); failing svd: a counterexample |

## Trusted base

1. Coq 8.16.1's kernel (including vm_compute, used for evaluated runs and finite tabulations).
2. Axioms.  `tools/assumptions.py` prints the assumptions of every theorem of MANIFEST.json into
   ASSUMPTIONS.md.  There are exactly two groups: theorems closed under the global context, and
   theorems (those touching floats through Flocq) depending on the standard library's
   `ClassicalDedekindReals.sig_forall_dec`, `ClassicalDedekindReals.sig_not_dec`,
   `Classical_Prop.classic` and `FunctionalExtensionality.functional_extensionality_dep`.
   No other axiom, no Admitted, no parameter.  (`vcheck` lists further names of sealed modules of
   Coq.Reals and Coq.ssr that are loaded with Flocq; Print Assumptions shows none of them is used
   as an axiom.)
3. The transcription of the Rust source into Gallina (each definition cites file and lines).
   It was done by reading: the sandbox cannot build the crate, so the model was not
   run against it.  seeded/LOG.jsonl records what happens to the theorems when it is edited wrongly.
4. Semantics assumed of what lies below the source:
   * Rust integer arithmetic: panics on overflow in debug, wraps in release; `as` casts truncate
     (int -> int) and saturate (float -> int); 64-bit `usize`; slices panic out of range.
   * f32/f64: IEEE-754 binary32/64, round to nearest even, one NaN (payloads are not modelled).
   * AVX2 intrinsics (Simd.v): their lane-wise definition from Intel's manual; a load or store
     outside the allocation is `UB`.
   * rayon: `into_par_iter().map().collect()` runs each task once, in any order, and a panic in a
     task is a panic of the call (Par.v).  Threads and the memory model are not modelled; the
     closures share only immutable data, which Rust's `Sync` bound guarantees.

## Oracles (universally quantified parameters, never axioms)

* `libm` = (powf, sin, cos) on f32: arbitrary functions.  Theorems needing facts about them (for
  example sin 0 = 0) have them as hypotheses, and an Example gives functions meeting them.
* `svd`: the singular value decomposition of rulinalg, an arbitrary function.
* `binary_search` on a slice with duplicates (median.rs): any function in the theorems of C58.
* `codec` (io): arbitrary decoder/encoder over an arbitrary file-system state.

## Modelled / not modelled

Modelled, function by function: image/mod.rs, image/pixel.rs (the trait `Number`/`Pixel` impls used),
image/pixel_iter.rs, image/sub_image.rs, image/from_impl.rs, convert.rs, colorspace.rs, transform.rs,
morphology.rs, tone.rs, simd.rs, util/mod.rs, util/math.rs, util/constants.rs, filter/mod.rs,
filter/edge.rs, filter/median.rs, filter/bilateral.rs, io/mod.rs (without the codecs), and the checks
of error/mod.rs.

Not modelled: error message texts, derived Debug texts, the codecs of the
crate `image`, allocation failure, stack overflow, running time, Iterator adaptor methods other than
next/size_hint, AVX2 detection (a boolean parameter).

Simplifications, each also noted at its definition: `Vec` capacity is ignored; a scratch vector that is
cleared before use is a local value; the type parameter of `Image<T>` is a Coq type with a record
`number T` of its operations; `HashMap`/`BTreeMap` are association lists.

## Size bounds

Theorems quantify over all images (`wf`: width, height any u32, channels any u8, buffer length =
width*height*channels <= u32::MAX).  Where a bound is stricter it is in the theorem (e.g. `small`: sides up
to 2^30 because the neighbourhood arithmetic is in i32; exactness bounds 2^24), and where the bound is
necessary a `_refuted`/`_needed` theorem shows what happens beyond it.

## Findings (places where the code differs from its documentation; all proved)

superimpose always errors (C19); crop rejects rectangles touching the right/bottom edge (C15) and
overflows in release (C16); get_subimage is transposed (C11); neighbourhoods are padded with the centre
(C12); size_hint off after the first item (C06); scale with nearest neighbours panics whenever the output size is rounded up (C22, C76);
bilinear weights swapped (C23, C75); rotate by 0 is not the identity (C24); shear panics for some
factors (C25, C77); rotations leave holes and NaN angles panic (C74); the SIMD path of brightness does not commute with crop (C85); histogram counters start at 2 (C33), so equalization aims above lightness 100 (C84); dilate/erode windows at the border (C35), so erosion and dilation are dual only away from it (C86);
majority is dilate (C36); morphology panics (C38); SIMD tails are zeroed (C40, C41, C47), SIMD
out-of-bounds accesses (C41, C47, C62; all of them: C87); adds_n with invalid n adds nothing (C62); contrast accepts
NaN (C42); box_filter uses size^2 weights (C51); normalize_laplacian overflows (C54); edge operators
panic on gray+alpha (C55); median_filter is not the median after ties and in the last column (C57), and commutes neither with negatives, mirror images nor posterizing (C93), and a pixel of the first row can show arbitrarily far below (C96);
alpha_trimmed_mean_filter (C58: it may even panic for accepted arguments, and nothing in a column ever forgets its first row: C100); bilateral_filter panics for even windows, ignores the centre pixel and
blackens for degenerate parameters (C59) and isolated pixels (C80); linear light uses exponent 2.2 and D50 is not adapted (C81), so brightness_lab tints grays (C83); positive saturation turns grays red and saturation 0 is not the identity (C90); Gaussian kernels are not normalised and the Laplacian-of-Gaussian kernel has a sign error, so its
output is never positive on non-negative images (C73); BGR files are read with red and blue swapped (C60).

## Conformance with the project's own tests

Props/RepoTestsP.v runs every assertion of the active tests in /repo/tests (image, math, pixel, util) on the
model, in both build profiles; all hold. They check the model against the code and are not proofs of
properties. The other test files only write pictures (and are commented out).

## Tests of the theorems against wrong programs

seeded/mutations.py lists edits of the model (one realistic bug each); seeded/mutate.py applies each to a
scratch copy, rebuilds, removes proofs that no longer go through together with everything
depending on them, and records in seeded/LOG.jsonl which property theorems broke.
