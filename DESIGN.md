# Formal model of image-rs/image in Rocq (Coq 8.16.1)

The code is read as text from /repo (pinned commit) and re-written, function by
function, as total computable Gallina functions.  Nothing of /repo is executed:
the tie between code and model is the file:line citation that precedes every
model definition.

## Conventions of the model

* Machine integers are `Z`.  Where the code can overflow, the model either
  returns the explicit value `Panic` (debug build / slice index out of range /
  `assert!`/`unwrap`) or wraps explicitly (`mod 2^32`, release build); the
  definition's comment says which.
* `Result`/`Option` stay data: `res A := Ok a | Err e | Panic`.  A Rust panic is
  the value `Panic`, so "does not panic" is a theorem, not an assumption.
* Mutable buffers are lists; a function that mutates through `&mut` returns the
  new list.  A loop is a fold/recursion over the range, or recursion on explicit
  fuel whose exhaustion is a separate error value excluded by the theorem.
* f32/f64 arithmetic is Flocq's `binary_float` (binary32 = 24/128, binary64 = 53/1024, one NaN) -
  computable, round-to-nearest-even.
* Input streams are byte lists (reader always delivers available bytes; I/O
  errors other than end-of-file are not modelled unless stated).
* Files: `Base.v` (shared definitions and list lemmas), `<X>.v` = model of one
  module, `<X>Proofs.v` = proofs, `<X>Props.v` = the property theorems only
  (closed by `exact`, with `Print Assumptions` and non-vacuity `Example`s).

## Plan per property

| id | title | model | method |
|---|---|---|---|
| C01 | Pixel store law of ImageBuffer | Buffer.v: flat sample list + (y*w+x)*c indexing, checked products | list lemmas on slices/updates |
| C02 | Checked pixel access | Buffer.v: get_pixel_checked with its actual guard | refutation witness + positive theorem for exact-length containers |
| C03 | Pixel iterators visit every pixel exactly once in row-major order | Buffer.v: chunk iterators as two-ended state machines | induction over operation lists |
| C04 | Construction from a function or a constant | Buffer.v: from_fn as nested push loop | row-major list characterisation |
| C05 | copy_from writes exactly the requested rectangle or fails without effect | GenImage.v: nested put loop with u32 check (wrap explicit) | loop invariant; refutation by vm_compute on the check |
| C06 | copy_within behaves as a simultaneous copy | GenImage.v: 4-way loop order; Buffer row memmove | overlap case analysis, invariant on processed set |
| C07 | Sub-image views are coordinate translations | GenImage.v: SubImage record over a parent buffer | translation lemmas |
| C08 | FlatSamples layout arithmetic | Flat.v: strides as usize (Z), checked arithmetic | monotonicity of index, min_length = index of last + 1 |
| C09 | Mutable flat views never alias | Flat.v: has_aliased_samples (sorted extents) | injectivity of mixed radix; refutation for zero stride |
| C10 | Affine operations move pixels as documented | Affine.v: nested put loops | generic lemma: loop of puts at injective coordinates |
| C11 | Affine operations form the dihedral group | Affine.v | corollary of C10 by image extensionality |
| C12 | In-place affine variants agree with the copying ones | Affine.v: swap loops | invariant over swapped prefix |
| C13 | EXIF orientation handling | Orient.v: byte parser with explicit EOF | case analysis; spec of the 8 EXIF maps; parser totality |
| C14 | Overlay bounds are safe and maximal | Overlay.v: clamps over i64/u32 in Z with explicit saturation | lia |
| C15 | overlay / replace / tile pixel semantics | Overlay.v: loops over bounds | loop lemma |
| C16 | crop clamps to the image | Overlay.v: crop_dimms | lia |
| C17 | Channel-wise colour operations | Color.v | arithmetic + refutation for wrap |
| C18 | Error-diffusion dithering | Dither.v: diffuse_err, do_dithering!, dither, BiLevel, index_colors; DitherSpec.v: the diffusion recursion | invariant over visits: unvisited pixels hold the partial sum of diffused errors, visited ones the mapped value; sortedness of row-major order gives the order of the error terms |
| C19 | Aspect-preserving resize dimensions | Resize.v: resize_dimensions on Flocq binary64; resize, thumbnail, resize_to_fill with the resampler as a parameter | monotonicity of rounding for the bounds, relative error 2^-53 for the aspect ratio, separate treatment of infinities and NaN for empty images |
| C20 | Thumbnail averages | Thumb.v: thumbnail, its window computation and the four samplers, u8/u16, on Flocq binary32 and u32 sums with overflow; ThumbSpec.v: what an output channel is | relative-error analysis of the window bounds and weights, fold invariant for the u32 sums, convexity for the range, pixel loop lemma |
| C21 | Sample depth conversion | Color.v: integer conversions; ColorF.v: f32 conversions on Flocq binary32 | lia for the integer formulas; Flocq rounding lemmas (RN monotone, relative error 2^-24) for f32 |
| C22 | Luma conversion | Color.v | linear arithmetic |
| C23 | Alpha blending identities | ColorF.v: Blend for Rgba/LumaA over u8/u16 on Flocq binary32 | early returns give the exact cases; relative error analysis of the 5 float steps (near k x) bounds the rest; counterexamples by vm_compute |
| C24 | Bit/palette expansion | Bits.v | induction over packed bytes |
| C25 | Buffer size arithmetic is exact or saturates | Bits.v: saturating products | nonlinear Z arithmetic |
| C26 | Format name tables are consistent | Formats.v: tables as strings | finite case analysis lifted to all strings by lower-casing lemma |
| C27 | Magic-byte detection | Formats.v: MAGIC_BYTES and matcher | pairwise incompatibility by computation lifted to all inputs |
| C28 | Allocation limits are a budget | Limits.v: state machine | induction over histories |
| C29 | Region decoding equals cropping the full decode | LoadRect.v: scanline reads and seeks on a byte list | equality with slice of the image bytes |
| C30 | ImageReadBuffer is a faithful byte stream | LoadRect.v: rb_read state machine | refinement to the concatenated stream |
| C31 | Frame delay approximation | Delay.v: Farey loop with explicit u32/u64 bounds | Farey neighbour invariant; refutation for overflow |
| C32 | Delay ordering | Delay.v | integer cross multiplication |
| C33 | GIF frame composition | Gif.v: frame list -> canvases | induction over frames |
| C34 | APNG frame composition | Png.v: decoder state vs. reference canvas | induction with invariant on `previous`; refutation |
| C35 | Farbfeld round trip | Farbfeld.v | byte-level round trip |
| C36 | BMP round trip | Bmp.v: encoder bytes, decoder for 24/32 bit and 8-bit palette | row induction |
| C37 | BMP bit-field expansion | BmpBits.v | finite sweep + shift lemmas |
| C38 | BMP RLE decoding is memory safe and total | Bmp.v (read_rle): row/x state machine with explicit index checks | invariant over instruction stream |
| C39 | TGA round trip | Tga.v | packet induction |
| C40 | TGA RLE packets are well formed | Tga.v | invariant of the RLE encoder state |
| C41 | PNM round trip | Pnm.v: header.rs, encoder.rs, autobreak.rs, decoder.rs; PnmSpec.v: header texts, rasters, lines | header text read back by the decoder; digit/white-space parser round trip; AutoBreak line invariant; bit packing per byte |
| C42 | PNM range check | Pnm.v | boolean characterisation + refutation |
| C43 | HDR run-length coding round trip | Hdr.v | run splitting invariant; refutation at 32768 |
| C44 | HDR scanline decoding is total | Hdr.v | invariant on position |
| C45 | ICO directory round trip and selection | Ico.v | byte layout induction, maximum lemma |
| C46 | DXT block decoding | Dxt.v | index arithmetic + bounds |
| C47 | JPEG entropy coding is decodable | Jpeg.v: the whole encoder (bit writer, Huffman coding, block scans, segments); JpegSpec.v: an independent reader of baseline JPEG files from T.81 | bit-stream refinement (reader inverts writer), prefix codes by computation, induction over blocks; DCT bounds through affine forms; f32 quantiser division by Flocq |
| C48 | JPEG encoder tables and headers | Jpeg.v (tables, segments, YCbCr conversion), Float.v | finite sweeps + chunk induction + Flocq rounding error |
| C49 | JPEG edge replication | Jpeg.v block copies, JpegSpec.v block_samples | index arithmetic, induction over blocks |
| C50 | 16-bit byte order in PNG | Png.v | list induction |
| C51 | DDS container | Dxt.v (dds_*) | reads at fixed offsets, exact characterisation of the accepted headers |
| C52 | BMP headers and uncompressed pixels | Bmp.v, BmpSpec.v | fields at fixed offsets; row and pixel induction against a positional specification |
| C53 | BMP indexed mode | Bmp.v | instance of the row meaning; refutations |
| C54 | Resampling resize | Sample.v: resize, vertical_sample, horizontal_sample, the five kernels on Flocq binary32, with the platform's sinf/expf as a parameter; SampleSpec.v: positions in real numbers and what is asked of expf | error analysis of centres and tap ranges; normalised weights sum to 1 up to (1+u)^n; dot products of non-negative weights stay between the extremes; rounding absorbs the error when the number of taps is small enough; pixel loop lemmas; for Triangle, comparison of computed and exact tent weights tap by tap; for CatmullRom (CubicSpec.v, CubicProofs*.v), a lower bound of the sum of the weights by counting the columns in the core and in the two negative lobes, and a forward error analysis of sums with both signs |
| C55 | PNM decoding | Pnm.v (decoder), PnmSpec.v, PnmScale.v (binary32 rescaling) | grammar induction for headers and words; Flocq error bound for the rescaling; post-condition logic for totality |
| C56 | Gaussian blur and unsharpen | Sample.v: blur and unsharpen on Flocq binary32, expf a parameter; BlurSpec.v: the bell curve, windows and means in real numbers | error of the exponential under a perturbed argument; the window from the rounded centre and support; lower bound of the sum of weights; the mean is invariant under the scale of the weights; NaN propagation for the bad sigmas |
| C57 | Point sampling | Interp.v: the four functions on Flocq binary32, debug and release arithmetic; InterpSpec.v: bilinear interpolation in real numbers | range tests as real comparisons; floor and round of a coordinate in range; error bound of the four-term sum; integer rounding absorbs the error |
| C58 | 3x3 filters | Filter3.v: filter3x3 on Flocq binary32, debug and release arithmetic; Filter3Spec.v: the 3x3 weighted sum in real numbers | signed error analysis of sums without underflow; the quotient also when it overflows; exactness of integer sums and of the rounded-down quotient; pixel loop lemmas |
| C59 | f32 colours in Radiance HDR pixels | Rgbe.v: to_hdr, to_rgbe8, hdr_encode on Flocq binary32, with log2, exp2 and powi(2.0, n) as parameters; RgbeSpec.v: what is assumed of them, and the value of an RGBE pixel as a real number | exactness of scaling by powers of two (also into the subnormals); bounds on 2^t near 1 turn the logarithm's error into a bound on the exponent; order of floats with infinities; composition with C43 for files; case analysis outside the range |
| C60 | AVIF pictures: YUV planes to RGBA | Yuv.v: yuv.rs whole (conversion of all layouts, coefficients computed in binary32) and decoder.rs read_image, process_16bit_picture, get_matrix, plane reshaping; dav1d's pictures are the input. YuvSpec.v: H.273 in real numbers | the 30 integer transforms are computed by the kernel and compared with the exact rational coefficients; error of the fixed-point sum; rows and planes as slices, leftovers of odd widths and heights by induction on pairs |
| C61 | fast_blur is a triple box blur | FastBlur.v: fast_blur.rs whole for u8/u16, with the f32 running sums, usize/isize casts and the loops as folds. FastBlurSpec.v: box blur with repeated borders over integers and reals | the running sums stay integers below 2^24 and are exact (invariant over the three nested loops); the quotient's floor is the integer quotient (C58's lemma); error analysis of boxes_for_gauss in reals; the extreme sigmas by a second instance of the same loop invariant |
| C62 | ImageReader: formats, guessing, limits, decode | Reader.v: the reader as a state machine over an in-memory stream, decode down to decoder_to_image; codecs are a parameter (dimensions, colour type, set_limits, read_image); the farbfeld codec of C35 is one instance | induction over the history; exact evaluation of decode for any decoder; the end-to-end theorem composes C27, C28, C25 and C35 |
| C63 | TIFF: colour types, CMYK conversion, limits, encoding | Tiff.v: tiff.rs with the tiff crate's answers as inputs; cmyk_to_rgb on Flocq's binary32; the decoder as an instance of C62's decoders | case analysis, f32 error analysis of the conversion, loop invariant for the CMYK writes; the refutation composes set_limits with C62's decode |
| C64 | Gradients are exact at the ends, monotone and on the line | Gradient.v: lerp with Flocq binary32 arithmetic and a checked cast, the pixel loops. | GradientProofs.v: rounding is monotone and fixes integers below 2^24, which gives the bounds, ends and monotonicity; error analysis for the accuracy; put_loop for the image. |
| C65 | OpenEXR: layer choice, window placement, lossless round trip | Exr.v: header selection, the pixel callback with i32 arithmetic in both build modes, the buffer check, the encoder's pixel functions. The exr crate's headers and delivered pixels are inputs. | ExrProps.v: induction over the delivered pixels with a per-sample invariant; the round trip composes pixel_at with the decode theorem. |
| C66 | DynamicImage: one image of ten sample types | Dyn.v: the ten-variant type over the shared image model, dynamic_map!, the conversions, pixel access and whole-image operations; f32 through Flocq's binary32 | DynSpec.v gives one view (open, stored) of the ten variants; each operation is proved once on that view, reusing C10, C13, C21-C24 and rounding-error lemmas for the float luma |
| C67 | Parallel pixel iterators and from_par_fn: every schedule | Par.v: producers as ranges of the shared container, split_at, the index-to-coordinate closure; threads as lists of tasks, a task as a sequence of operations on its pixel, a small-step interleaving semantics over shared memory. rayon is modelled by its contract (it splits producers at indices inside them and consumes each part in order); sequentially consistent memory | invariant over steps: the remaining tasks' pixels are disjoint and finishing them one by one gives the target image; a counting measure for progress |
| C68 | The adapters to the external codecs neither alter nor mistake what the codec says | Glue.v models the adapters with the external crates as universally quantified answers: PCX row and palette loops on the real buffer with slice and index panics, the orientation cache as a state machine over call histories, JPEG limits and zune options, WebP frame iterator, QOI/WebP/AVIF writers with the length assertion, cast_buffer and convert_into. | PCX by an invariant of the filling loop and, for failures, the first failing chunk; the cache by induction over histories against a two-state specification; WebP frames by induction over the calls of next; AVIF by reducing casts and chunking to the samples of each pixel. Findings: a PCX index outside the palette panics, as does original_color_type for other plane counts; the AVIF encoder's check for images without pixels is missing for grey and 16-bit colour types; speed and quality zero pass its clamp. |
| C69 | Saving to a file | Save.v: encoders are interaction trees over write_all/seek/stream_position/flush whose continuations see failures; BufWriter<File> with its 8 KiB buffer over a list of system-call outcomes (accepts n bytes, interrupted, refuses, dead); File::create truncates; Path::extension; the dispatch by format; the GIF entry points; DynamicImage's bytes | refinement of the buffered file by an in-memory writer (induction on the encoder, invariant: file content with the held-back bytes at the position = memory content); prefix invariant for appending encoders; composition with C35 and C62 for the farbfeld round trip through the file system |
| C70 | A decoder in a box answers as the decoder | Boxed.v: a decoder is a record of methods over a state; the provided methods; the impl for boxes (which defines no orientation); TIFF's overrides over the external decoder's answers; the JPEG/WebP cache of C68 composed with an arbitrary rest | induction over the call history and the number of boxes; an invariant for the cache; case analysis for the tag |
| C71 | GIF encoder across calls | GifEnc.v: the encoder's state (writer present, crate encoder present, speed, repetition) and a log of the crate's operations with their outcomes chosen by an arbitrary function; the quantiser is an arbitrary function of pixels, size, speed. GifEncSpec.v: what each call asks for. | An invariant on (state, log): fresh, lost, or running with a log of the stated shape; induction over the history. The fault-free theorem computes the whole log. |
| C72 | Hue rotation | Hue.v models both functions in f64 (Flocq), with cosine and sine of the angle as parameters; HueSpec.v states the matrix over the reals. | error bounds of each rounded operation, carried through the matrix, the product, the clamp and the cast; loops by the in-place map lemma; refutations computed |

## Trusted base

Coq 8.16.1 kernel, `vm_compute`; what `Print Assumptions` lists below each theorem (recorded
in the table at the end of this file as the development grows).

Axioms reported: the modules that use floating point (Float.v, FloatProofs.v and everything above them: Jpeg*,
and the other float users) rest on Flocq and therefore on the standard library's real numbers:
`ClassicalDedekindReals.sig_not_dec`, `ClassicalDedekindReals.sig_forall_dec`,
`FunctionalExtensionality.functional_extensionality_dep`, `Classical_Prop.classic`. All four belong to Coq's
standard library. All other theorems are closed under the global context. Floats are
Flocq's `binary_float` with round-to-nearest-even (what Rust specifies for f32/f64). The platform's mathematical functions (expf in C54/C56, log2f,
exp2f and powi in C59) are parameters; the theorems that use them state the accuracy they need as a hypothesis
(`exp_accurate`, `hdr_accurate`), and an example shows functions that meet it.

## Not modelled

* Codecs that are wrappers around other crates: the entropy decoders of png, gif (LZW), jpeg (zune-jpeg), webp, qoi,
  pcx, tiff, openexr, dav1d/mp4parse (AVIF) and ravif.  Their results are inputs of the models (C33, C34, C60, C63, C65, C68).
* Directories, permissions and concurrent access to files (save and friends are modelled over a map from paths to contents, with every schedule of write outcomes: C69; ImageReader::open from the extension and the content on); readers that fail in the middle of a stream.
* rayon beyond its contract (C67), huerotate of floating-point images (C72 covers 8 and 16 bits), the Lanczos3 filter (C54 covers the other four).
* I/O errors other than end of file; allocation failure; time and memory use beyond the limits of C28.
* Images with u32, i8..i64 or f64 samples; f32 samples except in C21, C59 and C66.
