{"id": "C01", "title": "Pixel store law of ImageBuffer", "statement": "An ImageBuffer accepts a raw container exactly when it holds at least width*height*channels samples (with no overflow in that product); afterwards get_pixel(x,y) returns the `channels` samples starting at (y*width+x)*channels, put_pixel(x,y,p) makes get_pixel(x,y) return p and leaves every other pixel, every sample past the image and the dimensions unchanged, and both panic exactly for out-of-range coordinates.", "quantifier": "all channel counts, dimensions, containers, coordinates and pixel values", "why_tests_cant": "dimension/coordinate space is unbounded; index arithmetic slips only show for particular width/channel combinations", "anchors": ["src/buffer.rs: ImageBuffer::from_raw, get_pixel, put_pixel, pixel_indices, image_buffer_len"]}
{"id": "C02", "title": "Checked pixel access", "statement": "get_pixel_checked(x,y) returns Some(pixel) exactly when x<width and y<height, and then the same pixel as get_pixel; it never panics. (The code only checks x<width and then relies on the container length, so this fails for buffers whose container is longer than the image.)", "quantifier": "all buffers (including over-long containers) and all coordinates", "why_tests_cant": "tests use exact-length containers, where the bug is invisible", "anchors": ["src/buffer.rs: ImageBuffer::get_pixel_checked, get_pixel_mut_checked"]}
{"id": "C03", "title": "Pixel iterators visit every pixel exactly once in row-major order", "statement": "pixels(), enumerate_pixels(), rows() and the generic GenericImageView::pixels() yield for a w*h image exactly w*h items; the i-th item is the pixel at (i mod w, i div w), equal to get_pixel at those coordinates, forward and backward iteration agree, and len() always equals the number of items still to come.", "quantifier": "all images, all interleavings of next / next_back", "why_tests_cant": "iterator state machines have unboundedly many interleavings", "anchors": ["src/buffer.rs: Pixels, EnumeratePixels, Rows", "src/image.rs: Pixels (GenericImageView iterator)"]}
{"id": "C04", "title": "Construction from a function or a constant", "statement": "ImageBuffer::from_fn(w,h,f) is the w*h image whose pixel at (x,y) is f(x,y), and calls f once per pixel in row-major order; from_pixel(w,h,p) is the constant image.", "quantifier": "all dimensions, functions and pixels", "why_tests_cant": "unbounded dimensions and arbitrary functions", "anchors": ["src/buffer.rs: ImageBuffer::from_fn, from_pixel, new"]}
{"id": "C05", "title": "copy_from writes exactly the requested rectangle or fails without effect", "statement": "GenericImage::copy_from(other,x,y) fails iff other does not fit at (x,y), and then leaves the destination untouched; otherwise exactly the pixels of the rectangle at (x,y) of other's size become other's pixels and nothing else changes. (The fit check adds in u32, so near u32::MAX it wraps.)", "quantifier": "all images and all u32 offsets", "why_tests_cant": "offsets near 2^32 and all size combinations cannot be enumerated", "anchors": ["src/image.rs: GenericImage::copy_from"]}
{"id": "C06", "title": "copy_within behaves as a simultaneous copy", "statement": "copy_within(source rect, x, y) returns false and changes nothing when the source or the target rectangle does not fit; otherwise every target pixel gets the value the corresponding source pixel had before the call, for every overlap, and all pixels outside the target are unchanged. The generic implementation and the specialised ImageBuffer one agree.", "quantifier": "all images, rectangles and targets, all overlap directions", "why_tests_cant": "overlap cases depend on relative position and size", "anchors": ["src/image.rs: GenericImage::copy_within", "src/buffer.rs: ImageBuffer::copy_within", "src/math/rect.rs"]}
{"id": "C07", "title": "Sub-image views are coordinate translations", "statement": "A view/sub_image at (x,y) of size (w,h) exposes exactly the pixels (x+i,y+j) of the parent, writes through it touch only the corresponding parent pixel, a view of a view is the view at the summed offset, to_image copies it, and construction panics exactly if the rectangle exceeds the parent (no wrap-around).", "quantifier": "all images, nested rectangles and u32 offsets", "why_tests_cant": "nesting depth and offsets unbounded; overflow corner cases", "anchors": ["src/image.rs: GenericImageView::view, GenericImage::sub_image, SubImage"]}
{"id": "C08", "title": "FlatSamples layout arithmetic", "statement": "For every sample layout: index(c,x,y) is defined exactly for coordinates inside the layout whose address does not overflow; min_length() is the least buffer length for which every coordinate's index is in range; fits(len) says exactly that; a buffer at least that long makes every view access in bounds; layouts built by row_major_packed / column_major_packed are densely packed and non aliased.", "quantifier": "all layouts (arbitrary strides including zero), all coordinates, all lengths", "why_tests_cant": "strides/lengths are arbitrary machine words; overflow", "anchors": ["src/flat.rs: SampleLayout::{index,in_bounds_index,min_length,fits,in_bounds,extents,increasing_stride_dims,row_major_packed,column_major_packed}"]}
{"id": "C09", "title": "Mutable flat views never alias", "statement": "as_view_mut (and View::try_upgrade) succeed only if distinct (channel,x,y) coordinates address distinct samples. (has_aliased_samples ignores dimensions with zero stride, so layouts such as with_monocolor are accepted.) Writing a pixel through such a view changes that pixel and no other.", "quantifier": "all layouts", "why_tests_cant": "needs injectivity over all coordinate pairs", "anchors": ["src/flat.rs: SampleLayout::has_aliased_samples, FlatSamples::as_view_mut"]}
{"id": "C10", "title": "Affine operations move pixels as documented", "statement": "rotate90/180/270 (clockwise), flip_horizontal and flip_vertical produce an image of the documented size whose pixel at each position is the source pixel at the documented position, never panic, and lose or duplicate no pixel.", "quantifier": "all images of all sizes, all pixel types", "why_tests_cant": "all sizes including 0 and non-square", "anchors": ["src/imageops/affine.rs: rotate90, rotate180, rotate270, flip_horizontal, flip_vertical and *_in variants"]}
{"id": "C11", "title": "Affine operations form the dihedral group", "statement": "rotate90 four times, rotate180 twice, each flip twice, and rotate90 followed by rotate270 are the identity; rotate180 = flip_horizontal after flip_vertical = rotate90 twice.", "quantifier": "all images", "why_tests_cant": "identities over all images", "anchors": ["src/imageops/affine.rs"]}
{"id": "C12", "title": "In-place affine variants agree with the copying ones", "statement": "rotate180_in_place, flip_horizontal_in_place and flip_vertical_in_place leave the image equal to the result of the corresponding copying operation.", "quantifier": "all images (odd and even sizes)", "why_tests_cant": "odd/even middle-line handling for all sizes", "anchors": ["src/imageops/affine.rs: rotate180_in_place, flip_horizontal_in_place, flip_vertical_in_place"]}
{"id": "C13", "title": "EXIF orientation handling", "statement": "Orientation::to_exif/from_exif are mutually inverse on 1..8 and from_exif rejects everything else; apply_orientation(o) performs exactly the transformation EXIF assigns to that tag value; from_exif_chunk never panics, and returns the orientation of the first well-formed orientation entry of the first IFD for both byte orders.", "quantifier": "all byte strings as EXIF chunk, all images, all orientations", "why_tests_cant": "arbitrary attacker-controlled chunk bytes", "anchors": ["src/metadata.rs: Orientation", "src/dynimage.rs: DynamicImage::apply_orientation"]}
{"id": "C14", "title": "Overlay bounds are safe and maximal", "statement": "overlay_bounds and overlay_bounds_ext return a region that lies within both images for every (also negative or huge) offset, and contain every coordinate pair where the two images overlap.", "quantifier": "all sizes (u32) and offsets (i64)", "why_tests_cant": "64-bit offset space", "anchors": ["src/imageops/mod.rs: overlay_bounds, overlay_bounds_ext"]}
{"id": "C15", "title": "overlay / replace / tile pixel semantics", "statement": "replace(bottom,top,x,y) writes top's pixel at every overlapping coordinate and leaves all others; overlay does the same with blending; neither panics for any i64 offset. tile(bottom,top) sets pixel (x,y) to the blend with top(x mod tw, y mod th).", "quantifier": "all images and offsets", "why_tests_cant": "offset space and sizes", "anchors": ["src/imageops/mod.rs: overlay, replace, tile"]}
{"id": "C16", "title": "crop clamps to the image", "statement": "crop/crop_imm return the sub-image given by intersecting the requested rectangle with the image (clamping, never panicking), for every u32 request.", "quantifier": "all images and u32 rectangles", "why_tests_cant": "u32 overflow corner cases", "anchors": ["src/imageops/mod.rs: crop, crop_imm, crop_dimms"]}
{"id": "C17", "title": "Channel-wise colour operations", "statement": "invert is an involution on every colour channel and keeps alpha; brighten(v) adds v with clamping to [0,max] on colour channels, keeps alpha, is monotone (fails in release mode for v near i32::MAX because the addition wraps).", "quantifier": "all pixels and all i32 amounts", "why_tests_cant": "2^32 amounts x pixel values", "anchors": ["src/color.rs: invert implementations", "src/imageops/colorops.rs: invert, brighten"]}
{"id": "C18", "title": "Error-diffusion dithering", "statement": "dither maps every pixel to one of the colour-map entries, uses in-bounds accesses only for images at least 2 wide, and visits pixels in row-major order with clamped diffusion; index_colors returns map indices of the original pixels.", "quantifier": "all grayscale images", "why_tests_cant": "sequential dependency over all pixels", "anchors": ["src/imageops/colorops.rs: dither, diffuse_err, index_colors, BiLevel"]}
{"id": "C19", "title": "Aspect-preserving resize dimensions", "statement": "resize_dimensions(w,h,nw,nh,fill) never returns a zero dimension, never exceeds the bounding box when fill is false and covers it when fill is true (up to u32 clamping).", "quantifier": "all u32 dimension quadruples", "why_tests_cant": "2^128 inputs; floating point rounding", "anchors": ["src/math/utils.rs: resize_dimensions"]}
{"id": "C20", "title": "Thumbnail averages", "statement": "thumbnail reads only in-bounds source pixels, uses each block's pixels once, and each output channel lies between the minimum and maximum of the averaged source channels.", "quantifier": "all image sizes and target sizes", "why_tests_cant": "float block bounds for every ratio", "anchors": ["src/imageops/sample.rs: thumbnail, thumbnail_sample_block"]}
{"id": "C21", "title": "Sample depth conversion", "statement": "u8->u16->u8 is the identity, u16->u8 rounds to nearest, 0 and max are preserved and conversion is monotone; u8->f32->u8 and u16->f32->u16 are identities; f32->u8/u16 clamps to [0,1].", "quantifier": "all samples (and all f32 for clamping)", "why_tests_cant": "needs all 65536 / all float values and monotonicity", "anchors": ["src/color.rs: FromPrimitive, IntoColor / FromColor"]}
{"id": "C22", "title": "Luma conversion", "statement": "rgb->luma stays in range, maps grey (v,v,v) to v, is monotone in each channel, and the coefficients sum to the divisor; alpha is preserved by La/Rgba conversions; L->Rgb->L is the identity.", "quantifier": "all pixels of each sample type", "why_tests_cant": "16.7M to 2^48 pixel values", "anchors": ["src/color.rs: rgb_to_luma, FromColor impls"]}
{"id": "C23", "title": "Alpha blending identities", "statement": "Blending a fully transparent pixel leaves the background unchanged; blending a fully opaque one replaces it; blending never panics and stays in range.", "quantifier": "all pixel pairs", "why_tests_cant": "2^64 pixel pairs", "anchors": ["src/color.rs: Blend for Rgba<T>, LumaA<T>"]}
{"id": "C24", "title": "Bit/palette expansion", "statement": "expand_bits(d,w,buf) yields for each row the first w d-bit fields scaled to 0..255 with 0->0 and max->255; expand_packed writes each packed sample in order and never reads out of bounds; palette expansion selects entries in order.", "quantifier": "all bit depths, widths and buffers", "why_tests_cant": "packed layouts depend on width mod 8", "anchors": ["src/utils/mod.rs: expand_bits, expand_packed"]}
{"id": "C25", "title": "Buffer size arithmetic is exact or saturates", "statement": "ExtendedColorType::buffer_size(w,h) equals ceil(w*bpp/8)*h or saturates at u64::MAX, check_dimension_overflow(w,h,bpp) is true exactly when w*h*bpp exceeds 2^64-1 and total_bytes saturates; no product silently wraps.", "quantifier": "all u32 dimensions and pixel sizes", "why_tests_cant": "2^64 dimension pairs", "anchors": ["src/color.rs: ExtendedColorType::buffer_size", "src/utils/mod.rs: check_dimension_overflow", "src/image.rs: ImageDecoder::total_bytes"]}
{"id": "C26", "title": "Format name tables are consistent", "statement": "Every extension listed for a format is recognised as that format irrespective of letter case, no extension belongs to two formats, every format appears in all(), MIME names map back to their format (except Farbfeld's generic type), and can_read/can_write agree with reading_enabled/writing_enabled upper bounds.", "quantifier": "all formats and all strings", "why_tests_cant": "all strings and case variants", "anchors": ["src/image.rs: ImageFormat::{from_extension,from_mime_type,to_mime_type,extensions_str,all,can_read,can_write}"]}
{"id": "C27", "title": "Magic-byte detection", "statement": "guess_format is determined by the first bytes only, needs at most 12 bytes, returns the unique table entry that matches (one ambiguous pair: an AVIF file whose ftyp box has size 256 is reported as ICO), and recognises the output of each of the crate's own encoders.", "quantifier": "all byte strings", "why_tests_cant": "all inputs", "anchors": ["src/image_reader/free_functions.rs: guess_format_impl, MAGIC_BYTES"]}
{"id": "C28", "title": "Allocation limits are a budget", "statement": "For every sequence of reserve/free operations the budget never goes negative, a failed reserve changes nothing, the total outstanding never exceeds the initial max_alloc, reserve followed by the matching free restores the budget; dimension limits are enforced exactly; no_limits never fails.", "quantifier": "all operation histories and amounts", "why_tests_cant": "all histories", "anchors": ["src/image_reader/mod.rs: Limits"]}
{"id": "C29", "title": "Region decoding equals cropping the full decode", "statement": "load_rect fills the output with exactly the requested rectangle of the full decoded image, for every scanline size and row pitch, and reports an error (not a panic) for rectangles outside the image.", "quantifier": "all images, rectangles, scanline sizes and pitches", "why_tests_cant": "seek/scanline arithmetic for all geometry", "anchors": ["src/image.rs: load_rect"]}
{"id": "C30", "title": "ImageReadBuffer is a faithful byte stream", "statement": "Reading a decoder through ImageReadBuffer with any sequence of buffer sizes returns exactly the concatenation of the scanlines, never more than total bytes, and nothing after the end.", "quantifier": "all read-size sequences and scanlines", "why_tests_cant": "all read-size histories", "anchors": ["src/image.rs: ImageReadBuffer::read"]}
{"id": "C31", "title": "Frame delay approximation", "statement": "Delay::from_saturating_duration yields a ratio with both parts in u32 that is the closest one to the exact delay among all fractions with bounded denominator, and is clamped for large durations (fails in the last half millisecond: the numerator addition overflows); converting back to Duration never panics and errs by less than one nanosecond of the ratio.", "quantifier": "all durations", "why_tests_cant": "continued-fraction search over 10^6 * 2^32 inputs", "anchors": ["src/animation.rs: Delay::from_saturating_duration, closest_bounded_fraction, From<Delay> for Duration"]}
{"id": "C32", "title": "Delay ordering", "statement": "Delay equality and ordering are those of the rational numbers: a total preorder compatible with cross multiplication, antisymmetric up to equality, with no overflow.", "quantifier": "all pairs and triples of delays", "why_tests_cant": "2^128 pairs", "anchors": ["src/animation.rs: Ratio::cmp, PartialEq"]}
{"id": "C33", "title": "GIF frame composition", "statement": "The frames yielded by a GIF decoder equal the reference composition: each frame's opaque pixels drawn at its offset onto the canvas left by the previous disposal; keep/background/previous disposal act only inside the frame rectangle; frames may exceed the screen.", "quantifier": "all frame sequences, offsets, sizes, disposal methods", "why_tests_cant": "all frame histories", "anchors": ["src/codecs/gif.rs: GifFrameIterator::next, GifDecoder::read_image"]}
{"id": "C34", "title": "APNG frame composition", "statement": "The frames yielded by the APNG decoder equal the reference APNG composition (dispose none/background/previous, blend source/over). (Disposal `previous` directly after a `background` frame restores the wrong content.)", "quantifier": "all frame sequences", "why_tests_cant": "all frame histories", "anchors": ["src/codecs/png.rs: ApngDecoder::mix_next_frame"]}
{"id": "C35", "title": "Farbfeld round trip", "statement": "Decoding what the farbfeld encoder wrote gives back the same dimensions and the same 16-bit RGBA samples; the decoder rejects wrong magic and truncated input with an error, never a panic.", "quantifier": "all images; all byte strings for robustness", "why_tests_cant": "all images / all inputs", "anchors": ["src/codecs/farbfeld.rs"]}
{"id": "C36", "title": "BMP round trip", "statement": "Encoding an Rgb8/Rgba8/L8/La8 image as BMP and decoding gives the same dimensions and pixels (grey expanded to RGB), for every width (row padding) with dimensions within the decoder's limits.", "quantifier": "all images within 1..65535", "why_tests_cant": "row padding depends on width mod 4", "anchors": ["src/codecs/bmp/encoder.rs", "src/codecs/bmp/decoder.rs"]}
{"id": "C37", "title": "BMP bit-field expansion", "statement": "For every channel mask of 1..8 bits the extracted channel is the value scaled to 0..255 with correct rounding; masks that are not contiguous are rejected; extraction never panics.", "quantifier": "all 32-bit masks and pixels", "why_tests_cant": "2^32 masks", "anchors": ["src/codecs/bmp/decoder.rs: Bitfield, Bitfields"]}
{"id": "C38", "title": "BMP RLE decoding is memory safe and total", "statement": "Decoding RLE4/RLE8 data never panics or writes out of bounds for any byte stream, terminates, and after success every pixel of the output was produced by the stream or zero filled.", "quantifier": "all byte streams, all sizes", "why_tests_cant": "attacker-controlled delta/EOL/absolute sequences", "anchors": ["src/codecs/bmp/decoder.rs: read_rle_data, set_pixel helpers"]}
{"id": "C39", "title": "TGA round trip", "statement": "Encoding an image as TGA (RLE or uncompressed) and decoding gives the same dimensions and pixels for L8, Rgb8, Rgba8 (La8 as documented).", "quantifier": "all non-empty images up to 65535", "why_tests_cant": "run boundaries at 128 etc.", "anchors": ["src/codecs/tga/encoder.rs", "src/codecs/tga/decoder.rs"]}
{"id": "C40", "title": "TGA RLE packets are well formed", "statement": "Every packet the encoder emits has 1..128 pixels, packets never contain more than the image, decoding stops exactly at the image size; the decoder never panics on arbitrary packet streams.", "quantifier": "all pixel sequences, all byte streams", "why_tests_cant": "all run structures", "anchors": ["src/codecs/tga/encoder.rs: run_length_encode", "src/codecs/tga/decoder.rs: read_all_encoded_data"]}
{"id": "C41", "title": "PNM round trip", "statement": "Encoding as binary or ASCII PBM/PGM/PPM/PAM and decoding yields the same image; ASCII output lines never exceed 70 columns and contain all samples in order.", "quantifier": "all images and encodings", "why_tests_cant": "widths mod 8 (bit packing), all sample values", "anchors": ["src/codecs/pnm/encoder.rs", "src/codecs/pnm/decoder.rs", "src/codecs/pnm/autobreak.rs"]}
{"id": "C42", "title": "PNM range check", "statement": "The PNM encoder accepts an image exactly when every sample is at most the header's maximum value. (FlatSamples::all_smaller is inverted in the code.)", "quantifier": "all sample buffers and maxima", "why_tests_cant": "all buffers", "anchors": ["src/codecs/pnm/encoder.rs: FlatSamples::all_smaller, check_sample_values"]}
{"id": "C43", "title": "HDR run-length coding round trip", "statement": "A scanline compressed by the HDR encoder decompresses to the same bytes for every byte sequence and width; the whole encoder/decoder pair round-trips RGBE pixels (fails at width 32768 and is restricted to non-marker pixels in flat mode).", "quantifier": "all scanlines, all widths", "why_tests_cant": "run/literal split boundaries 127/128", "anchors": ["src/codecs/hdr/encoder.rs: rle_compress, NorunCombineIterator, encode_pixels", "src/codecs/hdr/decoder.rs: read_scanline, decode_component, decode_old_rle"]}
{"id": "C44", "title": "HDR scanline decoding is total", "statement": "For every byte stream, decoding a scanline either errors or writes every pixel of the scanline, never writes past it, and always terminates.", "quantifier": "all byte streams and widths", "why_tests_cant": "arbitrary inputs", "anchors": ["src/codecs/hdr/decoder.rs"]}
{"id": "C45", "title": "ICO directory round trip and selection", "statement": "An ICO written by the encoder parses back to the same number of entries, each entry's offset and length delimit exactly the bytes of its image, sizes 1..256 are preserved; the decoder selects an entry of maximal (bit depth, area).", "quantifier": "all lists of images", "why_tests_cant": "offset accumulation for any number of images", "anchors": ["src/codecs/ico/encoder.rs", "src/codecs/ico/decoder.rs: read_entries, best_entry"]}
{"id": "C46", "title": "DXT block decoding", "statement": "For DXT1/3/5 data of any size multiple of 4, pixel (x,y) of the output is the palette colour selected by its 2-bit index in block (x/4,y/4), the alpha likewise; end-point colours expand 5/6-bit fields preserving 0 and max; interpolated values lie between end points; no panic.", "quantifier": "all block data and sizes", "why_tests_cant": "all block data and image sizes", "anchors": ["src/codecs/dxt.rs"]}
{"id": "C47", "title": "JPEG entropy coding is decodable", "statement": "The bits the JPEG encoder writes for any sequence of quantised blocks are decoded by the ITU T.81 baseline procedure with the emitted Huffman tables back to the same coefficients; inside the entropy-coded segment every 0xFF byte is followed by 0x00.", "quantifier": "all blocks within the coefficient range, all sequences", "why_tests_cant": "bit-level alignment histories", "anchors": ["src/codecs/jpeg/encoder.rs: BitWriter, write_block, encode_coefficient", "src/codecs/jpeg/entropy.rs"]}
{"id": "C48", "title": "JPEG encoder tables and headers", "statement": "For every quality the quantisation tables are in 1..255 and anti-monotone in quality; the four Huffman tables are prefix-free and complete for all symbols used; ICC profiles are split into chunks that reassemble to the profile; segment lengths never overflow; rgb->YCbCr stays in range and greys have neutral chroma.", "quantifier": "all qualities, profiles, pixels", "why_tests_cant": "all profiles and pixels", "anchors": ["src/codecs/jpeg/encoder.rs"]}
{"id": "C49", "title": "JPEG edge replication", "statement": "The 8x8 blocks cover the image, every pixel of the image is used exactly once in its block position, and positions beyond the edge replicate the nearest edge pixel.", "quantifier": "all image sizes", "why_tests_cant": "width/height mod 8", "anchors": ["src/codecs/jpeg/encoder.rs: pixel_at_or_near, copy_blocks_gray"]}
{"id": "C50", "title": "16-bit byte order in PNG", "statement": "Converting 16-bit samples to big endian for the PNG stream and back on decode is the identity for every buffer.", "quantifier": "all buffers", "why_tests_cant": "all buffers", "anchors": ["src/codecs/png.rs: write_image, read_image"]}
{"id": "C51", "title": "DDS container", "statement": "A DDS file with DXT1/3/5 (or DX10 BC1-3) compression decodes to exactly the texels its header and block data describe; whatever decodes is such a file with all its block data; header flags, sizes and DX10 fields outside the accepted ranges are errors; no byte stream panics.", "quantifier": "all byte streams", "why_tests_cant": "every header field combination and truncation point", "anchors": ["src/codecs/dds.rs", "src/codecs/dxt.rs"]}
{"id": "C52", "title": "BMP headers and uncompressed pixels", "statement": "A BMP file that opens announces the width, height, orientation, colour type and palette its header bytes describe (core and info headers, file header optional, ICO variant), and decoding an uncompressed image of any supported depth (1, 4, 8, 16, 24, 32 bit, bit fields) succeeds exactly when all rows are present and delivers for every (x, y) the pixel stored at that place in the padded, possibly bottom-up rows.", "quantifier": "all byte streams", "why_tests_cant": "every combination of depth, width mod 4, orientation and header kind", "anchors": ["src/codecs/bmp/decoder.rs: read_metadata, read_palettized_pixel_data, read_16_bit_pixel_data, read_32_bit_pixel_data, read_full_byte_pixel_data"]}
{"id": "C53", "title": "BMP indexed mode", "statement": "After set_indexed_color(true) the decoder announces L8 and delivers, for a paletted image, the palette index of every pixel. (Holds for 8-bit palettes; for 4-bit the packed bytes are delivered, and for true-colour images decoding panics.)", "quantifier": "all byte streams that open", "why_tests_cant": "depth and width dependent", "anchors": ["src/codecs/bmp/decoder.rs: set_indexed_color, rows, read_palettized_pixel_data"]}
{"id": "C54", "title": "Resampling resize", "statement": "imageops::resize returns an image of exactly the requested size without panicking: blank for an empty source, an identical copy when the size does not change; with Nearest every output pixel is a copy of the source pixel under its centre; with Triangle and Gaussian every channel of an output pixel lies between the minimum and the maximum of that channel over the source pixels around its position, so constant images stay constant; with Triangle it is the tent-weighted mean of the source around that position, rounded, and with CatmullRom the mean with Catmull-Rom weights, cut to the sample range and rounded, up to a bounded f32 error.", "quantifier": "all images with u8 or u16 samples and 1-4 channels, all source and target sizes", "why_tests_cant": "float positions and weights for every pair of sizes; sums of up to thousands of rounded products", "anchors": ["src/imageops/sample.rs: resize, vertical_sample, horizontal_sample, triangle_kernel, catmullrom_kernel, bc_cubic_spline, gaussian, box_kernel, FloatNearest"]}
{"id": "C55", "title": "PNM decoding", "statement": "A P1-P7 file with a well-formed header (white space and comments anywhere between the numbers, P7 lines in any order) decodes to the samples of its raster, rescaled to the full 8- or 16-bit range to the nearest value and monotonically; bitmaps decode bit by bit with 1 = black; opening never panics on any bytes and decoding never panics when the announced size is below 2^32. (Larger announced sizes panic; truncated ASCII rasters are silently zero-filled.)", "quantifier": "all byte streams, all header layouts, all sample values and maxima", "why_tests_cant": "all texts and rasters", "anchors": ["src/codecs/pnm/decoder.rs", "src/codecs/pnm/header.rs"]}
{"id": "C56", "title": "Gaussian blur and unsharpen", "statement": "blur returns an image of the same size without panicking; every channel is the mean of the source pixels within two standard deviations, weighted by the Gaussian of sigma in both directions, up to rounding and a bounded f32 error; it stays within the range of those pixels, keeps constant channels, and changes nothing for sigma below 1/8; a sigma that is not positive acts as 1. unsharpen replaces c by 2c-d (limited to the sample range) where the blurred value d differs from c by more than the threshold, and keeps c elsewhere. (Refuted: blur panics for sigma NaN, infinite or at most 2^-76.)", "quantifier": "all images with u8 or u16 samples and 1-4 channels with sides up to 524288, all sigma from 2^-20 to 2^20 or not positive, all thresholds, all expf that are accurate to 2^-20", "why_tests_cant": "all sigma and sizes: window rounding, cancellation, normalisation by a rounded sum", "anchors": ["src/imageops/sample.rs: blur, unsharpen, gaussian, vertical_sample, horizontal_sample", "src/dynimage.rs: blur, unsharpen"]}
{"id": "C57", "title": "Point sampling", "statement": "interpolate_nearest and interpolate_bilinear return None exactly for points off the image (including NaN and infinities); on the image nearest returns the pixel whose centre is nearest and bilinear the rounded bilinear interpolation of the four surrounding pixels, never outside their range and exact at pixel centres; sample_nearest and sample_bilinear do the same for coordinates in [0,1], with 0 and 1 exactly the first and the last column; none of them panics. (Holds for sides up to 2^24; at width 16777220 the coordinate 1 panics.)", "quantifier": "all images with u8 or u16 samples and 1-4 channels with sides up to 2^24, all f32 coordinates including NaN and infinities", "why_tests_cant": "all floats and sizes; rounding of coordinates at every size", "anchors": ["src/imageops/sample.rs: sample_bilinear, sample_nearest, interpolate_nearest, interpolate_bilinear"]}
{"id": "C58", "title": "3x3 filters", "statement": "filter3x3 with nine finite entries returns an image of the same size without panicking: a blank rim, and inside the sum of the 3x3 neighbourhood weighted by the kernel (row by row), divided by the sum of the kernel (1 if that is 0), limited to the sample range and rounded down; exactly so for integer kernels, up to a bounded f32 error otherwise; a kernel without negative entries stays within the range of the nine pixels, at most one below. (Refuted: an averaging kernel of nine ninths does not keep a constant image; images without rows or columns panic; NaN panics.)", "quantifier": "all images with u8 or u16 samples and 1-4 channels and sides of at least 1, all kernels of finite entries up to 2^70", "why_tests_cant": "all kernels: rounding, cancellation and overflow of the quotient", "anchors": ["src/imageops/sample.rs: filter3x3", "src/dynimage.rs: filter3x3"]}
{"id": "C59", "title": "f32 colours in Radiance HDR pixels", "statement": "A pixel of a Radiance file decodes to component * 2^(e-136) exactly (black for e = 0). Encoding an Rgb<f32> pixel whose largest component lies between 2^-127 and almost 2^127 and decoding it returns every positive component reduced by at most 1/127 of the largest one and never increased, and 0 for zero, negative, -infinite and NaN components, without a panic, also through a whole file. Encoding a decoded pixel gives the same colour, and the same bytes if a component is at least 128. (Refuted outside that range: a largest component from about 2^127 up is stored as black; one in (0, 2^-130] is read back above 10^31; +infinity panics in debug builds and is read back as 255/256 in release builds.)", "quantifier": "all pixels of f32 components including negatives, NaN, infinities and subnormals; all RGBE pixels; all images of such pixels of widths 8..32767; every log2/exp2/powi of the stated accuracy", "why_tests_cant": "2^96 colours, rounding of log2 near powers of two, wrap-around of the exponent byte", "anchors": ["src/codecs/hdr/encoder.rs: to_rgbe8, HdrEncoder::encode, write_image", "src/codecs/hdr/decoder.rs: Rgbe8Pixel::to_hdr, HdrDecoder::read_image"]}
{"id": "C60", "title": "AVIF pictures: YUV planes to RGBA", "statement": "For every picture the AV1 decoder may hand over (4:0:0, 4:2:0, 4:2:2 or 4:4:4; 8, 10 or 12 bits; limited or full range; any size including odd ones; any row strides, memory alignment and byte order; with or without an alpha plane), AvifDecoder::read_image succeeds without arithmetic overflow and writes at every (x, y) the colour H.273 gives for the luma sample at (x, y) and the chroma sample shared by its column and row pair, limited to 0..2^d-1, to within 1/2 + 2^(d-10) of a d-bit step, with alpha from the alpha plane or the maximum; neutral chroma gives grey, full-range grey and full-range identity (GBR) pictures are copied exactly; 8-bit limited-range black and white come out as 0 and 255. Planes of the wrong length and unsupported matrices are refused. Refuted: 10/12-bit opaque pictures are not opaque (65472/65520 instead of 65535); 12-bit limited-range white is one step short; SMPTE 170M, SMPTE 240M and BT.470M pictures are decoded with other coefficients than H.273's.", "quantifier": "all pictures of any width and height, all strides, layouts, ranges, depths, matrices and sample values, both endiannesses and alignments", "why_tests_cant": "2^24 and more sample triples per matrix and depth, times unbounded sizes and strides; odd sizes, leftover rows and 12-bit extremes are where such loops go wrong", "anchors": ["src/codecs/avif/yuv.rs: yuv400_to_rgbx_impl, process_halved_chroma_row, yuv420_to_rgbx, yuv422_to_rgbx_impl, yuv444_to_rgbx_impl, gbr_to_rgbx_impl, get_inverse_transform, qrshr", "src/codecs/avif/decoder.rs: AvifDecoder::read_image, process_16bit_picture, get_matrix, reshape_plane"]}
{"id": "C61", "title": "fast_blur is a triple box blur", "statement": "For every u8 image and |sigma| <= 32768 (u16: <= 126), fast_blur returns, without a panic, an image of the same size whose every sample is exactly that of three box blurs along the rows and columns, each rounded down, with repeated borders; the widths are neighbouring odd numbers whose variances add up to sigma^2 within 0.18 (k+1). Hence values stay between the channel's minimum and maximum, flat areas keep their colour, order and brightness shifts carry over, the blur of a mirror image is the mirror image of the blur, the result is never brighter and less than 6 steps darker than without rounding, sigma up to 0.55 changes nothing, and the sign of sigma is irrelevant. (Refuted: a single 16-bit pixel 64001 becomes 64000 with sigma 200; an infinite or huge sigma gives a black image; NaN panics in debug builds and gives a black image in release builds.)", "quantifier": "all u8 and u16 images of any size and number of channels, all f32 sigma incl. NaN and infinities, both build modes", "why_tests_cant": "a running f32 sum over every row: drift appears only for some widths, sizes and values; border and transposition mistakes only for some shapes", "anchors": ["src/imageops/fast_blur.rs: fast_blur, boxes_for_gauss, horizontal_fast_blur_half, extended_f, channel_idx", "src/dynimage.rs: fast_blur"]}
{"id": "C62", "title": "ImageReader: formats, guessing, limits, decode", "statement": "Configuring calls (set_format, clear_format, limits, no_limits, with_guessed_format) in any order and number leave the stream and its position untouched; the format is the one of the last call that sets, clears or successfully guesses it, the limits those of the last call that sets them. with_guessed_format answers what guess_format answers for all remaining bytes, from any position. decode succeeds exactly when a format with a decoder is set, the decoder opens, width * height * bytes_per_pixel fits the memory budget and isize, the decoder accepts the remaining budget and read_image succeeds on a zeroed buffer of that size; the result has the decoder's dimensions and colour type. An image over the budget is refused before its pixels are read; whatever is returned respects max_alloc, max_image_width and max_image_height; decode panics only if a codec does. A farbfeld file anywhere in a stream is recognised and decoded, or refused above 512 MiB.", "quantifier": "all histories of calls, all streams and positions, all decoders meeting the trait's contract, all limits", "why_tests_cant": "call histories and decoders are unbounded; limits interact with every image size", "anchors": ["src/image_reader/image_reader_type.rs: ImageReader", "src/image_reader/free_functions.rs: load", "src/image_reader/mod.rs: Limits", "src/dynimage.rs: decoder_to_image", "src/image.rs: decoder_to_vec, ImageDecoder::set_limits"]}
{"id": "C63", "title": "TIFF: colour types, CMYK conversion, limits, encoding", "statement": "A TIFF file is opened exactly if its sample formats are all unsigned and its colour type is grey, grey+alpha, RGB, RGBA with 8 or 16 bits or 8-bit CMYK; anything else is an error. Decoded samples are delivered byte for byte; CMYK pixel (c,m,y,k) becomes (255-c)(255-k)/255 etc. rounded down, exactly 255-c without black. set_limits hands the tiff crate two buffer limits that add up to the memory budget and reserves the image's size for the first. encode passes all samples in order for L8/Rgb8/Rgba8/L16/Rgb16/Rgba16 and refuses other colour types. (Refuted: the rounding: full light under black 65 gives 189 instead of 190; ImageReader::decode pays for the image twice, so a file larger than half the budget is refused.)", "quantifier": "all colour types and sample format tags, all CMYK pixel values and image sizes, all limits, all buffers", "why_tests_cant": "2^32 CMYK values, limits near u64::MAX and sizes between half the budget and the budget are not enumerated by tests", "anchors": ["src/codecs/tiff.rs: TiffDecoder, check_sample_format, total_bytes_buffer, set_limits, cmyk_to_rgb, TiffEncoder::encode", "src/image_reader/image_reader_type.rs: decode"]}
{"id": "C64", "title": "Gradients are exact at the ends, monotone and on the line", "statement": "vertical_gradient on an image at least two rows high (horizontal_gradient: two columns wide) never panics, keeps the size and fills every row (column) with a single colour. The first colour is exactly start, the last exactly stop, every sample stays between the two ends, changes monotonically along the ramp, and equals the real straight line rounded down up to smax/2^21. An image with no rows is left alone. An image exactly one row high (one column wide) makes the call panic, whatever the colours: the ratio is 0/0.", "quantifier": "every 8- and 16-bit image with 2..2^32-1 rows (columns), every number of channels, every pair of colours, every position; size one and zero separately", "why_tests_cant": "f32 rounding of (b-a)*i/(n-1) could overshoot an end, miss it or break monotonicity for one of 2^32 sizes x 2^32 sample pairs; tests take a few", "anchors": ["src/imageops/mod.rs: vertical_gradient, horizontal_gradient", "src/traits.rs: Lerp::lerp", "src/color.rs: map2"]}
{"id": "C65", "title": "OpenEXR: layer choice, window placement, lossless round trip", "statement": "The OpenEXR decoder uses the first header that is not deep and has R, G and B, and fails with a decoding error exactly when there is none; the image has alpha iff that header has A, unless a preference was given. read_image fills exactly the display window: pixel (X, Y) has the samples delivered for the data-window position (X, Y) - (layer position - display position), whatever the order of delivery, and zeros where nothing was delivered; pixels outside are dropped, never written elsewhere, also when the 32-bit sums wrap. A buffer of the wrong size panics; errors of the exr crate are passed on. What the encoder hands to the exr crate for an Rgb32F or Rgba32F image decodes, if delivered back in any order, to exactly the bytes that were encoded (NaN payloads included), with the same dimensions and colour type. Other colour types are refused.", "quantifier": "every list of headers, alpha preference, display window up to 2^31-1, layer offset representable in i32, every order and subset of delivered pixels, both overflow modes, both byte orders, every buffer", "why_tests_cant": "window offsets, delivery order (the exr crate decodes blocks in parallel) and sizes are unbounded; the repository's tests use a handful of files", "anchors": ["src/codecs/openexr.rs: OpenExrDecoder::with_alpha_preference, dimensions, color_type, read_image, write_buffer, OpenExrEncoder::write_image"]}
{"id": "C66", "title": "DynamicImage: one image of ten sample types", "statement": "On any of the ten types of a DynamicImage: new builds a zero image of the colour type asked for (a panic when the sample count overflows); each as_X answers for exactly its own type; to_X and into_X agree, keep the size and convert every pixel as the single-pixel conversion does (to floats: each sample divided by the maximum; from floats: scaled and clamped samples, alpha kept or opaque, grey through a luma within 2^-23 of the weighted sum); get_pixel is the converted pixel inside and a panic outside; put_pixel changes exactly one pixel and reading it back gives the colour put, as far as the type can hold it; blend_pixel changes one pixel, to the blend of the stored and the put pixel (so alpha is ignored by types without an alpha channel: the claim that a transparent pixel leaves the image alone is refuted); flips, rotations, EXIF orientation and crop keep the type and rearrange the pixels; grayscale keeps depth and alpha (but panics on an image without columns and with two or more rows); invert keeps the type; as_bytes has width * height * bytes_per_pixel bytes, each pixel's samples in row-major order.", "quantifier": "every valid DynamicImage of each of the ten types and any size, every colour, coordinate, rectangle and orientation, all f32 sample values including NaN and infinities", "why_tests_cant": "ten types times every operation times unbounded sizes and sample values; the repository's tests use a few types on a few pixels", "anchors": ["src/dynimage.rs: DynamicImage::new, color, width, height, as_*, to_*, into_*, get_pixel, put_pixel, blend_pixel, crop, fliph, flipv, rotate*, apply_orientation, grayscale, invert, as_bytes, clone_from", "src/color.rs: FromColor, Invert for f32"]}
{"id": "C67", "title": "Parallel pixel iterators and from_par_fn: every schedule", "statement": "The rayon iterators over an ImageBuffer yield every pixel exactly once with the coordinates that the sequential iterator gives, however the work is divided; len is width * height. The tasks of a parallel for_each over the mutable pixels touch pairwise disjoint samples (no data race); under every division into threads and every interleaving of their operations the loop never gets stuck, always takes the same number of steps, and leaves in each pixel exactly what its own body makes of it, with the samples behind the image untouched. from_par_fn builds exactly the buffer that from_fn builds (a panic if the size overflows).", "quantifier": "every buffer and channel count 1..255, every recursive division of the work, every interleaving of any number of threads at the granularity of single operations, every closure (with local state)", "why_tests_cant": "the number of divisions and interleavings is unbounded, and a test sees one of them", "anchors": ["src/buffer_par.rs: par_pixels, par_pixels_mut, par_enumerate_pixels, par_enumerate_pixels_mut, len, from_par_fn"]}
{"id": "C68", "title": "The adapters to the external codecs neither alter nor mistake what the codec says", "statement": "Between the ImageDecoder / ImageEncoder traits and the external crates for PCX, JPEG, WebP, QOI and AVIF: a paletted PCX picture is the palette entry of each index and an RGB one its rows; exif_metadata, orientation and set_limits on a JPEG or WebP decoder may be called in any order and any number of times, with any of the reads failing, and orientation always reports the orientation of the file's Exif chunk; limits the decoder accepted never make decoding fail; the frames of a WebP animation are full opaque-or-RGBA canvases with the codec's delay, one per announced frame even after an error; encoders are called only with buffers of the right length and with the pixels of the image (converted to 8-bit RGBA for AVIF where needed), and every codec error keeps its class.", "quantifier": "every header, palette, row, chunk, answer and error the external codec may give; every history of calls; every buffer, dimension and colour type", "why_tests_cant": "the tests decode a handful of well-formed files; they cannot exercise every failing or inconsistent answer of an external codec, every order of calls, every palette index or every length", "anchors": ["src/codecs/pcx.rs: PCXDecoder", "src/codecs/jpeg/decoder.rs: JpegDecoder", "src/codecs/webp/decoder.rs: WebPDecoder, into_frames", "src/codecs/webp/encoder.rs: encode", "src/codecs/qoi.rs: QoiDecoder, QoiEncoder", "src/codecs/avif/encoder.rs: AvifEncoder"]}
{"id": "C69", "title": "Saving to a file", "statement": "save, save_with_format, save_buffer and save_buffer_with_format, on ImageBuffer and DynamicImage, write exactly what the encoder of the format produces in memory into the file named and touch no other file: (1) the format is decided by the file name's extension (in any letter case, only after the last dot, and only if something precedes it), and an unknown extension is refused before any file is touched; (2) the encoder is given the image's samples in memory order, its dimensions and its colour type, without what a container holds beyond the pixels; (3) short writes, interrupted writes and the buffering change neither the result nor the file; (4) after any crash or fault the file holds a beginning of the output of an encoder that writes front to back; (5) if the encoder reports errors and ends with a flush, success means the whole output is on disk; (6) what is saved can be opened again under the same name, and comes back unchanged if the format's encoding decodes to it. Counterclaims, proved: an output below 8 KiB from an encoder without a final flush is reported as saved although a full disk took none of it; a save refused for want of an encoder (DDS, PCX, format not compiled in) has already truncated the existing file; and saving as GIF refuses every image but RGB8 and RGBA8 although write_to accepts them all.", "quantifier": "every encoder (as an adaptive program of writes, seeks and flushes), every schedule of system-call outcomes including partial and interrupted writes, errors and death at any call, every path, buffer and earlier content of the file system", "why_tests_cant": "a test sees a few images on a healthy disk; the schedules of partial writes and crash points, and all possible encoders, cannot be enumerated", "anchors": ["src/image_reader/free_functions.rs: save_buffer_impl, save_buffer_with_format_impl, write_buffer_impl", "src/buffer.rs: ImageBuffer::save, save_with_format, write_to, write_with_encoder", "src/dynimage.rs: DynamicImage::save, save_with_format, write_to, inner_bytes; save_buffer, save_buffer_with_format, write_buffer_with_format", "src/image.rs: ImageFormat::from_path", "src/codecs/gif.rs: GifEncoder::encode, encode_frame"]}
{"id": "C70", "title": "A decoder in a box answers as the decoder", "statement": "Every decoder obtained from ImageReader::into_decoder is a Box<dyn ImageDecoder>. Whatever calls a client makes and in whatever order, the boxed decoder gives the answers of the decoder inside, in any number of boxes, for every method but orientation; orientation too for decoders that use the provided method and for JPEG and WebP, which cache it: it is always that of the file's Exif chunk. Counterclaim, proved: TIFF's own orientation (the Orientation tag) is lost in a box: ImageReader reports NoTransforms for every TIFF, whatever the tag says, so a sideways picture is never turned; the two agree exactly for files whose tag is absent, senseless or 1.", "quantifier": "every decoder type (as a state machine with arbitrary methods), every history of calls before read_image, any nesting of boxes, every Exif chunk and every tag value", "why_tests_cant": "the forwarding must hold for all decoders and all interleavings of the stateful calls; the test-suite has no TIFF whose orientation is read through the reader", "anchors": ["src/image.rs: trait ImageDecoder (provided methods), impl ImageDecoder for Box<T>", "src/image_reader/image_reader_type.rs: make_decoder, into_decoder", "src/codecs/tiff.rs: orientation, icc_profile", "src/codecs/jpeg/decoder.rs, src/codecs/webp/decoder.rs: exif_metadata, orientation"]}
{"id": "C71", "title": "GIF encoder across calls", "statement": "Over any sequence of set_repeat, encode, encode_frame(s) and try_encode_frames calls on one GifEncoder, whatever operations of the writer fail: (1) if nothing fails the file is one header of the first picture's size, the last repetition count set before it, then exactly the pictures and repetition counts asked for, in order, then the trailer; every picture is at the origin, cleared to the background after being shown, with its delay in hundredths of a second rounded down and capped at 65535; (2) under any faults, the pictures written are exactly those of the calls that returned Ok, in order; (3) there is never a second header, and the header's size is that of the first picture; (4) a failure is reported by the call in which it happens, with its kind; (5) dimensions over 65535 and colours other than RGB8/RGBA8 are refused without touching the file or the encoder; (6) encode_frames is encode_frame up to the first failure, and try_encode_frames returns an Err item without further actions. Refuted: after a header (or first repetition count) that could not be written, the next picture panics rather than returning an error; encoding zero frames reports success with an empty file; a frame's left/top is ignored; the constructor's speed is ignored by encode; later pictures may exceed the declared screen.", "quantifier": "every history of calls with any data, sizes, colours, delays and repetition counts, every speed, every set of failing operations with either kind of error", "why_tests_cant": "the file depends on the whole history of calls and on which operation fails; tests encode one animation into a Vec, which never fails", "anchors": ["src/codecs/gif.rs: GifEncoder::new_with_speed, set_repeat, encode, encode_frame, encode_frames, try_encode_frames, convert_frame, encode_gif, Repeat, ImageError::from_encoding"]}
{"id": "C72", "title": "Hue rotation", "statement": "huerotate and huerotate_in_place of an image with 8- or 16-bit samples never panic, agree with each other, keep size, type and (in RGBA) alpha, and give in each of the first three channels the colour multiplied by the CSS hue-rotation matrix of the angle, limited to 0..255 and rounded down. Greys of RGB and RGBA images keep their value or lose one; on 8-bit images an angle of 0 does nothing. (The documentation's '360 does nothing' is false: 255 becomes 254. 16-bit results are clipped to 255; black grey images become white at 180 degrees; in grey images with alpha the alpha is altered.)", "quantifier": "every width and height, all four channel kinds, 8- and 16-bit samples, every pixel content and angle, and every cosine and sine in [-1, 1] the platform may return", "why_tests_cant": "the result of three rounded products and a truncating cast depends on all 2^24 colours and 2^32 angles and on the platform's sine and cosine; tests look at single pixels", "anchors": ["src/imageops/colorops.rs: huerotate, huerotate_in_place", "src/color.rs: channels4, from_channels", "src/utils/mod.rs: clamp", "src/dynimage.rs: huerotate"]}
