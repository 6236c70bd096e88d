{
 "claims": [
  {
   "property": "C01",
   "status": "proved",
   "theorems": [
    "C01_from_raw_iff",
    "C01_get",
    "C01_put",
    "C01_refines"
   ],
   "note": "Container model (flat samples) and its refinement to the image-of-pixels model."
  },
  {
   "property": "C02",
   "status": "proved",
   "theorems": [
    "C02_checked_exact_container",
    "C02_checked_refuted"
   ],
   "note": "Holds when the container has exactly the image's samples; false for longer containers: C02_checked_refuted."
  },
  {
   "property": "C03",
   "status": "proved",
   "theorems": [
    "C03_pixels",
    "C03_all_pixels_meaning",
    "C03_rows",
    "C03_row",
    "C03_enumerate_pixels",
    "C03_enumerate_rows",
    "C03_enumerate_row",
    "C03_generic_pixels",
    "C03_generic_zero_width_refuted",
    "C03_enumerate_rows_overflow_refuted"
   ],
   "note": "Every interleaving of next/next_back for pixels() and rows(). False for the generic iterator on 0 x h (h>=2) images and for enumerate_rows at height u32::MAX: refuted theorems."
  },
  {
   "property": "C04",
   "status": "proved",
   "theorems": [
    "C04_from_fn",
    "C04_from_fn_pure",
    "C04_from_pixel",
    "C04_too_large_panics"
   ],
   "note": "Closure state threaded, so call order and count are part of the statement."
  },
  {
   "property": "C05",
   "status": "proved",
   "theorems": [
    "C05_copy_from_fits",
    "C05_copy_from_rejects",
    "C05_overflow_refuted"
   ],
   "note": "False where other.width()+x overflows u32: C05_overflow_refuted."
  },
  {
   "property": "C06",
   "status": "proved",
   "theorems": [
    "C06_buffer_agrees",
    "C06_buffer_empty_refuted",
    "C06_copy_within_simultaneous",
    "C06_copy_within_rejects",
    "C06_copy_within_corner_panics"
   ],
   "note": "Corners must lie inside the image (the code asserts it). ImageBuffer's specialisation panics for an empty source at column 0: C06_buffer_empty_refuted."
  },
  {
   "property": "C07",
   "status": "proved",
   "theorems": [
    "C07_view_construction",
    "C07_view_reads",
    "C07_view_writes",
    "C07_view_of_view",
    "C07_view_of_view_panics",
    "C07_to_image",
    "C07_view_bounds_refuted"
   ],
   "note": "SubImage get/put do not check the view's own bounds: refuted theorem."
  },
  {
   "property": "C08",
   "status": "proved",
   "theorems": [
    "C08_index_iff",
    "C08_min_length_least",
    "C08_fits_iff",
    "C08_as_view_iff",
    "C08_view_get_pixel",
    "C08_view_get_sample",
    "C08_shrink",
    "C08_row_major_packed",
    "C08_column_major_packed",
    "C08_try_into_buffer"
   ],
   "note": ""
  },
  {
   "property": "C09",
   "status": "proved",
   "theorems": [
    "C09_as_view_mut_unaliased",
    "C09_try_upgrade_unaliased",
    "C09_has_aliased_samples",
    "C09_checks_total",
    "C09_put_pixel",
    "C09_zero_stride_refuted"
   ],
   "note": "Holds when no dimension longer than 1 has stride 0; false otherwise: C09_zero_stride_refuted."
  },
  {
   "property": "C10",
   "status": "proved",
   "theorems": [
    "C10_rotate90",
    "C10_rotate180",
    "C10_rotate270",
    "C10_flip_horizontal",
    "C10_flip_vertical",
    "C10_affine_permutes_pixels",
    "C10_rotate90_in",
    "C10_rotate180_in",
    "C10_rotate270_in",
    "C10_flip_horizontal_in",
    "C10_flip_vertical_in"
   ],
   "note": "Generic over the pixel type; image = row-major pixel list."
  },
  {
   "property": "C11",
   "status": "proved",
   "theorems": [
    "C11_rotate90_four_times",
    "C11_rotate90_270_inverse",
    "C11_rotate180_involution",
    "C11_flip_horizontal_involution",
    "C11_flip_vertical_involution",
    "C11_rotate180_decompositions"
   ],
   "note": ""
  },
  {
   "property": "C12",
   "status": "proved",
   "theorems": [
    "C12_in_place_agree"
   ],
   "note": ""
  },
  {
   "property": "C13",
   "status": "proved",
   "theorems": [
    "C13_from_exif_to_exif",
    "C13_to_exif_from_exif",
    "C13_from_exif_rejects",
    "C13_apply_orientation",
    "C13_from_exif_chunk"
   ],
   "note": "EXIF table stated independently in OrientSpec.v; parser characterised by an iff."
  },
  {
   "property": "C14",
   "status": "proved",
   "theorems": [
    "C14_overlay_bounds_exact",
    "C14_overlay_bounds_ext_exact"
   ],
   "note": ""
  },
  {
   "property": "C15",
   "status": "proved",
   "theorems": [
    "C15_overlay",
    "C15_replace",
    "C15_tile",
    "C15_tile_empty_panics"
   ],
   "note": "tile with an empty top image panics: refuted theorem."
  },
  {
   "property": "C16",
   "status": "proved",
   "theorems": [
    "C16_crop_is_intersection",
    "C16_crop_to_image"
   ],
   "note": ""
  },
  {
   "property": "C17",
   "status": "proved",
   "theorems": [
    "C17_color_map_meaning",
    "C17_invert",
    "C17_brighten",
    "C17_brighten_monotone",
    "C17_brighten_overflow_refuted"
   ],
   "note": "u8 and u16 samples. brighten overflow near i32::MAX: C17_brighten_overflow_refuted."
  },
  {
   "property": "C18",
   "status": "proved",
   "theorems": [
    "C18_dither",
    "C18_unique",
    "C18_bilevel",
    "C18_bilevel_lookup",
    "C18_index",
    "C18_palette",
    "C18_narrow_refuted"
   ],
   "note": "dither for any u8 pixel type (1-4 channels) and any colour map: C18_dither gives the result as the unique (C18_unique) solution of the Floyd-Steinberg recursion; BiLevel, index_colors. C18_narrow_refuted: images one pixel wide or empty panic for every map."
  },
  {
   "property": "C19",
   "status": "proved",
   "theorems": [
    "C19_range",
    "C19_fits",
    "C19_aspect",
    "C19_covers",
    "C19_clamped",
    "C19_empty_fill_refuted",
    "C19_resize",
    "C19_thumbnail",
    "C19_resize_to_fill"
   ],
   "note": "resize_dimensions on Flocq's binary64, for all u32 inputs. The bound is max 1 of the requested bound. Covering holds for non-empty images whose scaled size fits in u32; C19_clamped says what happens otherwise and C19_empty_fill_refuted shows the empty-image exception. The resampling in resize/thumbnail/resize_to_fill is a parameter of which only the result size matters."
  },
  {
   "property": "C20",
   "status": "proved",
   "theorems": [
    "C20_pixels",
    "C20_window",
    "C20_inside",
    "C20_range",
    "C20_blocks",
    "C20_same",
    "C20_empty",
    "C20_cover",
    "C20_once_refuted",
    "C20_constant_refuted",
    "C20_monotone_refuted",
    "C20_overflow_refuted"
   ],
   "note": "thumbnail for u8 and u16 samples and 1 to 4 channels, on Flocq's binary32, Debug and Release. C20_pixels: no panic, no read outside, each channel is the rounded mean of its block or the f32 mix (within 1/4, then rounded down) of the two neighbouring columns/rows; sides up to 524288 and blocks small enough for u32 sums (exact bound: C20_overflow_refuted). C20_window says where the windows are for sides below 2^24; C20_cover, C20_blocks, C20_same, C20_range, C20_empty. Refuted parts of the documentation/claim: each source pixel used exactly once (C20_once_refuted), range (off by one below when mixing: C20_constant_refuted), monotonicity (C20_monotone_refuted). f32 sample images are not modelled."
  },
  {
   "property": "C21",
   "status": "proved",
   "theorems": [
    "C21_f32_to_int",
    "C21_f32_to_int_monotone",
    "C21_int_to_f32",
    "C21_int_f32_roundtrip",
    "C21_u16_to_u8_nearest",
    "C21_u8_u16_roundtrip",
    "C21_monotone",
    "C21_endpoints"
   ],
   "note": "u8/u16 pairs: Color.v, ColorProps.v. f32: ColorF.v, ColorFProps.v on Flocq's binary32: f32 to u8/u16 is the nearest sample of the clamped value (exact real statement), monotone, total for NaN and infinities; u8/u16 to f32 is the correctly rounded quotient; the integer/float round trip is the identity. The f32 theorems use the standard library's axioms of the classical reals."
  },
  {
   "property": "C22",
   "status": "proved",
   "theorems": [
    "C22_luma_range",
    "C22_luma_grey",
    "C22_luma_monotone",
    "C22_coefficients",
    "C22_from_color",
    "C22_conv_is_from_primitive",
    "C22_grey_rgb_grey",
    "C22_convert_image",
    "C22_grayscale_image"
   ],
   "note": "u8/u16 samples, all 4 colour kinds and the image-level loops."
  },
  {
   "property": "C23",
   "status": "proved",
   "theorems": [
    "C23_rgba_transparent",
    "C23_rgba_opaque",
    "C23_no_alpha",
    "C23_rgba",
    "C23_lumaa",
    "C23_lumaa_both_transparent",
    "C23_total",
    "C23_lumaa_transparent_refuted",
    "C23_lumaa_opaque_refuted",
    "C23_u32_refuted",
    "C23_opaque_background_refuted"
   ],
   "note": "Blending of u8 and u16 pixels: never panics, exact identities for Rgba with transparent/opaque foreground, results within 1/8 of the exact source-over quotient before truncation. Where the English claim fails in the code it is shown by a refuted companion: LumaA has no early return so a transparent or opaque foreground can be off by one; an opaque background may end with alpha max-1; Rgba<u32> can panic. f32 pixels are not modelled."
  },
  {
   "property": "C24",
   "status": "proved",
   "theorems": [
    "C24_field_meaning",
    "C24_expand_bits",
    "C24_scaling",
    "C24_expand_packed",
    "C24_expand_packed_partial_byte_refuted",
    "C24_expand_palette",
    "C24_first_pixel_refuted"
   ],
   "note": "expand_bits exact; expand_packed/expand_palette correct for every pixel but the first, which the code never expands: C24_first_pixel_refuted."
  },
  {
   "property": "C25",
   "status": "proved",
   "theorems": [
    "C25_buffer_size",
    "C25_buffer_size_color_type",
    "C25_check_dimension_overflow",
    "C25_total_bytes",
    "C25_vec_len",
    "C25_tables"
   ],
   "note": "buffer_size, total_bytes, check_dimension_overflow and decoder_to_vec length arithmetic."
  },
  {
   "property": "C26",
   "status": "proved",
   "theorems": [
    "C26_extensions_recognised",
    "C26_case_insensitive",
    "C26_extensions_disjoint",
    "C26_mime_roundtrip",
    "C26_mime_farbfeld",
    "C26_all_complete",
    "C26_enabled_implies_possible",
    "C26_all_features",
    "C26_known_names"
   ],
   "note": "Tables checked against independently listed names; extension case-insensitivity for every string."
  },
  {
   "property": "C27",
   "status": "proved",
   "theorems": [
    "C27_bmp_output_recognised",
    "C27_farbfeld_output_recognised",
    "C27_guess_sound",
    "C27_guess_complete_unique",
    "C27_table_unambiguous",
    "C27_prefix_only",
    "C27_published_signatures",
    "C27_webp_pcx",
    "C27_avif_detection_refuted",
    "C27_hdr_output",
    "C27_ico_output_recognised",
    "C27_jpeg_output_recognised",
    "C27_pnm_output_recognised"
   ],
   "note": "Detection characterised completely (sound, complete, unambiguous table, prefix only); the AVIF/ICO ambiguity is proved as a refutation. Recognition of encoder output proved for every encoder implemented in this crate whose format has a signature: BMP, farbfeld, HDR, ICO, JPEG, PNM (TGA has none). PNG, GIF, TIFF, WebP, QOI, EXR and AVIF are written by external crates and are not modelled."
  },
  {
   "property": "C28",
   "status": "proved",
   "theorems": [
    "C28_dimensions",
    "C28_one_call",
    "C28_ledger",
    "C28_reserve_free",
    "C28_no_limits"
   ],
   "note": ""
  },
  {
   "property": "C29",
   "status": "proved",
   "theorems": [
    "C29_farbfeld_read_rect_is_crop",
    "C29_region_is_crop",
    "C29_outside_is_error",
    "C29_pitch_unchecked_refuted",
    "C29_short_buffer_panics_refuted"
   ],
   "note": "load_rect for every decoder meeting the scanline contract of LoadRectSpec.v; farbfeld's read_rect as an instance (also after earlier calls). Not rejected: a pitch too large for the buffer (rows silently missing), short buffers panic: refuted theorems."
  },
  {
   "property": "C30",
   "status": "proved",
   "theorems": [
    "C30_faithful_stream",
    "C30_reads_everything"
   ],
   "note": "Every history of read sizes. A failing read_scanline callback is outside the contract."
  },
  {
   "property": "C31",
   "status": "proved",
   "theorems": [
    "C31_closest_approximation",
    "C31_exact_when_representable",
    "C31_saturation_refuted",
    "C31_to_duration",
    "C31_whole_ms_roundtrip"
   ],
   "note": "Clamping claim is false in the last half millisecond: C31_saturation_refuted."
  },
  {
   "property": "C32",
   "status": "proved",
   "theorems": [
    "C32_cmp_is_rational_order",
    "C32_order_laws"
   ],
   "note": ""
  },
  {
   "property": "C33",
   "status": "proved",
   "theorems": [
    "C33_composition",
    "C33_still",
    "C33_encode_frame",
    "C33_encoded_frames_independent"
   ],
   "note": ""
  },
  {
   "property": "C34",
   "status": "proved",
   "theorems": [
    "C34_composition",
    "C34_delay",
    "C34_error_ends",
    "C34_background_then_previous_refuted"
   ],
   "note": ""
  },
  {
   "property": "C35",
   "status": "proved",
   "theorems": [
    "C35_round_trip",
    "C35_decode_total",
    "C35_encoder_rejects",
    "C35_read_rect"
   ],
   "note": "Both byte orders; decoder characterised on every byte stream."
  },
  {
   "property": "C36",
   "status": "proved",
   "theorems": [
    "C36_rgb8",
    "C36_rgba8",
    "C36_l8",
    "C36_la8",
    "C36_palette",
    "C36_accepts",
    "C36_la8_overflow_refuted",
    "C36_dimensions_refuted"
   ],
   "note": "Byte-level round trip for every size 1..65535 whose file fits 32 bits, and the exact acceptance condition. Refuted parts proved as such: La8 above 2^31 pixels overflows a u32 index; dimensions 0 or above 65535 are written but not readable."
  },
  {
   "property": "C37",
   "status": "proved",
   "theorems": [
    "C37_mask_accepted",
    "C37_mask_rejected",
    "C37_scaling",
    "C37_accepted_fields_readable",
    "C37_mask_to_value"
   ],
   "note": "All 32-bit masks; nearest-value scaling."
  },
  {
   "property": "C38",
   "status": "proved",
   "theorems": [
    "C38_open_total",
    "C38_decode_total",
    "C38_rle_meaning",
    "C38_ico_rle_alpha_refuted"
   ],
   "note": "Every byte string: no panic, termination; RLE meaning is an iff against a relational drawing semantics (BmpSpec.v). Refuted for the ICO variant: the alpha byte of RLE images keeps whatever the caller's buffer held."
  },
  {
   "property": "C39",
   "status": "proved",
   "theorems": [
    "C39_roundtrip",
    "C39_encoder_format",
    "C39_decoder_format",
    "C39_encoder_errors",
    "C39_empty_refuted"
   ],
   "note": "Encoder and decoder against the file format of TgaSpec.v, any row order / identification field on the decoding side. Empty images encode to a file the decoder refuses: C39_empty_refuted."
  },
  {
   "property": "C40",
   "status": "proved",
   "theorems": [
    "C40_packets",
    "C40_decode_packets",
    "C40_decode_stream_total",
    "C40_decoder_total",
    "C40_decoder_initialises",
    "C40_uninitialised_refuted"
   ],
   "note": "Decoder total on every byte stream; output buffer initialised except for true-colour files that carry a colour map: C40_uninitialised_refuted."
  },
  {
   "property": "C41",
   "status": "proved",
   "theorems": [
    "C41_roundtrip_8bit",
    "C41_roundtrip_16bit",
    "C41_roundtrip_bits_pam",
    "C41_roundtrip_pbm",
    "C41_chosen_header",
    "C41_ascii_text",
    "C41_pbm_ascii_inverted_refuted",
    "C41_bitmap_refuted",
    "C41_l16_write_image_refuted",
    "C41_dynamic_refused",
    "C41_alpha_not_decodable",
    "C41_width_mismatch_refuted"
   ],
   "note": "Every lossless combination proved to round trip for all images (8-bit PGM/PPM/PAM in both encodings, 16-bit PAM, bilevel PAM, binary PBM of every width, any chosen header with samples in range); ASCII text shape and 70-column lines proved. False parts refuted: ASCII PBM inverts every image, binary PBM of width 0 panics, L8 images with samples 0/1 refused as bitmaps, L16 through write_image always refused, La1/La16/Rgb16/Rgba16 refused by the dynamic header, La8/Rgba8 PAM not decodable, sample width not checked against the header."
  },
  {
   "property": "C42",
   "status": "proved",
   "theorems": [
    "C42_accepted_iff",
    "C42_covering_header",
    "C42_range_check_refuted"
   ],
   "note": "The property is false of the code: the check is inverted. Exact acceptance condition proved (C42_accepted_iff), both directions of the claim refuted for every header below the colour type's range, positive theorem where the header covers the range."
  },
  {
   "property": "C43",
   "status": "proved",
   "theorems": [
    "C43_component_roundtrip",
    "C43_file_roundtrip_rle",
    "C43_file_roundtrip_flat",
    "C43_file_roundtrip_normalised",
    "C43_width_32768_refuted"
   ],
   "note": "RGBE level (float conversion not modelled). Round trip for every byte list / scanline / file at widths <8, 8..32767 and >32768 (flat widths need non-marker pixels, as the format does); false at width 32768: C43_width_32768_refuted."
  },
  {
   "property": "C44",
   "status": "proved",
   "theorems": [
    "C44_scanline_total",
    "C44_decode_total",
    "C44_debug_overflow_refuted"
   ],
   "note": "Every byte stream. Release builds never panic; a build with overflow checks panics on 8 repeat markers: C44_debug_overflow_refuted."
  },
  {
   "property": "C45",
   "status": "proved",
   "theorems": [
    "C45_round_trip",
    "C45_refused",
    "C45_selection",
    "C45_select_no_panic",
    "C45_mask",
    "C45_size_checked"
   ],
   "note": "The enclosed PNG/BMP decoders are opaque results of the inner decoder; directory, selection, size checks and AND mask are modelled."
  },
  {
   "property": "C46",
   "status": "proved",
   "theorems": [
    "C46_pixels",
    "C46_errors",
    "C46_end_points",
    "C46_between"
   ],
   "note": "S3TC texels specified independently in DxtSpec.v."
  },
  {
   "property": "C47",
   "status": "proved",
   "theorems": [
    "C47_grey",
    "C47_colour",
    "C47_encode_bytes",
    "C47_unsupported",
    "C47_too_large",
    "C47_second_image_refuted",
    "C47_rgb16_refuted",
    "C47_grey16_refuted"
   ],
   "note": "For every 8-bit image of every colour type and size up to 65535: an independent T.81 reader (JpegSpec.v) recovers from the written file the dimensions, tables, ICC profile and exactly the quantised coefficients of every block. Where the claim fails it is refuted by theorem: a second image written by the same encoder, 16-bit colour images (header and scan disagree), 16-bit grey values above 255 (panic)."
  },
  {
   "property": "C48",
   "status": "proved",
   "theorems": [
    "C48_tables_in_range",
    "C48_tables_antitone",
    "C48_huffman_codes",
    "C48_huffman_tables_match",
    "C48_ycbcr",
    "C48_grey",
    "C48_icc_too_large",
    "C48_jfif_header"
   ],
   "note": "All qualities, all tables, all ICC lengths; oversized ICC profiles are refused."
  },
  {
   "property": "C49",
   "status": "proved",
   "theorems": [
    "C49_cover",
    "C49_blocks",
    "C49_samples",
    "C49_copy_grey",
    "C49_copy_colour"
   ],
   "note": "Every pixel is in exactly one block position; positions beyond the edge hold the nearest pixel."
  },
  {
   "property": "C50",
   "status": "proved",
   "theorems": [
    "C50_encode_big_endian",
    "C50_round_trip",
    "C50_decode_native",
    "C50_other_types"
   ],
   "note": ""
  },
  {
   "property": "C51",
   "status": "proved",
   "theorems": [
    "C51_decode",
    "C51_only",
    "C51_no_panic"
   ],
   "note": "dds_file (DxtSpec.v) characterises the accepted files by byte offsets."
  },
  {
   "property": "C52",
   "status": "proved",
   "theorems": [
    "C52_accepts",
    "C52_headers",
    "C52_ico_headers",
    "C52_uncompressed",
    "C52_raster_pixel"
   ],
   "note": "Positional specification in BmpSpec.v."
  },
  {
   "property": "C53",
   "status": "proved",
   "theorems": [
    "C53_indexed_8bit",
    "C53_indexed_truecolor_refuted",
    "C53_indexed_4bit_refuted"
   ],
   "note": "8-bit palettes positive; truecolor panic and packed 4-bit indices proved as refutations."
  },
  {
   "property": "C54",
   "status": "proved",
   "theorems": [
    "C54_catmullrom",
    "C54_catmullrom_constant",
    "C54_empty",
    "C54_same_size",
    "C54_nearest",
    "C54_nearest_border_refuted",
    "C54_between",
    "C54_constant",
    "C54_triangle"
   ],
   "note": "imageops::resize for u8 and u16 samples and 1-4 channels, Flocq binary32. C54_empty, C54_same_size: any filter. C54_nearest: every u32 size; which column is used is exact for size*new <= 4000000 off the borders and when the new size divides the old, otherwise up to a relative 2^-20 in the position; on a border the left column can be used (C54_nearest_border_refuted). C54_between/C54_constant: Triangle, and Gaussian given an expf within 2^-20 on non-positive arguments (C54_exp_accurate_nonvacuous), sides up to 524288; no panic at any ratio, range when the number of averaged pixels is within f32 precision (few). C54_triangle: with Triangle and sources up to 65536 a side, the output is within 1/2 + smax*(6*(Sx+Sy)+423)/2^24 of the tent-weighted mean. C54_catmullrom (CubicProps.v): sources up to 65536 a side, any target; no panic, and the output is the clamped mean with Catmull-Rom weights, each weight within 100*2^-24 of the real cubic, up to 1/2 + smax*(524*(Sx+Sy)+1310)/2^24; the sum of the weights is shown to stay away from 0 at every ratio and border (this is what rules out a panic on NaN). C54_catmullrom_constant: constants are kept for 8-bit samples reduced up to thirty times. Lanczos3 is modelled but has no theorem beyond C54_empty and C54_same_size. f32 sample images not modelled."
  },
  {
   "property": "C55",
   "status": "proved",
   "theorems": [
    "C55_decode_samples",
    "C55_decode_bitmap",
    "C55_decode_bitmap_ascii",
    "C55_total",
    "C55_large_refuted",
    "C55_truncated_ascii_refuted",
    "C55_header_quirks"
   ],
   "note": "Decoding of well-formed files proved against a textual grammar, incl. comments and P7 lines in any order (at most one TUPLTYPE line); rescaling within 1/2 (8 bit) resp. 33/64 (16 bit) of the exact value and monotone; totality. Refuted: sizes of 2^32 bytes and more panic, truncated ASCII rasters are zero-filled."
  },
  {
   "property": "C56",
   "status": "proved",
   "theorems": [
    "C56_empty",
    "C56_blur",
    "C56_between",
    "C56_constant",
    "C56_identity",
    "C56_sigma_refuted",
    "C56_unsharpen",
    "C56_unsharpen_kept",
    "C56_unsharpen_constant"
   ],
   "note": "u8 and u16 samples, 1-4 channels, sides up to 524288; expf is a parameter required to be accurate to 2^-20 on non-positive arguments (exp_accurate; the correctly rounded exponential meets it). The no-overshoot and constant theorems need sigma <= 2000 (u8) or <= 6 (u16). C56_sigma_refuted: every non-empty image panics for sigma NaN, +inf or in (0, 2^-76]; sigma between 2^-76 and 2^-20 is not covered. f32 images not modelled."
  },
  {
   "property": "C57",
   "status": "proved",
   "theorems": [
    "C57_none",
    "C57_nearest",
    "C57_bilinear",
    "C57_sample",
    "C57_wide_refuted"
   ],
   "note": "u8 and u16 samples, 1-4 channels, sides up to 2^24, all f32 coordinates. Bilinear is within 1/2 + 20*smax/2^24 of the exact interpolation, within the range of the pixels closer than 1, and exact at centres; sample_* sample at the point of the coordinates to 22 bits. C57_wide_refuted: the no-panic claim fails at width 16777220. f32 sample images not modelled."
  },
  {
   "property": "C58",
   "status": "proved",
   "theorems": [
    "C58_filter",
    "C58_integer",
    "C58_range",
    "C58_constant_refuted",
    "C58_empty_refuted",
    "C58_nan_refuted"
   ],
   "note": "u8 and u16 samples, 1-4 channels, sides of at least 1, kernels of nine finite entries of absolute value up to 2^70. C58_filter: general kernels with an explicit error; C58_integer: exact for integer kernels; C58_range. Refuted parts: C58_constant_refuted (255 becomes 254 with nine ninths), C58_empty_refuted, C58_nan_refuted. f32 sample images not modelled."
  },
  {
   "property": "C59",
   "status": "proved",
   "theorems": [
    "C59_decode_exact",
    "C59_accuracy",
    "C59_file_accuracy",
    "C59_reencode",
    "C59_reencode_normalised",
    "C59_bright_refuted",
    "C59_dark_refuted",
    "C59_infinite_refuted"
   ],
   "note": "log2, exp2 and powi(2.0, n) are parameters required to be: exp2 exact at integers, log2 exact at powers of two and within 2^-16 otherwise, powi exact for |n| <= 127 (hdr_accurate; C59_accurate_nonvacuous exhibits such functions and powi_rt_agrees checks compiler-rt's algorithm). The file theorem covers the widths that are run-length coded (8..32767); C43 describes the others. Refuted parts: C59_bright_refuted, C59_dark_refuted, C59_infinite_refuted."
  },
  {
   "property": "C60",
   "status": "proved",
   "theorems": [
    "C60_pixels",
    "C60_standard",
    "C60_black_white",
    "C60_wrong_length",
    "C60_unsupported",
    "C60_opaque_refuted",
    "C60_white12_refuted",
    "C60_matrix_refuted"
   ],
   "note": "Everything after dav1d; the mp4 container parsing and dav1d itself are not modelled. The picture passed in must have planes of stride*height bytes with rows at least as long as the picture and samples of at most d bits. Refuted parts are real defects: bit replication in the 10/12-bit expansion shifts by the wrong amount, the Smpte240 constants have kr and kb swapped, SMPTE 170M is mapped to them, and BT.470M uses 0.2220/0.0713 instead of 0.30/0.11."
  },
  {
   "property": "C61",
   "status": "proved",
   "theorems": [
    "C61_widths",
    "C61_box_blur",
    "C61_range",
    "C61_constant",
    "C61_monotone",
    "C61_brightness",
    "C61_mirror",
    "C61_darkening",
    "C61_small",
    "C61_sign",
    "C61_empty",
    "C61_huge",
    "C61_nan",
    "C61_constant_u16_refuted"
   ],
   "note": "proved for u8 with |sigma| <= 32768 and u16 with |sigma| <= 126, where the f32 sums are exact; beyond that (and below 2^64) only the u16 counterexample C61_constant_u16_refuted is shown; samples other than u8/u16 are not modelled"
  },
  {
   "property": "C62",
   "status": "proved",
   "theorems": [
    "C62_history",
    "C62_guess",
    "C62_no_format",
    "C62_load",
    "C62_open",
    "C62_decode",
    "C62_too_large",
    "C62_limits",
    "C62_dimensions",
    "C62_total",
    "C62_end_to_end"
   ],
   "note": "Streams on which seeking and reading do not fail. make_decoder's table is a parameter: which decoder belongs to which format is C26/C27. File::open, hooks and the path handling beyond the extension are not modelled."
  },
  {
   "property": "C63",
   "status": "proved",
   "theorems": [
    "C63_open",
    "C63_cmyk",
    "C63_cmyk_exact_refuted",
    "C63_read",
    "C63_limits",
    "C63_budget_refuted",
    "C63_encode"
   ],
   "note": "The tiff crate is an input (its read_image, and its refusal of images larger than decoding_buffer_size as a hypothesis of C63_budget_refuted). icc_profile and orientation are not modelled."
  },
  {
   "property": "C64",
   "status": "proved",
   "theorems": [
    "C64_vertical",
    "C64_horizontal",
    "C64_empty",
    "C64_one_row_refuted"
   ],
   "note": "The panic for a size of one is C64_one_row_refuted. u32/f32 sample types are not covered."
  },
  {
   "property": "C65",
   "status": "proved",
   "theorems": [
    "C65_layer",
    "C65_decode",
    "C65_buffer",
    "C65_roundtrip",
    "C65_encode_rejects"
   ],
   "note": "Depends on the exr crate delivering the pixels of the layer the header describes (first_valid_layer); it delivers 1.0 for a missing alpha."
  },
  {
   "property": "C66",
   "status": "proved",
   "theorems": [
    "C66_new",
    "C66_views",
    "C66_clone_from",
    "C66_to",
    "C66_float_px",
    "C66_to_float_px",
    "C66_float_to_float_px",
    "C66_from_grey_floats",
    "C66_float_luma",
    "C66_into",
    "C66_get_pixel",
    "C66_put_pixel",
    "C66_blend_pixel",
    "C66_blend_transparent_refuted",
    "C66_transforms",
    "C66_apply_orientation",
    "C66_crop",
    "C66_grayscale",
    "C66_grayscale_no_columns_refuted",
    "C66_invert",
    "C66_bytes"
   ],
   "note": "Findings: blend_pixel ignores alpha on types without an alpha channel (C66_blend_transparent_refuted); grayscale panics on a 0-column image with 2 or more rows (C66_grayscale_no_columns_refuted). Not modelled: bytes of the f32 types, blending into Rgba32F, as_mut_*, encoding."
  },
  {
   "property": "C67",
   "status": "proved",
   "theorems": [
    "C67_par_pixels",
    "C67_par_enumerate_pixels",
    "C67_no_race",
    "C67_schedules",
    "C67_from_par_fn"
   ],
   "note": "rayon itself is not modelled beyond its contract."
  },
  {
   "property": "C68",
   "status": "proved",
   "theorems": [
    "C68_pcx_rgb",
    "C68_pcx_palette",
    "C68_pcx_bad_index",
    "C68_pcx_error",
    "C68_pcx_palette_error",
    "C68_pcx_wrong_length",
    "C68_pcx_original",
    "C68_orientation_cache",
    "C68_jpeg_new",
    "C68_jpeg_color",
    "C68_jpeg_set_limits",
    "C68_jpeg_limits",
    "C68_jpeg_read",
    "C68_webp_read",
    "C68_webp_frames",
    "C68_qoi_write",
    "C68_qoi_channels",
    "C68_qoi_read",
    "C68_webp_write"
   ],
   "note": "Two findings carry theorems named _refuted: C68_avif_empty_refuted and C68_avif_options_refuted. The external crates are parameters, so nothing is claimed about pcx, zune-jpeg, image-webp, qoi or ravif."
  },
  {
   "property": "C69",
   "status": "proved",
   "theorems": [
    "C69_format",
    "C69_unknown_extension",
    "C69_only_this_file",
    "C69_dispatch",
    "C69_transparent",
    "C69_success_is_complete",
    "C69_success_is_complete_refuted",
    "C69_prefix",
    "C69_failure_keeps_file_refuted",
    "C69_buffer_save",
    "C69_dynimage_save",
    "C69_write_to",
    "C69_gif",
    "C69_save_open",
    "C69_farbfeld_round_trip"
   ],
   "note": "std's BufWriter and Path::extension are modelled from their source; opening fails only as a whole; directories and permissions are a predicate on paths"
  },
  {
   "property": "C70",
   "status": "proved",
   "theorems": [
    "C70_forwards",
    "C70_provided_orientation",
    "C70_cached_orientation",
    "C70_tiff_orientation",
    "C70_tiff_boxed_refuted",
    "C70_reader"
   ],
   "note": "the external decoders' answers (Exif chunk, tag) are inputs"
  },
  {
   "property": "C71",
   "status": "proved",
   "theorems": [
    "C71_faultless",
    "C71_pictures",
    "C71_shape",
    "C71_reports",
    "C71_error_kind",
    "C71_refused",
    "C71_panics",
    "C71_failed_start_refuted",
    "C71_frames",
    "C71_try_frames",
    "C71_no_frames_refuted",
    "C71_position_refuted",
    "C71_speed_refuted",
    "C71_speed_range",
    "C71_screen_refuted"
   ],
   "note": "The gif crate (quantisation, LZW, bytes of each block) is an arbitrary parameter; the assertion on data length in gif::Frame::from_rgb(a)_speed and the drop-time trailer are taken from the crate."
  },
  {
   "property": "C72",
   "status": "proved",
   "theorems": [
    "C72_rotates",
    "C72_angle",
    "C72_greys",
    "C72_zero",
    "C72_full_turn_refuted",
    "C72_deep_refuted",
    "C72_luma_refuted",
    "C72_luma_alpha_refuted"
   ],
   "note": "8- and 16-bit samples; floating-point images not modelled here"
  }
 ]
}