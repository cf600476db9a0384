{
 "claims": [
  {
   "property": "C01",
   "status": "proved",
   "theorems": [
    "cursor_read_exact_or_unmoved",
    "cursor_read_int_exact_or_unmoved"
   ],
   "note": ""
  },
  {
   "property": "C02",
   "status": "partial",
   "theorems": [
    "peek_at_partial",
    "peek_at_restores_refuted"
   ],
   "note": "peek_at with a non-zero offset does not rewind when the peek fails, so the full claim is false; the success path and offset 0 are proved"
  },
  {
   "property": "C03",
   "status": "partial",
   "theorems": [
    "writer_history_partial",
    "writer_std_slice_partial",
    "writer_history_refuted"
   ],
   "note": "false for a std slice sink (failing write_all stores uncounted bytes); proved for Vec and the no_std slice sink for all histories, and for the std slice sink when everything fits"
  },
  {
   "property": "C04",
   "status": "proved",
   "theorems": [
    "write_then_read_int"
   ],
   "note": ""
  },
  {
   "property": "C05",
   "status": "proved",
   "theorems": [
    "qoi_round_trip"
   ],
   "note": "with any trailing bytes, strict or not; layout byte comes back as 0 (sRGB), which is what the encoder writes"
  },
  {
   "property": "C06",
   "status": "proved",
   "theorems": [
    "qoi_max_size_sufficient"
   ],
   "note": ""
  },
  {
   "property": "C07",
   "status": "proved",
   "theorems": [
    "qoi_decode_total"
   ],
   "note": "for all options with max_width*max_height*4 < 2^63 (the default is 2^14 x 2^14)"
  },
  {
   "property": "C08",
   "status": "proved",
   "theorems": [
    "qoi_header_limits"
   ],
   "note": ""
  },
  {
   "property": "C09",
   "status": "partial",
   "theorems": [
    "qoi_decode_into_partial",
    "qoi_decode_into_larger_refuted"
   ],
   "note": "false: a larger buffer keeps decoding into the trailer and fails; proved that the image is in the first bytes and that buffers with less than one spare pixel work"
  },
  {
   "property": "C10",
   "status": "proved",
   "theorems": [
    "png_paeth_is_spec"
   ],
   "note": ""
  },
  {
   "property": "C11",
   "status": "proved",
   "theorems": [
    "png_unfilter_inverts_filter",
    "png_unfilter_is_unique",
    "png_encoder_filters_are_spec"
   ],
   "note": "pixel sizes 1..8, rows at least one pixel long (shorter rows do not occur: width is non-zero)"
  },
  {
   "property": "C12",
   "status": "proved",
   "theorems": [
    "png_sse_equals_scalar"
   ],
   "note": "registers as lists of lanes; the portable-simd nightly variants are not modelled"
  },
  {
   "property": "C13",
   "status": "proved",
   "theorems": [
    "png_crc_is_crc32",
    "png_crc_split"
   ],
   "note": ""
  },
  {
   "property": "C14",
   "status": "proved",
   "theorems": [
    "png_round_trip"
   ],
   "note": "Any Huffman decoder: the encoder only writes stored blocks. Also covers Exif and the byte order option. Deflating more than 13421568 bytes is covered as far as the model of encode_zlib goes."
  },
  {
   "property": "C15",
   "status": "proved",
   "theorems": [
    "png_passes_partition",
    "png_interlaced_picture"
   ],
   "note": ""
  },
  {
   "property": "C16",
   "status": "proved",
   "theorems": [
    "png_expand_bits"
   ],
   "note": ""
  },
  {
   "property": "C17",
   "status": "partial",
   "theorems": [
    "png_header_partial",
    "png_header_refuted"
   ],
   "note": "Sides, limits and the depths 1, 2, 4, 8, 16 are proved for all files; the pair of depth and colour type is checked only for 16-bit palettes, so RGB with one bit is accepted, as are filter methods 1 to 4. Animation chunk readers are assumed not to change the header."
  },
  {
   "property": "C18",
   "status": "proved",
   "theorems": [
    "inflate_bits_faithful",
    "inflate_refill_guarantee"
   ],
   "note": ""
  },
  {
   "property": "C19",
   "status": "proved",
   "theorems": [
    "zlib_round_trip",
    "zlib_encoder_format",
    "zlib_decodes_stored",
    "zlib_checksum_checked",
    "encode_deflate_panics"
   ],
   "note": "the theorem holds for every behaviour of Huffman-coded blocks, which the encoder never emits; Adler-32 comes from an external crate and is its textbook definition; encode_deflate_panics records that the raw encode_deflate entry point reserves too little for more than 13421568 bytes"
  },
  {
   "property": "C20",
   "status": "proved",
   "theorems": [
    "fast_match_is_lz",
    "slow_match_is_lz",
    "match_rejects_far"
   ],
   "note": ""
  },
  {
   "property": "C21",
   "status": "partial",
   "theorems": [
    "inflate_limit_refuted",
    "inflate_limit_partial"
   ],
   "note": "the full statement is false: the limit is tested before a stored block is copied; proved for stored blocks: at most limit + 65535 bytes"
  },
  {
   "property": "C22",
   "status": "proved",
   "theorems": [
    "hdr_rle_well_formed",
    "hdr_plane_decodes",
    "hdr_plane_round_trip",
    "hdr_image_round_trip",
    "hdr_flat_round_trip",
    "hdr_decode_safe"
   ],
   "note": "whole files over RGBE bytes; the float <-> RGBE conversion is the subject of C119 and C120; files without run lengths are covered for pixels as RGBE intends them, see hdr_narrow_dark_refuted for others the encoder writes"
  },
  {
   "property": "C23",
   "status": "partial",
   "theorems": [
    "hdr_buffer_size_refuted",
    "hdr_size_bound",
    "hdr_buffer_size_partial"
   ],
   "note": "the full statement is false (128 rows of 8 incompressible pixels need more); the true worst case is proved, and sufficiency for flat images and for images with few enough rows"
  },
  {
   "property": "C24",
   "status": "partial",
   "theorems": [
    "ppm_round_trip_refuted",
    "ppm_round_trip_silent_refuted",
    "ppm_round_trip_partial",
    "ppm_encode_float_panics"
   ],
   "note": "the full statement is false: white space or '#' as first stored byte is skipped with the header; proved for all other images"
  },
  {
   "property": "C25",
   "status": "partial",
   "theorems": [
    "farbfeld_round_trip_refuted",
    "farbfeld_decode_never",
    "farbfeld_round_trip_partial"
   ],
   "note": "the full statement is false: decode rejects every non-empty image; proved: the file is correct and its header and samples are read back by decode_into given a double-size sink and trailing bytes"
  },
  {
   "property": "C26",
   "status": "proved",
   "theorems": [
    "bmp_rle_safe"
   ],
   "note": ""
  },
  {
   "property": "C27",
   "status": "proved",
   "theorems": [
    "bmp_field_replicates",
    "bmp_field_range",
    "bmp_field_wide",
    "bmp_field_safe"
   ],
   "note": "also wider masks (top eight bits) and arbitrary masks (no panic)"
  },
  {
   "property": "C28",
   "status": "partial",
   "theorems": [
    "channel_push_outside_refuted",
    "channel_stale_layout_refuted",
    "channel_bytes_lost_refuted",
    "channel_empty_refuted",
    "channel_history_partial",
    "channel_within_capacity",
    "channel_clone_equal",
    "frame_clone_equal",
    "channel_extend_wrong_type"
   ],
   "note": "False: growing twice passes a stale layout to the allocator, a byte pushed at capacity one is written outside, empty channels request zero bytes (all refuted). Proved: exactly which histories are sound and that those behave as a vector."
  },
  {
   "property": "C29",
   "status": "partial",
   "theorems": [
    "deinterleave_wide_roundtrip",
    "deinterleave_u8_roundtrip_partial",
    "flatten_deinterleave",
    "deinterleave_refuses"
   ],
   "note": "Proved for all samples of other types, and for 8-bit samples on CPUs where the dispatched routine is supported; missing: 8-bit images on CPUs where the wrong vector routine is dispatched (see C30), for which behaviour is undefined."
  },
  {
   "property": "C30",
   "status": "partial",
   "theorems": [
    "vector_split_refuted",
    "vector_split_partial",
    "vector_split_undefined",
    "sse41_four_channels_refuted"
   ],
   "note": "False: the four-channel dispatch picks an AVX2 routine when only SSE4.1 is present, and the (unreachable) SSE4.1 routine loads from the wrong offsets. Proved: on every CPU supporting the routine picked, the result is that of the scalar routine for all lengths."
  },
  {
   "property": "C31",
   "status": "partial",
   "theorems": [
    "argb_roundtrip_refuted",
    "layout_conversion_partial",
    "layout_roundtrip_partial"
   ],
   "note": "False when ARGB is the source: the channels are rotated the wrong way. Proved for RGB, RGBA, BGR, BGRA and to ARGB."
  },
  {
   "property": "C32",
   "status": "proved",
   "theorems": [
    "depth_8_16_8_lossless",
    "depth_16_8_values"
   ],
   "note": "Single precision arithmetic by the executable IEEE specification in the standard library."
  },
  {
   "property": "C33",
   "status": "proved",
   "theorems": [
    "flop_mirrors_rows",
    "vertical_flip_reverses_rows",
    "flip_does_both",
    "flips_involutive"
   ],
   "note": ""
  },
  {
   "property": "C34",
   "status": "partial",
   "theorems": [
    "transpose_small_refuted",
    "transpose_partial",
    "transpose_twice_partial"
   ],
   "note": "false when a side is shorter than eight (panic, or samples left unwritten); proved for every width and height from eight on; the scalar routine only, not the SSE4.1 one"
  },
  {
   "property": "C35",
   "status": "partial",
   "theorems": [
    "rotate_90_places",
    "rotate_270_places",
    "rotate_90_270",
    "rotate_90_four",
    "rotate_180_refuted",
    "rotate_180_even_is_vertical_flip",
    "rotate_180_partial"
   ],
   "note": "90 and 270 degrees proved for all sizes; 180 degrees is false (even heights: it is a vertical flip; odd heights: rows misaligned), proved for images one sample wide. The float computation of the new image dimensions is not modelled"
  },
  {
   "property": "C36",
   "status": "proved",
   "theorems": [
    "crop_window",
    "crop_outside"
   ],
   "note": ""
  },
  {
   "property": "C37",
   "status": "proved",
   "theorems": [
    "pad_replicate_nearest",
    "pad_constant_centres"
   ],
   "note": "constant padding is with zeros, as in the code"
  },
  {
   "property": "C38",
   "status": "proved",
   "theorems": [
    "fastdiv_is_division"
   ],
   "note": ""
  },
  {
   "property": "C39",
   "status": "partial",
   "theorems": [
    "premultiply_refuted",
    "premultiply_partial",
    "premultiply_zero",
    "premultiply_safe",
    "unpremultiply_rounds"
   ],
   "note": "The claim that premultiplying rounds colour*alpha/max correctly is false of the code (premultiply_refuted: an opaque white sample becomes 0). Proved: what it does compute, where it agrees, safety, and the rounding of unpremultiply."
  },
  {
   "property": "C40",
   "status": "partial",
   "theorems": [
    "median_claim_refuted",
    "median_small_radius_identity",
    "median_partial",
    "kth_smallest_unique",
    "median_from_window",
    "median_constant"
   ],
   "note": "The output is proved to be the (n/2)-th smallest of the n window samples at every position (incremental histogram proved equal to the window's), which is one rank below the median; radius 0 and 1 do nothing."
  },
  {
   "property": "C41",
   "status": "partial",
   "theorems": [
    "invert_involutive",
    "threshold_to_zero_refuted",
    "threshold_documented_partial"
   ],
   "note": "Inversion is proved; thresholding follows the documentation except for the to-zero method, which is refuted."
  },
  {
   "property": "C42",
   "status": "partial",
   "theorems": [
    "mirror_documented_refuted",
    "mirror_documented_partial",
    "mirror_east_west_exchanged",
    "mirror_symmetric_idempotent"
   ],
   "note": "East and West are exchanged with respect to the documentation (proved); North and South follow it; symmetry and idempotence proved for all modes"
  },
  {
   "property": "C43",
   "status": "partial",
   "theorems": [
    "threads_schedule_independent",
    "threads_terminate",
    "threads_equal_sequential_partial",
    "threads_error_image_refuted"
   ],
   "note": "Proved for every interleaving: same channels and same reported outcome. The claim fails in one point: after an error the unthreaded version leaves later channels untouched, so the images differ (refuted); equality is proved when nothing panics (outcome) and nothing fails (image)."
  },
  {
   "property": "C44",
   "status": "proved",
   "theorems": [
    "stretch_values",
    "stretch_monotone",
    "stretch_rejects"
   ],
   "note": "Integer depths."
  },
  {
   "property": "C45",
   "status": "partial",
   "theorems": [
    "box_blur_constant_refuted",
    "box_blur_narrow_refuted",
    "box_blur_values_partial",
    "taps_inside",
    "box_blur_range_partial",
    "box_blur_constant_partial"
   ],
   "note": "False when the filter is cut to an even length (darkened image, one column never written) and for sides below 8; proved otherwise, with the exact value of every sample."
  },
  {
   "property": "C46",
   "status": "proved",
   "theorems": [
    "composite_over_rectangle",
    "composite_src_rectangle",
    "gravity_inside"
   ],
   "note": "Alpha compositing (f32) is not modelled."
  },
  {
   "property": "C47",
   "status": "partial",
   "theorems": [
    "read_or_zero_pads_partial",
    "read_or_zero_all_zero_refuted"
   ],
   "note": "the std reader keeps the bytes that were available and zeroes only the missing ones"
  },
  {
   "property": "C48",
   "status": "proved",
   "theorems": [
    "png_crc_detects_bursts"
   ],
   "note": ""
  },
  {
   "property": "C49",
   "status": "partial",
   "theorems": [
    "pfm_rows_refuted",
    "pfm_rows_partial"
   ],
   "note": "false for odd heights from 3 on; proved for even heights"
  },
  {
   "property": "C50",
   "status": "partial",
   "theorems": [
    "ppm_decode_safe_partial",
    "ppm_decode_overflow_refuted"
   ],
   "note": "proved for all limits whose product fits the address space; with larger limits the size product overflows"
  },
  {
   "property": "C51",
   "status": "partial",
   "theorems": [
    "bmp_rle8_meaning",
    "bmp_rle8_last_eol",
    "bmp_rle4_meaning_partial",
    "bmp_rle4_last_eol_refuted",
    "bmp_rle_image"
   ],
   "note": "proved for RLE8 in full and for RLE4 without a line end after the last row; with one, RLE4 decoding fails, which is proved as a counterexample"
  },
  {
   "property": "C52",
   "status": "proved",
   "theorems": [
    "bmp24_pixels",
    "bmp24_short",
    "bmp8_pixels"
   ],
   "note": ""
  },
  {
   "property": "C53",
   "status": "partial",
   "theorems": [
    "box_blur_centred_refuted",
    "box_blur_taps_partial",
    "box_blur_values_partial"
   ],
   "note": "False: the window is centred on the next column (and row). Proved: exactly which samples are averaged."
  },
  {
   "property": "C54",
   "status": "partial",
   "theorems": [
    "thread_limit_refuted",
    "thread_limit_partial",
    "thread_limit_panic_hangs_refuted",
    "threads_terminate"
   ],
   "note": "n + 1 threads can run (refuted and proved as bound); always finishes unless a worker panics, in which case a hang is proved possible."
  },
  {
   "property": "C55",
   "status": "proved",
   "theorems": [
    "frame_u16_big_endian"
   ],
   "note": ""
  },
  {
   "property": "C56",
   "status": "partial",
   "theorems": [
    "separate_lumaa_refuted",
    "separate_partial"
   ],
   "note": "False for LumaA, where colour and alpha are exchanged; proved for all other colorspaces."
  },
  {
   "property": "C57",
   "status": "partial",
   "theorems": [
    "depth_8_float_8_lossless",
    "depth_16_float_16_refuted",
    "depth_16_float_16_partial",
    "depth_converts"
   ],
   "note": "False for 16 bits (512 values come back one lower); proved for 8 bits, at most one lower for 16 bits, and well-formedness of every conversion."
  },
  {
   "property": "C58",
   "status": "partial",
   "theorems": [
    "conversion_well_formed",
    "conversion_unsupported_partial",
    "conversion_error_changes_image_refuted"
   ],
   "note": "The success part is proved for all pairs; unsupported conversions fail, but some leave the image converted halfway."
  },
  {
   "property": "C59",
   "status": "partial",
   "theorems": [
    "cmyk_u8_roundtrip_partial",
    "cmyk_wide_roundtrip_refuted"
   ],
   "note": "Exact for 8 bits (all colours checked in the kernel); false for 16 bits and floating point, where white becomes black."
  },
  {
   "property": "C60",
   "status": "partial",
   "theorems": [
    "gray_values_partial",
    "gray_vector_refuted",
    "gray_vector_values_partial"
   ],
   "note": "Proved for the scalar code (8 bits) and for 16 bits. False for the vector code, whose exact values are proved."
  },
  {
   "property": "C61",
   "status": "partial",
   "theorems": [
    "png_decodes_picture_partial",
    "png_transparent_refuted",
    "png_transparent_alpha_refuted"
   ],
   "note": "Proved below 16 bits without an added alpha channel. False for 16 bits (bytes compared in the wrong order) and lost when an alpha channel is asked for."
  },
  {
   "property": "C62",
   "status": "partial",
   "theorems": [
    "png_decodes_picture_partial",
    "png_huffman_picture_partial",
    "png_stored_picture_partial"
   ],
   "note": "Proved for every valid zlib stream in which no match takes more than 45 bits (release builds), with an added alpha channel or without; longer matches are refuted for zlib data (C70, zlib_decodes_refuted), not separately for palette files."
  },
  {
   "property": "C63",
   "status": "partial",
   "theorems": [
    "png_notes_partial",
    "png_text_refuted"
   ],
   "note": "True but for keywords of 79 bytes, the most allowed, which are dropped."
  },
  {
   "property": "C64",
   "status": "partial",
   "theorems": [
    "png_chunks_partial",
    "png_chunks_refuted"
   ],
   "note": "Proved for regular chunks; false for tRNS, gAMA and PLTE chunks of unexpected length, whose data is then read as chunks."
  },
  {
   "property": "C65",
   "status": "proved",
   "theorems": [
    "png_byte_order"
   ],
   "note": ""
  },
  {
   "property": "C66",
   "status": "partial",
   "theorems": [
    "png_strip_partial",
    "png_strip_refuted"
   ],
   "note": "True in big-endian order; in little-endian order the low bytes are returned."
  },
  {
   "property": "C67",
   "status": "partial",
   "theorems": [
    "png_decodes_picture_partial",
    "png_huffman_picture_partial",
    "png_stored_picture_partial",
    "png_add_alpha_refuted"
   ],
   "note": "Proved for every valid zlib stream in which no match takes more than 45 bits (release builds, see C70). Without 16-bit transparency and without an alpha channel added below eight bits, for which it is false."
  },
  {
   "property": "C68",
   "status": "partial",
   "theorems": [
    "png_checksum_partial",
    "png_checksum_refuted"
   ],
   "note": "Proved for files of regular chunks (see C64). Refuted in general: an end chunk hidden in a transparency chunk that is too long ends the file, and a wrong checksum after it is not noticed."
  },
  {
   "property": "C69",
   "status": "partial",
   "theorems": [
    "png_notes_partial",
    "png_time_refuted"
   ],
   "note": "Month, day, hour, minute and second are reduced modulo 13, 32, 24, 60, 61, so times in range only."
  },
  {
   "property": "C70",
   "status": "partial",
   "theorems": [
    "zlib_decodes_partial",
    "match_48",
    "zlib_decodes_refuted",
    "zlib_debug_refuted",
    "zlib_debug_right",
    "png_huffman_picture_partial"
   ],
   "note": "Proved for release builds and every stream in which no match takes more than 45 bits (the format allows 48). False beyond: a valid stream with a 46-bit match after an 11-bit literal makes both kinds of build panic; debug builds also panic on some streams with shorter matches near the end of the input."
  },
  {
   "property": "C71",
   "status": "proved",
   "theorems": [
    "literal_codes_accepted",
    "distance_codes_accepted",
    "length_codes_accepted"
   ],
   "note": ""
  },
  {
   "property": "C72",
   "status": "proved",
   "theorems": [
    "builds_agree",
    "zlib_debug_right"
   ],
   "note": ""
  },
  {
   "property": "C73",
   "status": "partial",
   "theorems": [
    "raw_deflate_decodes_partial",
    "raw_deflate_refuted"
   ],
   "note": "Proved with at least four bytes behind the stream and matches of at most 45 bits. False without bytes behind it: a stream flushed by the zlib library (an empty stored block near the end) is reported as corrupt."
  },
  {
   "property": "C74",
   "status": "partial",
   "theorems": [
    "idct_same_samples_partial",
    "idct_avx2_same_samples_partial",
    "idct_same_samples_refuted"
   ],
   "note": "The AVX2 and the portable routine agree for all coefficients. The shortcuts agree with them if a block with nothing but its first coefficient has it between -65536 and 65535 (false outside; a decoded product of difference and quantisation value can be larger in files that are not sensible). NEON is not modelled."
  },
  {
   "property": "C75",
   "status": "proved",
   "theorems": [
    "blocks_independent",
    "blocks_same",
    "idct_writes_square"
   ],
   "note": ""
  },
  {
   "property": "C76",
   "status": "proved",
   "theorems": [
    "ycbcr_row_colours",
    "ycbcr_row_same"
   ],
   "note": "NEON is not modelled."
  },
  {
   "property": "C77",
   "status": "partial",
   "theorems": [
    "luma_rows",
    "cmyk_row_colours_partial",
    "ycck_row_colours_partial",
    "ycck_rgba_refuted",
    "cmyk_rgba_refuted",
    "two_band_rgb_refuted"
   ],
   "note": "Proved for grayscale input and for CMYK and YCCK to RGB. False for RGBA output: of a YCCK image the last quarter of each row ignores the black channel, of a CMYK image the pixels are written three bytes apart and alpha is never set. A two-component image asked for as RGB is written as pairs."
  },
  {
   "property": "C78",
   "status": "proved",
   "theorems": [
    "subsampled_image",
    "flat_image"
   ],
   "note": "From the samples after the inverse transform to the bytes of the picture. Grayscale output and components with different factors in a vertically subsampled image (other than none, vertical or both) are outside the theorems."
  },
  {
   "property": "C79",
   "status": "proved",
   "theorems": [
    "row_doubled",
    "rows_blended",
    "image_same_bytes"
   ],
   "note": "NEON and portable_simd are not modelled."
  },
  {
   "property": "C80",
   "status": "proved",
   "theorems": [
    "tables_accepted"
   ],
   "note": ""
  },
  {
   "property": "C81",
   "status": "partial",
   "theorems": [
    "blocks_decoded_partial",
    "dc_product_refuted"
   ],
   "note": "Proved whenever the products of DC values and quantisers fit 32 bits. False beyond that: two DC differences of 32767 with a quantiser of 65535 panic in a debug build (the coefficients are out of the range the standard allows, but nothing refuses them)."
  },
  {
   "property": "C82",
   "status": "partial",
   "theorems": [
    "scan_decoded_partial",
    "separate_scans_rows_refuted",
    "separate_scans_restart_refuted",
    "separate_scans_order_refuted"
   ],
   "note": "Proved for a scan that ends with EOI and holds all components. False for components in separate scans: rows are dropped when the next SOS marker has been read ahead, a restart interval that ends with the scan gives an error, and the blocks of a subsampled component are taken in the wrong order."
  },
  {
   "property": "C83",
   "status": "partial",
   "theorems": [
    "scan_any_bytes_partial",
    "dc_product_refuted"
   ],
   "note": "Proved for release builds; a debug build panics on some corrupt data. Header parsing between scans is not modelled."
  },
  {
   "property": "C84",
   "status": "proved",
   "theorems": [
    "picture_decoded"
   ],
   "note": "From the entropy-coded bytes to the pixels; the parsing of the headers is not part of it."
  },
  {
   "property": "C85",
   "status": "partial",
   "theorems": [
    "headers_decoded_partial",
    "next_scan_decoded_partial",
    "app14_refuted",
    "app0_refuted"
   ],
   "note": "Proved for files without APP14 segments that are not Adobe's and without APP0 segments of exactly four bytes. Such segments swallow bytes of what follows, and the tables after them are lost (refuted)."
  },
  {
   "property": "C86",
   "status": "partial",
   "theorems": [
    "colours_decoded_partial",
    "colours_refuted"
   ],
   "note": "Proved wherever the Adobe segment is, except for grayscale files with it after the frame header; one such file is refused in strict mode and has samples without a meaning otherwise (refuted)."
  },
  {
   "property": "C87",
   "status": "partial",
   "theorems": [
    "icc_profile_partial",
    "icc_profile_refuted"
   ],
   "note": "Proved for up to 254 chunks. A profile of 255 chunks, the largest legal number, is dropped (refuted)."
  },
  {
   "property": "C88",
   "status": "proved",
   "theorems": [
    "headers_total",
    "next_scan_total"
   ],
   "note": "The 20 MB limit on peeking is not modelled: segments are below 64 kB."
  },
  {
   "property": "C89",
   "status": "partial",
   "theorems": [
    "progressive_picture_partial",
    "restart_interval_refuted",
    "refinement_table_refuted",
    "long_symbol_refuted"
   ],
   "note": "Proved for files where no restart interval divides the number of MCUs of a scan before another one, headers of DC refinements name an existing table, and the first scan has no symbol of more than 24 bits; without one of these the file is refused or scans are lost (refuted). Colours other than YCbCr are not covered."
  },
  {
   "property": "C90",
   "status": "partial",
   "theorems": [
    "baseline_picture_partial",
    "wide_picture_refuted",
    "wide_pictures_alike"
   ],
   "note": "Proved for sides up to 65528 when there is no subsampling (any size otherwise). Above that a debug build panics, and a release build decodes nothing (refuted). Files with several scans: see C82."
  },
  {
   "property": "C91",
   "status": "partial",
   "theorems": [
    "same_picture_partial"
   ],
   "note": "Under the conditions of C89 and C90, on the same processor."
  },
  {
   "property": "C92",
   "status": "partial",
   "theorems": [
    "psd_rle_partial",
    "gray_channels_refuted",
    "cmyk_refuted"
   ],
   "note": "Proved for RGB with three or four channels and for gray with one. A gray file with further channels decodes its table of row lengths as pixels, and the black of CMYK files is taken for opacity (refuted)."
  },
  {
   "property": "C93",
   "status": "partial",
   "theorems": [
    "psd_plain_partial",
    "psd_plain_refuted",
    "psd_deep_partial",
    "psd_deep_refuted"
   ],
   "note": "8 bits: proved for gray; an RGB file gives a third of its samples at wrong places (refuted). 16 bits: decode_raw is right, decode swaps the bytes of every sample on little-endian machines (refuted). 16 bits with opacity is not covered."
  },
  {
   "property": "C94",
   "status": "partial",
   "theorems": [
    "psd_total",
    "psd_image_total_partial",
    "psd_image_refuted"
   ],
   "note": "zune-psd itself never panics (proved in full). zune-image panics on an RGB file with fewer than three channels (refuted); proved when the number of channels fits."
  },
  {
   "property": "C95",
   "status": "proved",
   "theorems": [
    "psd_matte"
   ],
   "note": "8 bits a sample. Checked for all pairs with the IEEE specification of the standard library, for every stored value in unmatte_straight."
  },
  {
   "property": "C96",
   "status": "partial",
   "theorems": [
    "statistics_of_window",
    "mean_partial",
    "mean_refuted",
    "contrast_is_black",
    "contrast_refuted"
   ],
   "note": "Minimum, maximum and gradient: proved in full. Mean: proved while the 32-bit sum cannot overflow (16-bit samples: radius up to 127), refuted beyond. Contrast: the integer quotient is 0 or computed from a wrapped sum (refuted)."
  },
  {
   "property": "C97",
   "status": "partial",
   "theorems": [
    "edges_refuted",
    "edges16_refuted",
    "sobel_partial",
    "scharr_partial",
    "edges8_fit",
    "flat_has_no_edges",
    "flat_float_refuted"
   ],
   "note": "The matrices used differ from the documented ones in one entry (refuted). Proved: the value with the matrices used, and the documented one where the two bottom right samples agree, while the squares fit 32 bits, which 8-bit samples always do. Strong 16-bit edges overflow (refuted). Flat pictures become black, but not in floating point (refuted)."
  },
  {
   "property": "C98",
   "status": "partial",
   "theorems": [
    "convolve_whole_weights",
    "convolve_accurate",
    "convolve_identity",
    "convolve_bad_length",
    "convolve_average_refuted"
   ],
   "note": "Exact for whole weights with scale 1 and sums below 2^24; for all finite weights of moderate size and scales up to 1 the sum is right to half a level before it is cut. The cut makes a flat picture darker with weights 1/9 (refuted)."
  },
  {
   "property": "C99",
   "status": "proved",
   "theorems": [
    "brighten_accurate",
    "brighten_exact",
    "brighten_ends",
    "brighten_monotone"
   ],
   "note": "Finite amounts. Error at most 1/64 level before the cut; none if the amount is a whole number of levels."
  },
  {
   "property": "C100",
   "status": "partial",
   "theorems": [
    "exposure_accurate",
    "exposure_neutral",
    "exposure_monotone",
    "exposure_default_refuted",
    "contrast_neutral",
    "contrast_monotone"
   ],
   "note": "Exposure is accurate to 1/8 level for factors up to 8. The documented default exposure 0 turns everything black (refuted). Contrast: monotone for a finite factor that is not negative, neutral at 0; only 8 bits exist."
  },
  {
   "property": "C101",
   "status": "partial",
   "theorems": [
    "blend_mixes",
    "blend_ends",
    "blend_above_one_refuted",
    "blend_itself_refuted"
   ],
   "note": "Proved for alpha up to 1. Above 1 the samples are still mixed, and a picture blended with itself may lose a level (both refuted)."
  },
  {
   "property": "C102",
   "status": "partial",
   "theorems": [
    "gamma_monotone",
    "gamma_range",
    "gamma_ends",
    "gamma_bright",
    "gamma_neutral_partial",
    "gamma_neutral_refuted"
   ],
   "note": "For every power function with the stated properties. Gamma 1 is neutral at 8 bits; at 16 bits it changes samples such as 257 (refuted)."
  },
  {
   "property": "C103",
   "status": "partial",
   "theorems": [
    "matrix_accurate",
    "matrix_exact",
    "matrix_identity",
    "matrix_slice",
    "matrix_inversion_refuted"
   ],
   "note": "Accurate to half a level, exact for whole entries. The documented inversion matrix does not invert blue and loses the opacity (refuted)."
  },
  {
   "property": "C104",
   "status": "partial",
   "theorems": [
    "hsv_neutral_partial",
    "hsv_neutral_refuted",
    "hsv_gray",
    "hsv_negative_refuted"
   ],
   "note": "The neutral setting keeps red and green; blue may lose 1/499 of the range (refuted for white). Gray and black for saturation 0 proved; negative lightness with saturation 1 may give colours (refuted)."
  },
  {
   "property": "C105",
   "status": "partial",
   "theorems": [
    "bmp_file_24",
    "bmp_file_32",
    "bmp_file_32_masks",
    "bmp_file_8",
    "bmp_file_rle",
    "bmp_file_16_partial",
    "bmp_file_16_masks_partial",
    "bmp_file_small_partial",
    "bmp_tiny_refuted",
    "bmp_16_refuted",
    "bmp_small_padding_refuted",
    "bmp_gray_refuted",
    "bmp_bgra_masks_refuted",
    "bmp_bgra_16_refuted",
    "bmp_rle_down_refuted",
    "bmp_os2_refuted"
   ],
   "note": "24, 32, 8 bits and run lengths: every size. 16 bits only if the row length equals the one computed from the height, 1, 2 and 4 bits only if rows have no padding (otherwise refuted). Refuted too: very small files, 8 bits without palette, blue first with masks or 16 bits, run lengths stored from the top, headers of 16 bytes."
  },
  {
   "property": "C106",
   "status": "partial",
   "theorems": [
    "bmp_file_safe",
    "bmp_bgra_masks_refuted",
    "bmp_bgra_16_refuted"
   ],
   "note": "Proved for the usual order of channels. With preserve_bgra the decoder panics on ordinary 16- and 32-bit files with debug assertions (refuted)."
  },
  {
   "property": "C107",
   "status": "partial",
   "theorems": [
    "bmp_header",
    "bmp_profile",
    "bmp_52_refuted"
   ],
   "note": "Masks for headers of 40, 56, 108 and 124 bytes, primaries for 108 and 124. With 52 bytes the pixels are taken for a mask and primaries (refuted)."
  },
  {
   "property": "C108",
   "status": "partial",
   "theorems": [
    "apng_source_partial",
    "apng_over_partial",
    "apng_background_refuted",
    "apng_previous_refuted",
    "apng_over_alpha_refuted"
   ],
   "note": "Proved for frames that stay (dispose operation none): every animation of replacing frames, and frames laid over an opaque canvas with gamma 1. Background and previous are carried out before the frame instead of after it, background everywhere instead of in its region (refuted)."
  },
  {
   "property": "C109",
   "status": "partial",
   "theorems": [
    "apng_over_partial",
    "apng_over_clear",
    "apng_over_opaque_colours",
    "apng_over_alpha_refuted"
   ],
   "note": "Gamma 1: the exact mixture, rounded to the nearest integer. Any gamma: transparent and opaque pixels, for every power function that undoes the correction. The opacity of the canvas is never updated (refuted)."
  },
  {
   "property": "C110",
   "status": "partial",
   "theorems": [
    "apng_safe_partial",
    "apng_panic_refuted"
   ],
   "note": "Proved for frames that are not empty and OVER with opacity; an empty frame, or OVER for a picture without opacity, panics (refuted)."
  },
  {
   "property": "C111",
   "status": "partial",
   "theorems": [
    "apng_frames_partial",
    "apng_huffman_frames_partial",
    "apng_chunk_between_refuted",
    "apng_strip_refuted",
    "apng_interlaced_refuted",
    "apng_past_end_refuted"
   ],
   "note": "Proved for every file whose frame data follows its control chunk at once, without reduction of 16 bits to 8, and with interlaced frames as wide as the image; in each other case pixels or frames are lost (refuted). decode (not decode_raw) appends zeros up to the size of the image. The requests excluded for still pictures (C62) are excluded here too."
  },
  {
   "property": "C112",
   "status": "partial",
   "theorems": [
    "apng_codec_partial",
    "apng_codec_default_refuted",
    "apng_codec_previous_refuted",
    "apng_codec_sixteen_refuted"
   ],
   "note": "Proved for frames that replace what is below and stay. A default image outside the animation is shown as a frame, the dispose operation previous is ignored, 16 bits are refused (all refuted); background: see C108."
  },
  {
   "property": "C113",
   "status": "partial",
   "theorems": [
    "gzip_decodes_partial",
    "gzip_members_refuted",
    "gzip_long_match_refuted"
   ],
   "note": "Proved for release builds and the first member (less than 4 GiB of data, no match over 45 bits, as for zlib in C70), followed by anything. Of a file with several members only the first is returned, without an error (refuted); longer matches crash (refuted)."
  },
  {
   "property": "C114",
   "status": "proved",
   "theorems": [
    "gzip_header_total",
    "gzip_trailer_checked",
    "gzip_builds_agree"
   ],
   "note": "That the returned vector consists of bytes is its Rust type."
  },
  {
   "property": "C115",
   "status": "partial",
   "theorems": [
    "auto_orient_partial",
    "auto_orient_refuted",
    "rotate_common_sizes_refuted"
   ],
   "note": "Proved for orientations 1, 2 and 4 always, for 5 when both sides are at least 8, for 6 to 8 with 8-bit samples and sides close enough that the inexact cosine does not count, for 3 with width 1. Elsewhere refuted: 3 gives a wrong picture or panics, 5 panics or gives wrong samples, 6 to 8 are refused (for example every 1920 by 1080 picture, and every picture of more than 8 bits)."
  },
  {
   "property": "C116",
   "status": "proved",
   "theorems": [
    "auto_orient_idempotent",
    "auto_orient_keeps"
   ],
   "note": "Sine and cosine are arbitrary here."
  },
  {
   "property": "C117",
   "status": "partial",
   "theorems": [
    "pipeline_processes_partial",
    "pipeline_images_refuted",
    "pipeline_retry_refuted"
   ],
   "note": "Proved for a new pipeline with a decoder. Images given without a decoder are never processed, an error is reported instead (refuted). After an error in a later image a second run reports success without processing it (refuted)."
  },
  {
   "property": "C118",
   "status": "proved",
   "theorems": [
    "pipeline_ends"
   ],
   "note": "Decoders and operations are assumed to return."
  },
  {
   "property": "C119",
   "status": "partial",
   "theorems": [
    "hdr_samples_partial",
    "hdr_exponent_refuted"
   ],
   "note": "Exact for exponents 97 to 159 and zero. For others refuted: the shift is reduced modulo 32, so exponents 96 and 160 give the value of 128."
  },
  {
   "property": "C120",
   "status": "partial",
   "theorems": [
    "hdr_floats_pixelwise",
    "hdr_dark_refuted",
    "hdr_narrow_dark_refuted"
   ],
   "note": "Proved: what is read back is the conversion there and back of each pixel by itself, for every exp2. The precision is refuted: the encoder's floor is wrong for negative logarithms, so 0.003 is written as black; and a two pixel wide picture of 0.05 is written as bytes the decoder takes for run lengths and refuses. No accuracy bound is proved for brighter colours."
  },
  {
   "property": "C121",
   "status": "proved",
   "theorems": [
    "saved_files_recognised"
   ],
   "note": "Exif fields are not written in the model (they come from another crate)."
  },
  {
   "property": "C122",
   "status": "partial",
   "theorems": [
    "saved_pictures_open_partial",
    "saved_ppm_refuted",
    "farbfeld_files_never_open"
   ],
   "note": "Proved for QOI and PNG, and for PPM unless the first byte stored is white space or '#'; refuted for such PPM files (one fails to open) and for Farbfeld (no saved file opens). Processors are those of C30."
  },
  {
   "property": "C123",
   "status": "partial",
   "theorems": [
    "saved_colours_survive_partial",
    "mark_is_lost",
    "png_drops_alpha_refuted",
    "premultiplied_refuted"
   ],
   "note": "Proved for RGB, BGR and RGBA in all three formats and BGRA in QOI. Refuted: PNG and PPM drop the alpha channel of BGRA; a picture marked as multiplied by alpha is saved unchanged, so it comes back with multiplied colours and no mark. ARGB is spoilt by conversion (C31)."
  },
  {
   "property": "C124",
   "status": "proved",
   "theorems": [
    "resize_accurate",
    "resize_accurate8",
    "resize_wide_refuted"
   ],
   "note": "The picture is marked linear and has no alpha, so nothing is put around the resizing. Beyond the limit on the sides the claim fails: one pixel stretched to 16777215 in a row reads past the end (resize_wide_refuted)."
  },
  {
   "property": "C125",
   "status": "partial",
   "theorems": [
    "resize_between_neighbours_partial",
    "resize_flat_partial",
    "resize_flat_refuted"
   ],
   "note": "Proved up to one step: never brighter, at most one step darker. The step is real (resize_flat_refuted): the weights add up to slightly less than one and the result is cut, not rounded."
  },
  {
   "property": "C126",
   "status": "partial",
   "theorems": [
    "resize_power_of_two_partial",
    "resize_same_refuted"
   ],
   "note": "Proved if the new sides are powers of two dividing the old ones. Refuted otherwise: a ramp of 41 pixels resized to 41 pixels becomes one step darker."
  },
  {
   "property": "C127",
   "status": "proved",
   "theorems": [
    "jxl_file_reads_back",
    "jxl_wide_refuted"
   ],
   "note": "The contents of the sections are arbitrary here (the compression of pixels is not modelled); each section is at most 8 * (2^30 + 4211711) bits, the most its entry in the table can say. Writing goes to a vector. Larger sides are not refused but panic (jxl_wide_refuted)."
  },
  {
   "property": "C128",
   "status": "partial",
   "theorems": [
    "jxl_alpha_depth_partial",
    "jxl_alpha_depth_refuted"
   ],
   "note": "Proved for 8 bits and for pictures without alpha. With 16 bits the alpha channel is announced with 8 (refuted)."
  },
  {
   "property": "C129",
   "status": "proved",
   "theorems": [
    "jxl_bits_stored"
   ],
   "note": ""
  },
  {
   "property": "C130",
   "status": "proved",
   "theorems": [
    "jxl_hybrid_recovered",
    "jxl_signed_recovered"
   ],
   "note": ""
  },
  {
   "property": "C131",
   "status": "proved",
   "theorems": [
    "skip_and_rewind"
   ],
   "note": "For the in-memory cursor, as in the other stream properties. Amounts are below 2^63."
  },
  {
   "property": "C132",
   "status": "partial",
   "theorems": [
    "gaussian_range_partial",
    "gaussian_flat_partial",
    "gaussian_flat_refuted",
    "gaussian_narrow_refuted"
   ],
   "note": "Proved for sides of at least 8 and filters that fit the picture or are cut to an odd length, with any square root. A filter cut to an even length darkens a flat picture, and a short side panics (both refuted)."
  },
  {
   "property": "C133",
   "status": "partial",
   "theorems": [
    "gaussian_values_partial",
    "gaussian_three_odd_boxes",
    "gaussian_spread_refuted"
   ],
   "note": "What is computed is proved under the same conditions; three odd boxes for every deviation. The deviation itself is wrong: widths are used as radii, so that deviation 1 gives 3.5, and the picture moves by three pixels (refuted)."
  },
  {
   "property": "C134",
   "status": "partial",
   "theorems": [
    "unsharpen_partial",
    "unsharpen_flat_partial",
    "unsharpen_dark_refuted",
    "unsharpen_wrap_refuted"
   ],
   "note": "Proved for samples not darker than their blurred version, with 16 bits also not too bright; darker samples stay as they are with 16 bits. With 8 bits darker samples become white and with 16 bits sums wrap (both refuted)."
  },
  {
   "property": "C135",
   "status": "proved",
   "theorems": [
    "gif_headers_read",
    "gif_headers_reject",
    "gif_headers_short",
    "gif_headers_limits",
    "gif_headers_once"
   ],
   "note": "Colours missing at the end of the file count as black; see C137."
  },
  {
   "property": "C136",
   "status": "proved",
   "theorems": [
    "gif_buffer_safe",
    "gif_small_buffer"
   ],
   "note": ""
  },
  {
   "property": "C137",
   "status": "partial",
   "theorems": [
    "gif_headers_read",
    "gif_blank_refuted",
    "gif_truncated_table_refuted"
   ],
   "note": "Only the headers are read. Pixels are not decoded at all: every file gives transparent black, and a table of colours cut off by the end of the file is accepted (both refuted)."
  },
  {
   "property": "C138",
   "status": "partial",
   "theorems": [
    "bilateral_range_partial",
    "bilateral_flat_partial",
    "bilateral_small_refuted"
   ],
   "note": "Proved for diameters of at least 3 and every way of averaging that stays between the samples (the arithmetic in double precision is a parameter). Diameters 1 and 2 panic on every picture (refuted)."
  },
  {
   "property": "C139",
   "status": "partial",
   "theorems": [
    "bilateral_value_partial",
    "bilateral_value_refuted"
   ],
   "note": "What is computed is proved for diameters of at least 3 and any arithmetic. It is not the circle: its weights are applied to the first samples of the square window, and differences are taken from the sample behind the centre (refuted)."
  },
  {
   "property": "C140",
   "status": "partial",
   "theorems": [
    "affine_safe",
    "affine_shows_partial",
    "affine_identity_white",
    "affine_identity_refuted"
   ],
   "note": "No reads outside of the picture and a result of the announced size, for every transform and sides up to 2^24. The samples: proved in the rounded arithmetic for transforms with whole entries from -4 to 4 and determinant 1 or -1, shifts and sides up to 65536, with the last column and row of the picture left out. These become white even under the identity (refuted). Fractional entries are missing."
  },
  {
   "property": "C141",
   "status": "partial",
   "theorems": [
    "affine_then_partial",
    "affine_inverse_partial",
    "affine_flat_refused",
    "affine_then_order_refuted"
   ],
   "note": "Proved for whole entries and points of bounded size. The order is reversed: a.then(b) applies b first (refuted as written)."
  },
  {
   "property": "C142",
   "status": "partial",
   "theorems": [
    "sep_size",
    "sep_picture",
    "sep_flat_refuted"
   ],
   "note": "Size and range are proved, for rows and whole pictures, every kernel function and sides up to 2^20, in the rounded arithmetic. Flat rows are not kept: white becomes 254 with Catmull-Rom and Mitchell (refuted)."
  },
  {
   "property": "C143",
   "status": "partial",
   "theorems": [
    "sep_skips_refuted"
   ],
   "note": "Refuted for every kernel function and all widths: a result of n samples reads at most 2 a n samples of the row, where a is the radius."
  },
  {
   "property": "C144",
   "status": "proved",
   "theorems": [
    "sep_middle",
    "sep_middle_picture",
    "sep_interpolating"
   ],
   "note": "Rows and whole pictures, for integer samples below 2^24; Lanczos is covered only if its sine gives exact zeros, which is not modelled."
  }
 ]
}