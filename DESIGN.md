# zune-image: formal model and proofs

## Layout

* `rocq/theories/*Model.v`  – Gallina functions transcribed from `/repo`, each with a file/line citation.
* `rocq/theories/*Spec.v`   – small, independent specifications (file formats, pointwise image definitions).
* `rocq/theories/*Props.v`  – the property theorems, a concrete instance (`Example`) beside each one, and
  `Print Assumptions`.
* all other files           – lemmas (`*Proof.v` and others), and shared vocabulary: `Base`, `Loops`, `Slices`,
  `Bits` (panics as values, loops, checked slices, bit operations), `F32` (single precision), `JpegSimd`
  (vector instructions), `CrcTables` (the tables of the source), `HuffCode`, `HuffRef` (specification side only).
* `properties.jsonl`        – the property list; `MANIFEST.json` maps each to theorems.
* `seeded/LOG.jsonl`        – wrong-program experiments.

## Modelling conventions

* A byte / u16 / u32 / u64 is a `Z`; machine wrap-around is written `mod 2^n` (or `i32`, `u64`, ...) at the place
  where the code wraps; range side conditions are explicit (`bytes l`, `Forall sample l`). Lengths and indices
  (`usize`) are `nat`.
* Slices and vectors are `list`; image planes are row-major lists.
* Rust `Result::Err` is an explicit error constructor; a Rust panic (index out of range, failed `assert!`,
  arithmetic overflow in a checked build, `unwrap` on `Err`) is a separate explicit value (`Panic`), so that
  "never panics" is a theorem about the model. Array accesses are checked in the model.
* Where debug and release builds differ (overflow checks, `debug_assert!`) and the difference matters, the build is
  an argument of the model (`debug : bool`).
* Where the code picks a routine by processor feature, the choice is an argument (`avx : bool`, `level`).
* Loops are structural recursion on lists, or fuel-bounded with a distinct out-of-fuel value that theorems exclude.
* When the claim a user relies on is false of the code, the file contains a theorem ending in `_refuted`
  (a concrete input for which the model, like the code, violates the claim) and the strongest restricted
  claim that is true, ending in `_partial`.
* Parts that are left open are arguments of the model over which the theorems quantify (for example the parsers of
  the animation chunks of PNG, or the float arithmetic of HSL and HSV).

## Trusted base

* Coq 8.16.1's kernel, including `vm_compute`.
* Axioms: `Print Assumptions` says "Closed under the global context" for every theorem named in MANIFEST.json; no
  axioms are used, not even those of the standard library. The command stands beside each theorem in the `*Props.v`
  files, and its output is part of the build log.
* The hand transcription of Rust into Gallina (citations are given so that it can be reviewed line by line).
* The specifications: of file formats (QOI, PNG, zlib/deflate, Radiance HDR, PNM, BMP files, JPEG headers, baseline and progressive scans),
  and pointwise definitions of image operations.
* Meaning of what is not in the repository: the `simd_adler32` crate (taken as RFC 1950's checksum), the vector
  instructions (`JpegSimd.v` and the lanes in `PngFilterModel.v`, `DeintModel.v`, `PngRowModel.v`, `ColorModel.v`:
  Intel's reference), the allocator's contract in `ChannelModel.v` (the standard library's documentation), IEEE
  single precision (`F32.v`, the standard library's `SpecFloat`, round to nearest even), scoped threads
  (`ThreadModel.v`).

## What is modelled

| crate | modelled | not modelled |
|---|---|---|
| zune-core | in-memory reader and writers, with the std feature (`StreamModel`) | files as sources, no_std build, options beyond those used by the codecs |
| zune-qoi | complete encoder and decoder (`QoiModel`) | running out of memory |
| zune-png | chunk layer, all still-image chunks, both entry points, un-filters (scalar and SSE), pixel expansion, interlacing, encoder, animation chunks and frames, their composition (`PngModel`, `PngRowModel`, `PngFilterModel`, `CrcModel`, `ApngModel`, `ApngFileModel`) | portable-simd; `powf` is a parameter |
| zune-inflate | bit reader, stored and Huffman blocks with both loops, table construction, zlib and gzip wrappers, stored-block encoder (`BitReaderModel`, `InflateModel`, `HuffModel`, `GzipModel`) | the unfinished compressing encoder (hc_matchfinder.rs) |
| zune-psd | all of the decoder, and the making of an image in zune-image (`PsdModel`) | - |
| zune-jpeg | Huffman tables, bit reader, baseline blocks, scan loop with restart markers, inverse DCT (scalar, AVX2, 4x4, DC), upsampling (scalar, AVX2), colour conversion (scalar, AVX2), the row driver, header parsing and metadata, progressive scans, whole YCbCr files (`Jpeg*Model`) | whole files of other colours or in several baseline scans, default tables of motion JPEG, NEON, portable-simd |
| zune-hdr | header text, run lengths in both directions, conversion of floats (`HdrModel`, `HdrFloatModel`) | extra user headers; `exp2` is a parameter |
| zune-ppm, zune-farbfeld | P5, P6, P7, PFM decoders, P5, P6, P7 encoder, farbfeld both ways (`PpmModel`) | - |
| zune-bmp | the decoder: headers, palettes, all depths, run lengths, masks, profiles (`BmpModel`, `BmpFileModel`) | logging, calling `decode_headers` separately, `decode_into` with a buffer of other size |
| zune-image | channel storage, de-interleaving (scalar, SSE), colour and depth conversion, the checks around operations, pipelines (`ChannelModel`, `DeintModel`, `ColorModel`, `DepthModel`, `OrientModel`), recognising formats, saving and opening QOI, PNG, PPM and Farbfeld (`ImageIoModel`) | glue of the other codecs, HSL/HSV/XYB arithmetic, metadata other than orientation and the alpha mark |
| zune-imageprocs | flips, rotation, transpose (scalar), automatic orientation, mirror, crop, pad, invert, threshold, thread runner, contrast, premultiplication, composition, integer box blur, median, spatial statistics, Sobel, Scharr, convolution, brighten, exposure, contrast, blend, gamma, colour matrix, hue/saturation (`GeomModel`, `ProcModel`, `BlurModel`, `MedianModel`, `SpatialModel`, `ToneModel`, `ThreadModel`, `OrientModel`), bilinear resizing of integer samples (`ResizeModel`), resizing of integer samples with the other kernels (`SepModel`, sine is a parameter), Gaussian blur and sharpening of integer samples (`GaussModel`), bilateral filter (`BilateralModel`, arithmetic in double precision is a parameter), affine transform of integer samples (`AffineModel`, except `rotation` by an angle); power, square root, sine and cosine are parameters | other filters, resizing of floats, SSE transpose, float variants |
| zune-jpegxl | the limiter of its threads (`ThreadModel`), both bit writers, headers, table of contents and layout of the file, splitting of numbers (`JxlModel`) | choice of codes, prediction, compression of the pixels |
| zune-gif | the decoder as far as it goes: headers, colours, buffers (`GifModel`) | a rectangle filler that nothing calls |
| zune-python, zune-wasm, zune-capi, zune-bin | | everything (findings from reading are below) |

Simplifications within these parts are stated in the comment of the definition. The main ones: positions in streams
are unbounded naturals; overflow of `usize` in size products is modelled where it can be reached (PNM) and left out
where dimensions are limited; the JPEG reader is the list of bytes not yet read, and the scan model stops at a marker
that the caller would parse (SOS, DHT, ...); the JPEG row driver is modelled from the samples after the inverse
transform, one MCU row at a time.

## Properties and theorems

`P` proved, `p` partial (what is missing is in the note of MANIFEST.json; where the claim is false of the code there is a `_refuted` theorem).

| id | property | | theorems |
|---|---|---|---|
| C01 | Cursor reads are exact or leave the position alone | P | `cursor_read_exact_or_unmoved`, `cursor_read_int_exact_or_unmoved` |
| C02 | Peeking never moves the stream | p | `peek_at_partial`, `peek_at_restores_refuted` |
| C03 | The writer's byte count and contents match the history of writes | p | `writer_history_partial`, `writer_std_slice_partial`, `writer_history_refuted` |
| C04 | Integers written by the writer are read back by the reader | P | `write_then_read_int` |
| C05 | QOI round trip is lossless | P | `qoi_round_trip` |
| C06 | QOI worst-case size is an upper bound | P | `qoi_max_size_sufficient` |
| C07 | QOI decoder is total on arbitrary bytes | P | `qoi_decode_total` |
| C08 | QOI decoder enforces its limits | P | `qoi_header_limits` |
| C09 | QOI decode_into accepts any sufficiently large buffer | p | `qoi_decode_into_partial`, `qoi_decode_into_larger_refuted` |
| C10 | Paeth predictor equals the PNG specification | P | `png_paeth_is_spec` |
| C11 | PNG un-filtering inverts the PNG specification's filters | P | `png_unfilter_inverts_filter`, `png_unfilter_is_unique`, `png_encoder_filters_are_spec` |
| C12 | SIMD un-filters compute the same bytes as the scalar ones | P | `png_sse_equals_scalar` |
| C13 | PNG CRC is the standard CRC-32 | P | `png_crc_is_crc32`, `png_crc_split` |
| C14 | PNG round trip is lossless | P | `png_round_trip` |
| C15 | Adam7 de-interlacing touches each pixel exactly once | P | `png_passes_partition`, `png_interlaced_picture` |
| C16 | Sub-byte PNG samples are unpacked correctly | P | `png_expand_bits` |
| C17 | PNG header limits are enforced | p | `png_header_partial`, `png_header_refuted` |
| C18 | Deflate bit reader presents the bit stream faithfully | P | `inflate_bits_faithful`, `inflate_refill_guarantee` |
| C19 | zlib round trip is lossless | P | `zlib_round_trip`, `zlib_encoder_format`, `zlib_decodes_stored`, `zlib_checksum_checked`, `encode_deflate_panics` |
| C20 | Match copies follow LZ77 semantics | P | `fast_match_is_lz`, `slow_match_is_lz`, `match_rejects_far` |
| C21 | Inflate output limit | p | `inflate_limit_refuted`, `inflate_limit_partial` |
| C22 | HDR run-length scanlines round trip | P | `hdr_rle_well_formed`, `hdr_plane_decodes`, `hdr_plane_round_trip`, `hdr_image_round_trip`, `hdr_flat_round_trip`, `hdr_decode_safe` |
| C23 | HDR encoder's published buffer size suffices | p | `hdr_buffer_size_refuted`, `hdr_size_bound`, `hdr_buffer_size_partial` |
| C24 | PPM/PAM round trip is lossless | p | `ppm_round_trip_refuted`, `ppm_round_trip_silent_refuted`, `ppm_round_trip_partial`, `ppm_encode_float_panics` |
| C25 | Farbfeld round trip is lossless | p | `farbfeld_round_trip_refuted`, `farbfeld_decode_never`, `farbfeld_round_trip_partial` |
| C26 | BMP run-length decoding is safe and total | P | `bmp_rle_safe` |
| C27 | BMP bit-field scaling maps full range to full range | P | `bmp_field_replicates`, `bmp_field_range`, `bmp_field_wide`, `bmp_field_safe` |
| C28 | Image channel storage behaves as a byte vector | p | `channel_push_outside_refuted`, `channel_stale_layout_refuted`, `channel_bytes_lost_refuted`, `channel_empty_refuted`, `channel_history_partial`, `channel_within_capacity`, `channel_clone_equal`, `frame_clone_equal`, `channel_extend_wrong_type` |
| C29 | De-interleave then flatten is the identity | p | `deinterleave_wide_roundtrip`, `deinterleave_u8_roundtrip_partial`, `flatten_deinterleave`, `deinterleave_refuses` |
| C30 | Vectorised de-interleave equals scalar de-interleave | p | `vector_split_refuted`, `vector_split_partial`, `vector_split_undefined`, `sse41_four_channels_refuted` |
| C31 | Colorspace layout conversions round trip | p | `argb_roundtrip_refuted`, `layout_conversion_partial`, `layout_roundtrip_partial` |
| C32 | Bit-depth widening then narrowing is lossless | P | `depth_8_16_8_lossless`, `depth_16_8_values` |
| C33 | Flip, flop and vertical flip do what they say and are involutions | P | `flop_mirrors_rows`, `vertical_flip_reverses_rows`, `flip_does_both`, `flips_involutive` |
| C34 | Transpose swaps rows and columns | p | `transpose_small_refuted`, `transpose_partial`, `transpose_twice_partial` |
| C35 | Rotation by multiples of 90 degrees permutes pixels correctly | p | `rotate_90_places`, `rotate_270_places`, `rotate_90_270`, `rotate_90_four`, `rotate_180_refuted`, `rotate_180_even_is_vertical_flip`, `rotate_180_partial` |
| C36 | Crop extracts exactly the requested window | P | `crop_window`, `crop_outside` |
| C37 | Padding replicates edges | P | `pad_replicate_nearest`, `pad_constant_centres` |
| C38 | Integer division by reciprocal multiplication is exact | P | `fastdiv_is_division` |
| C39 | Alpha pre-multiplication is a correctly rounded product | p | `premultiply_refuted`, `premultiply_partial`, `premultiply_zero`, `premultiply_safe`, `unpremultiply_rounds` |
| C40 | Median filter returns the window median | p | `median_claim_refuted`, `median_small_radius_identity`, `median_partial`, `kth_smallest_unique`, `median_from_window`, `median_constant` |
| C41 | Invert and threshold act pointwise as documented | p | `invert_involutive`, `threshold_to_zero_refuted`, `threshold_documented_partial` |
| C42 | Mirror follows its documentation | p | `mirror_documented_refuted`, `mirror_documented_partial`, `mirror_east_west_exchanged`, `mirror_symmetric_idempotent` |
| C43 | Threaded channel processing is schedule independent | p | `threads_schedule_independent`, `threads_terminate`, `threads_equal_sequential_partial`, `threads_error_image_refuted` |
| C44 | Contrast stretching is monotone and full range | P | `stretch_values`, `stretch_monotone`, `stretch_rejects` |
| C45 | Blurring a constant image leaves it constant | p | `box_blur_constant_refuted`, `box_blur_narrow_refuted`, `box_blur_values_partial`, `taps_inside`, `box_blur_range_partial`, `box_blur_constant_partial` |
| C46 | Compositing copies the overlapping rectangle only | P | `composite_over_rectangle`, `composite_src_rectangle`, `gravity_inside` |
| C47 | Non-erroring reads return zeros when bytes are missing | p | `read_or_zero_pads_partial`, `read_or_zero_all_zero_refuted` |
| C48 | The PNG checksum detects every short burst error | P | `png_crc_detects_bursts` |
| C49 | PFM rows come out top to bottom | p | `pfm_rows_refuted`, `pfm_rows_partial` |
| C50 | The PNM decoder never panics and respects its limits | p | `ppm_decode_safe_partial`, `ppm_decode_overflow_refuted` |
| C51 | BMP run-length streams decode to what their commands draw | p | `bmp_rle8_meaning`, `bmp_rle8_last_eol`, `bmp_rle4_meaning_partial`, `bmp_rle4_last_eol_refuted`, `bmp_rle_image` |
| C52 | Uncompressed BMP pixels land at their place | P | `bmp24_pixels`, `bmp24_short`, `bmp8_pixels` |
| C53 | Box blur averages the window centred on each pixel | p | `box_blur_centred_refuted`, `box_blur_taps_partial`, `box_blur_values_partial` |
| C54 | Limited thread pools respect the limit and finish | p | `thread_limit_refuted`, `thread_limit_partial`, `thread_limit_panic_hangs_refuted`, `threads_terminate` |
| C55 | 16-bit serialisation is the interleaved samples | P | `frame_u16_big_endian` |
| C56 | Ignoring alpha selects exactly the colour channels | p | `separate_lumaa_refuted`, `separate_partial` |
| C57 | Integer images survive the way through floating point | p | `depth_8_float_8_lossless`, `depth_16_float_16_refuted`, `depth_16_float_16_partial`, `depth_converts` |
| C58 | Every colorspace conversion leaves a well-formed image | p | `conversion_well_formed`, `conversion_unsupported_partial`, `conversion_error_changes_image_refuted` |
| C59 | Converting to CMYK and back returns the picture | p | `cmyk_u8_roundtrip_partial`, `cmyk_wide_roundtrip_refuted` |
| C60 | Grayscale is the weighted sum of the colours on every processor | p | `gray_values_partial`, `gray_vector_refuted`, `gray_vector_values_partial` |
| C61 | Transparency chunks of PNG files are honoured | p | `png_decodes_picture_partial`, `png_transparent_refuted`, `png_transparent_alpha_refuted` |
| C62 | Palette images show the palette's colours | p | `png_decodes_picture_partial`, `png_huffman_picture_partial`, `png_stored_picture_partial` |
| C63 | Text chunks of a PNG file are returned | p | `png_notes_partial`, `png_text_refuted` |
| C64 | PNG chunks are read to their end | p | `png_chunks_partial`, `png_chunks_refuted` |
| C65 | The byte order of 16-bit PNG samples does not depend on the processor | P | `png_byte_order` |
| C66 | Stripping PNG samples to eight bits keeps the high byte | p | `png_strip_partial`, `png_strip_refuted` |
| C67 | A well-formed PNG file decodes to its picture | p | `png_decodes_picture_partial`, `png_huffman_picture_partial`, `png_stored_picture_partial`, `png_add_alpha_refuted` |
| C68 | Corrupt PNG chunks are detected when checksums are confirmed | p | `png_checksum_partial`, `png_checksum_refuted` |
| C69 | PNG gamma, time and Exif are returned | p | `png_notes_partial`, `png_time_refuted` |
| C70 | Every valid zlib stream decodes to exactly its data | p | `zlib_decodes_partial`, `match_48`, `zlib_decodes_refuted`, `zlib_debug_refuted`, `zlib_debug_right`, `png_huffman_picture_partial` |
| C71 | Code lengths are accepted exactly when they form a code | P | `literal_codes_accepted`, `distance_codes_accepted`, `length_codes_accepted` |
| C72 | Debug and release builds of inflate agree | P | `builds_agree`, `zlib_debug_right` |
| C73 | Raw DEFLATE streams decode to their data | p | `raw_deflate_decodes_partial`, `raw_deflate_refuted` |
| C74 | The inverse transform of a JPEG block does not depend on the routine chosen | p | `idct_same_samples_partial`, `idct_avx2_same_samples_partial`, `idct_same_samples_refuted` |
| C75 | JPEG blocks do not disturb each other | P | `blocks_independent`, `blocks_same`, `idct_writes_square` |
| C76 | JPEG colours are right | P | `ycbcr_row_colours`, `ycbcr_row_same` |
| C77 | Other JPEG colour spaces | p | `luma_rows`, `cmyk_row_colours_partial`, `ycck_row_colours_partial`, `ycck_rgba_refuted`, `cmyk_rgba_refuted`, `two_band_rgb_refuted` |
| C78 | Pictures with subsampled colour have the right pixels | P | `subsampled_image`, `flat_image` |
| C79 | Upsampling does not depend on the processor | P | `row_doubled`, `rows_blended`, `image_same_bytes` |
| C80 | JPEG Huffman tables | P | `tables_accepted` |
| C81 | JPEG blocks decode to their coefficients | p | `blocks_decoded_partial`, `dc_product_refuted` |
| C82 | A valid JPEG scan is decoded completely | p | `scan_decoded_partial`, `separate_scans_rows_refuted`, `separate_scans_restart_refuted`, `separate_scans_order_refuted` |
| C83 | Corrupt JPEG scans never panic | p | `scan_any_bytes_partial`, `dc_product_refuted` |
| C84 | From JPEG bytes to pixels | P | `picture_decoded` |
| C85 | JPEG headers mean what the standard says | p | `headers_decoded_partial`, `next_scan_decoded_partial`, `app14_refuted`, `app0_refuted` |
| C86 | JPEG colour model | p | `colours_decoded_partial`, `colours_refuted` |
| C87 | ICC profiles in several chunks | p | `icc_profile_partial`, `icc_profile_refuted` |
| C88 | JPEG headers of any bytes do not panic | P | `headers_total`, `next_scan_total` |
| C89 | A progressive JPEG file is decoded to its picture | p | `progressive_picture_partial`, `restart_interval_refuted`, `refinement_table_refuted`, `long_symbol_refuted` |
| C90 | A baseline JPEG file is decoded to its picture | p | `baseline_picture_partial`, `wide_picture_refuted`, `wide_pictures_alike` |
| C91 | Progressive and baseline files with the same coefficients look the same | p | `same_picture_partial` |
| C92 | A compressed PSD file decodes to its picture | p | `psd_rle_partial`, `gray_channels_refuted`, `cmyk_refuted` |
| C93 | An uncompressed PSD file decodes to its picture | p | `psd_plain_partial`, `psd_plain_refuted`, `psd_deep_partial`, `psd_deep_refuted` |
| C94 | Arbitrary bytes never crash the PSD reader | p | `psd_total`, `psd_image_total_partial`, `psd_image_refuted` |
| C95 | PSD colours are freed from the white background | P | `psd_matte` |
| C96 | Neighbourhood statistics are those of the window | p | `statistics_of_window`, `mean_partial`, `mean_refuted`, `contrast_is_black`, `contrast_refuted` |
| C97 | Edge filters compute the documented gradient | p | `edges_refuted`, `edges16_refuted`, `sobel_partial`, `scharr_partial`, `edges8_fit`, `flat_has_no_edges`, `flat_float_refuted` |
| C98 | Convolution is the weighted sum of the window | p | `convolve_whole_weights`, `convolve_accurate`, `convolve_identity`, `convolve_bad_length`, `convolve_average_refuted` |
| C99 | Brightness adds the chosen share of the range | P | `brighten_accurate`, `brighten_exact`, `brighten_ends`, `brighten_monotone` |
| C100 | Exposure and contrast follow their formulas | p | `exposure_accurate`, `exposure_neutral`, `exposure_monotone`, `exposure_default_refuted`, `contrast_neutral`, `contrast_monotone` |
| C101 | Blending mixes two pictures | p | `blend_mixes`, `blend_ends`, `blend_above_one_refuted`, `blend_itself_refuted` |
| C102 | Gamma correction is a monotone curve that fixes black and white | p | `gamma_monotone`, `gamma_range`, `gamma_ends`, `gamma_bright`, `gamma_neutral_partial`, `gamma_neutral_refuted` |
| C103 | A colour matrix is applied as documented | p | `matrix_accurate`, `matrix_exact`, `matrix_identity`, `matrix_slice`, `matrix_inversion_refuted` |
| C104 | Hue, saturation and lightness settings mean what they say | p | `hsv_neutral_partial`, `hsv_neutral_refuted`, `hsv_gray`, `hsv_negative_refuted` |
| C105 | A whole BMP file decodes to its pixels | p | `bmp_file_24`, `bmp_file_32`, `bmp_file_32_masks`, `bmp_file_8`, `bmp_file_rle`, `bmp_file_16_partial`, `bmp_file_16_masks_partial`, `bmp_file_small_partial`, `bmp_tiny_refuted`, `bmp_16_refuted`, `bmp_small_padding_refuted`, `bmp_gray_refuted`, `bmp_bgra_masks_refuted`, `bmp_bgra_16_refuted`, `bmp_rle_down_refuted`, `bmp_os2_refuted` |
| C106 | The BMP decoder survives any bytes | p | `bmp_file_safe`, `bmp_bgra_masks_refuted`, `bmp_bgra_16_refuted` |
| C107 | BMP header fields are reported correctly | p | `bmp_header`, `bmp_profile`, `bmp_52_refuted` |
| C108 | Animated PNG frames are composed as the specification says | p | `apng_source_partial`, `apng_over_partial`, `apng_background_refuted`, `apng_previous_refuted`, `apng_over_alpha_refuted` |
| C109 | Laying an animation frame over the canvas mixes by opacity | p | `apng_over_partial`, `apng_over_clear`, `apng_over_opaque_colours`, `apng_over_alpha_refuted` |
| C110 | Composing an animation frame never panics | p | `apng_safe_partial`, `apng_panic_refuted` |
| C111 | Every frame of an animated PNG file is delivered, in order, with its pixels | p | `apng_frames_partial`, `apng_huffman_frames_partial`, `apng_chunk_between_refuted`, `apng_strip_refuted`, `apng_interlaced_refuted`, `apng_past_end_refuted` |
| C112 | zune-image reads an animated PNG as the canvases a viewer would show | p | `apng_codec_partial`, `apng_codec_default_refuted`, `apng_codec_previous_refuted`, `apng_codec_sixteen_refuted` |
| C113 | A gzip file decodes to its data | p | `gzip_decodes_partial`, `gzip_members_refuted`, `gzip_long_match_refuted` |
| C114 | What gzip decoding returns agrees with the trailer | P | `gzip_header_total`, `gzip_trailer_checked`, `gzip_builds_agree` |
| C115 | Automatic orientation shows pictures upright | p | `auto_orient_partial`, `auto_orient_refuted`, `rotate_common_sizes_refuted` |
| C116 | Orienting is done once | P | `auto_orient_idempotent`, `auto_orient_keeps` |
| C117 | A pipeline applies all operations to all images | p | `pipeline_processes_partial`, `pipeline_images_refuted`, `pipeline_retry_refuted` |
| C118 | Pipelines come to an end | P | `pipeline_ends` |
| C119 | HDR samples decode to their value | p | `hdr_samples_partial`, `hdr_exponent_refuted` |
| C120 | HDR files keep the picture | p | `hdr_floats_pixelwise`, `hdr_dark_refuted`, `hdr_narrow_dark_refuted` |
| C121 | Saved pictures are recognised | P | `saved_files_recognised` |
| C122 | Saving and opening gives the picture back | p | `saved_pictures_open_partial`, `saved_ppm_refuted`, `farbfeld_files_never_open` |
| C123 | Saving keeps colours and transparency | p | `saved_colours_survive_partial`, `mark_is_lost`, `png_drops_alpha_refuted`, `premultiplied_refuted` |
| C124 | Bilinear resizing computes the interpolated picture | P | `resize_accurate`, `resize_accurate8`, `resize_wide_refuted` |
| C125 | Resizing makes no new light | p | `resize_between_neighbours_partial`, `resize_flat_partial`, `resize_flat_refuted` |
| C126 | Resizing to the same size changes nothing | p | `resize_power_of_two_partial`, `resize_same_refuted` |
| C127 | A JPEG XL file says what it contains and its table of contents leads to every section | P | `jxl_file_reads_back`, `jxl_wide_refuted` |
| C128 | A JPEG XL file announces the depth of every channel | p | `jxl_alpha_depth_partial`, `jxl_alpha_depth_refuted` |
| C129 | The bit writer of the JPEG XL encoder keeps every bit | P | `jxl_bits_stored` |
| C130 | Numbers in JPEG XL sections can be recovered | P | `jxl_hybrid_recovered`, `jxl_signed_recovered` |
| C131 | Skipping and rewinding a stream move by exactly the bytes asked for | P | `skip_and_rewind` |
| C132 | A Gaussian blur stays within the range of the picture | p | `gaussian_range_partial`, `gaussian_flat_partial`, `gaussian_flat_refuted`, `gaussian_narrow_refuted` |
| C133 | A Gaussian blur spreads by its deviation, in place | p | `gaussian_values_partial`, `gaussian_three_odd_boxes`, `gaussian_spread_refuted` |
| C134 | Sharpening adds what the blur removes | p | `unsharpen_partial`, `unsharpen_flat_partial`, `unsharpen_dark_refuted`, `unsharpen_wrap_refuted` |
| C135 | The headers of a GIF file are read as the format says | P | `gif_headers_read`, `gif_headers_reject`, `gif_headers_short`, `gif_headers_limits`, `gif_headers_once` |
| C136 | The GIF decoder keeps to the buffer it is given | P | `gif_buffer_safe`, `gif_small_buffer` |
| C137 | Decoding a GIF file gives its picture | p | `gif_headers_read`, `gif_blank_refuted`, `gif_truncated_table_refuted` |
| C138 | A bilateral filter works with every diameter and stays within the range of the picture | p | `bilateral_range_partial`, `bilateral_flat_partial`, `bilateral_small_refuted` |
| C139 | A bilateral filter averages the circle around each sample | p | `bilateral_value_partial`, `bilateral_value_refuted` |
| C140 | An affine transform moves the picture as asked | p | `affine_safe`, `affine_shows_partial`, `affine_identity_white`, `affine_identity_refuted` |
| C141 | Affine transforms compose and invert as documented | p | `affine_then_partial`, `affine_inverse_partial`, `affine_flat_refused`, `affine_then_order_refuted` |
| C142 | Resizing with any method works and keeps flat pictures flat | p | `sep_size`, `sep_picture`, `sep_flat_refuted` |
| C143 | Shrinking takes the whole row into account | p | `sep_skips_refuted` |
| C144 | Shrinking by an odd factor gives the middle samples exactly | P | `sep_middle`, `sep_middle_picture`, `sep_interpolating` |

## How the proofs go

| part | proof idea |
|----|------------|
| byte streams | state machines, induction on histories of calls |
| QOI | simulation invariant: encoder and decoder share cache, previous pixel and run counter |
| PNG filters, CRC | arithmetic case split, induction over the row; xor linearity, tables checked by computation |
| PNG files | invariant of the chunk loop over any order of chunks; inflate used through its theorems; pointwise pixels |
| inflate | bit reader as a list of bits; table entries characterised by prefix codes; both loops refine one loop over the symbols of a reference encoder; output equals the data of the stream |
| HDR, PNM, BMP | induction over packets; printing and parsing of decimals; safety invariants |
| channels, threads | invariants over all histories and schedules |
| geometry, filters | `nth`-characterisation of loops; sums over windows |
| conversions | list permutations; exhaustive computation over finite sample types (by `vm_compute`, for all values) |
| JPEG tables, bits, blocks | canonical codes as intervals; the bit buffer holds a prefix of the remaining bits (`ready`); one block is a run of symbols |
| JPEG scan | the state after `n` MCUs is determined by the blocks so far; restart segments; squares of samples do not overlap |
| JPEG headers | segments as an inductive relation on installed tables; the decoder's state mirrors them (`as_told`) after each segment |
| JPEG progressive | per coefficient, what the scans so far have told (`knowledge`); every scan turns buffers that show the knowledge before into buffers that show it after |
| JPEG files | headers, scans, transform, upsampling and colours composed; rows are a function of the blocks, so both kinds of files give the same pixels |
| JPEG inverse DCT | all routines reduced to one scalar transform per row of eight; ranges by interval arguments |
| JPEG rows | planes cut into MCU rows with carried-over lines; each output pixel shown to use the samples at its place |

## Findings

Defects found while modelling. Those marked with a theorem are proved of the model; the others come from reading the
code line by line for the transcription and are not part of any theorem.

### zune-core
* `peek_at` that fails at a position other than 0 does not rewind. `read_fixed_bytes_or_zero` (std) returns partly
  filled data at the end. A partial write to a std slice is not counted. `read_byte_no_error` (no_std) advances at the end.
* `set_jpeg_encode_progressive` sets the flag for optimised Huffman tables; `strip_metadata()` is negated; `height()`
  asserts; `use_sse2()` ignores its flag when unsafe code is allowed.

### zune-inflate
* The fast loop's bit budget: a valid stream of about 80 bytes with a 46-bit match after an 11-bit literal panics, in
  debug and release builds; a `debug_assert` in `peek_bits::<11>` after a match near the end of input panics on valid
  data (`*_refuted` in `HuffProps`).
* A stored, non-final block near the end of raw deflate data is reported corrupt (`over_read` drifts; proved).
* `encode_zlib` twice on one encoder panics; `encode_deflate` panics above 13421568 bytes; literals are never checked
  against the output limit; the gzip size is not taken mod 2^32; a repeat that overruns the code lengths is accepted;
  an empty distance code means distance 1; a code of a single symbol accepts both bit values; length symbols 286, 287
  and distance symbols 30, 31 are accepted.
* Of a gzip file with several members only the first is returned, without an error (`gzip_members_refuted`); the length is
  compared without reduction modulo 2^32, so data of 4 GiB or more is rejected even with a larger limit; the header's
  CRC16 is skipped.

### zune-png
* `png_set_add_alpha_channel` with a depth below 8: last row wrong; with tRNS: transparency overwritten; 16-bit tRNS
  compared in the wrong byte order; a palette image without PLTE panics with added alpha.
* `decode_raw` twice on a still image panics; PLTE in a gray image below 8 bits switches off scaling.
* exif and text chunks above 20 MB panic; a keyword of exactly 79 bytes is lost; iTXt takes language tags to be empty;
  iTXt/zTXt/iCCP with too little data after the keyword read past the chunk; PLTE above 256 entries, tRNS of a wrong
  length and gAMA of a wrong length are not skipped to the end of the chunk, so their data are read as chunks.
* `strip_to_8bit` with little-endian output takes the low bytes. Filter methods 1–4 and depths 1–4 for RGB, gray-alpha
  and RGBA are accepted in IHDR. `PngEncoder::default()` has an unknown filter and panics. acTL of a wrong length is
  skipped and 8 bytes more are read. tIME fields are reduced mod 13, 32, 24, 60, 61.
* Animation: `post_process_image` carries out a frame's dispose operation before the frame instead of after it, clears the
  whole canvas for "background" (`apng_background_refuted`), and so "previous" has no effect in the documented loop
  (`apng_previous_refuted`); OVER never updates the opacity of the canvas (`apng_over_alpha_refuted`), panics for
  pictures without opacity, as does an empty frame (`apng_panic_refuted`). The default gamma 2.2 is used where the PNG
  convention (1/2.2) is meant, so the "linear" values are brighter than the samples (not formalised: it needs `powf`).
* Animated files: a chunk between a control chunk and its data makes the frame disappear, its data being added to that of the
  frame before (`apng_chunk_between_refuted`); frames smaller than the image come out too long when 16 bits are reduced to
  8 (`apng_strip_refuted`); rows of interlaced frames narrower than the image go to wrong places
  (`apng_interlaced_refuted`); one call too many to `decode_raw` panics (`apng_past_end_refuted`). zune-image shows a
  default image outside the animation (`apng_codec_default_refuted`), ignores "previous" (`apng_codec_previous_refuted`)
  and refuses 16 bits (`apng_codec_sixteen_refuted`).

### zune-jpeg
* YCCK to RGBA: the last quarter of each row ignores the black channel; CMYK to RGBA writes pixels three bytes apart
  and never sets alpha; two-component images are written as pairs whatever was asked for (all proved).
* The product of DC value and quantiser overflows: panic in debug builds (`dc_product_refuted`).
* Components in separate baseline scans: a marker that is read ahead ends the scan early (`separate_scans_rows_refuted`);
  `todo` is not reset for the next scan and a restart interval ending with the scan is an error
  (`separate_scans_restart_refuted`); blocks of a single subsampled component are taken in MCU order
  (`separate_scans_order_refuted`); if the last symbol of a scan is long the following SOS is not seen and all later
  scans are lost.
* The DC shortcut differs from the transform for very large values (proved). The AVX2 DC path panics in debug builds
  near `i32::MAX`.
* `ycbcr_to_rgb_avx2_1` ignores its offset; the vector store comes before the length check.
* `overread_by` is set when the last byte of a file is read, so a file without EOI loses rows that are already buffered.
* Grayscale output of 4:4:0 images doubles the MCU height; vertical sampling 3 is accepted; `component.y` is computed
  from the horizontal factors (unused).
* Headers: an APP14 segment that is not Adobe's swallows two bytes of the next segment (`app14_refuted`); an APP0 segment
  with four bytes of data swallows one (`app0_refuted`); an ICC profile of 255 chunks is dropped (`icc_profile_refuted`);
  an Adobe segment after the frame header of a one-component file makes it YCbCr.
* Progressive files: a restart interval that divides the number of MCUs of a scan loses all later scans
  (`restart_interval_refuted`); a DC refinement whose header names a missing table loses later scans
  (`refinement_table_refuted`); a first scan that ends with a symbol of 25 bits or more is refused (`long_symbol_refuted`);
  scans of one component whose factors are neither 1 x 1 nor the largest use the wrong number of blocks; debug builds
  overflow at -32768.
* Sides above 65528 pixels without subsampling: panic in debug builds, nothing decoded otherwise
  (`wide_picture_refuted`, `wide_pictures_alike`). If the first component is not the one with the largest factors the strides are wrong.

### zune-hdr, zune-ppm, zune-farbfeld, zune-bmp
* HDR: the published buffer size is too small; old-format runs are not expanded correctly; exponents are masked with 31
  when converting scanlines (`hdr_exponent_refuted`); the encoder's `floor` turns every negative number into -1, so dark
  colours lose their value (`hdr_dark_refuted`) or make the file unreadable (`hdr_narrow_dark_refuted`).
* PNM: a first data byte that is whitespace or `#` is eaten; PFM rows of odd heights are flipped wrongly; P7 DEPTH is
  unchecked; MAXVAL is not scaled; integers wrap; encoding f32 panics; the size product overflows.
* farbfeld: decoding fails for every non-empty image.
* BMP: RLE4 refuses a line end after the last row; an overlong absolute run of RLE8 skips 2 bytes only; a short user
  buffer panics; the palette check is vacuous; rows below 8 bits have no padding; BGR swap on gray; 16-bit padding comes
  from the height; bit fields with PRESERVE_BGRA use wrong shifts; RLE with negative height ignores the orientation.

### zune-image
* Channel: the second growth passes a stale layout; a one-byte push at capacity 1 writes outside; zero-size channels
  request 0 bytes; `push` does not check the type.
* De-interleaving: the four-channel u8 dispatch picks the AVX2 routine when only SSE4.1 was detected; the SSE4.1 routine
  is unreachable (and wrong); `ColorSpace::Unknown` divides by zero; gray-alpha exchanges colour and alpha.
* Colour: ARGB to RGBA rotates the wrong way; CMYK u16/f32 inverse is wrong; the SIMD grayscale swaps the weights of
  green and blue and misfills the remaining pixels; failed conversions leave the image half converted.
* Depth: 16 bits to f32 and back loses 512 values.
* Pipelines: the test for chained images is inverted, so images without a decoder are refused
  (`pipeline_images_refuted`); after an error a second run succeeds without doing the rest (`pipeline_retry_refuted`).

### zune-imageprocs
* Transpose is wrong or panics for sides below 8; `rotate_180` is a vertical flip (even height) or misaligned; Rotate
  allocates without the sample size; rotated dimensions come from floats; mirror East/West exchanged with respect to
  the documentation.
* Automatic orientation is right for 1, 2, 4; 3 gives a wrong picture or panics, 5 fails for small sides
  (`auto_orient_refuted`). Quarter turns take the new dimensions from a cosine that is not quite zero: 1920 by 1080
  pictures and all pictures of more than 8 bits are refused (`rotate_common_sizes_refuted`).
* Premultiplication divides by the maximum where it should shift; ThreshToZero writes the threshold; the median is one
  rank low and radius below 2 does nothing; box blur is shifted by one column and row, drops wrong samples at the right
  edge, darkens with even cut diameters, and panics on narrow images; alpha composition computes a_x² + a_y(1-a_x).
* Threads: the unthreaded build leaves later channels unprocessed after an error; a panic overrides an earlier error;
  the JXL limiter allows n+1 threads, and a panicking worker is never counted down.
* Sobel and Scharr use the bottom middle sample where the documented matrix has the bottom right one (`edges_refuted`);
  16-bit squares overflow (`edges16_refuted`); a weight 30 instead of 3 in the float Scharr finds edges in flat pictures
  (`flat_float_refuted`).
* Spatial statistics: contrast is 0 or comes from a wrapped sum; the mean of large 16-bit windows overflows
  (`contrast_refuted`, `mean_refuted`). Averaging with weights 1/9 darkens flat areas (`convolve_average_refuted`).
* Tone filters: the documented default exposure 0 gives black (`exposure_default_refuted`); blending with alpha above 1 goes
  on mixing, and blending a picture with itself may darken it (`blend_above_one_refuted`, `blend_itself_refuted`); gamma 1
  changes 16-bit samples (`gamma_neutral_refuted`); the documented inversion matrix is wrong (`matrix_inversion_refuted`);
  the neutral hue/saturation setting darkens blue, because two weights are 0.300 and 0.588 (`hsv_neutral_refuted`);
  negative lightness is not black (`hsv_negative_refuted`).
* BMP files: after a header of 40 bytes 12 more bytes are read, after longer ones 122 bytes are needed, so very small files
  are refused (`bmp_tiny_refuted`); the row length of 16-bit pictures is computed from the height (`bmp_16_refuted`), rows of
  1, 2 and 4 bits are read without their padding (`bmp_small_padding_refuted`) and the test pictures of 127 by 64 hide both;
  samples of gray 8-bit pictures are swapped as if they were colours (`bmp_gray_refuted`); `preserve_bgra` uses the wrong
  shifts with masks and with 16 bits (`bmp_bgra_masks_refuted`, `bmp_bgra_16_refuted`); run lengths ignore rows stored from
  the top (`bmp_rle_down_refuted`); with a header of 16 bytes other bytes are taken for the compression
  (`bmp_os2_refuted`), with one of 52 bytes for the mask of the opacity (`bmp_52_refuted`).

### zune-psd
* Uncompressed 8-bit RGB: only a third of the samples is read, and red samples land in all channels (`psd_plain_refuted`).
* 16-bit samples are byte-swapped by `decode` on little-endian machines (`psd_deep_refuted`).
* Gray files with more than one channel: the table of row lengths is skipped in part only (`gray_channels_refuted`).
* CMYK: black is treated as opacity (`cmyk_refuted`). RGB files with fewer than three channels make zune-image panic
  (`psd_image_refuted`).

### Saving through zune-image
* A picture marked as premultiplied is cloned before encoding and written as it is (`premultiplied_refuted`); PNG and PPM
  convert BGRA to RGB, losing alpha (`png_drops_alpha_refuted`); no Farbfeld file can be opened again
  (`farbfeld_files_never_open`). From reading: `encode_to_result` returns an empty vector whatever was encoded
  (traits.rs:387-395); `guess_format` recognises nothing in a file shorter than the longest signature tried so far.
* JPEG: an Adobe segment between frame header and scan spoils a grayscale file (`colours_refuted`). PNG: a wrong checksum
  after a hidden end chunk goes unnoticed (`png_checksum_refuted`).

### Resizing
* The ratio of the sides is `1 / out * in` in single precision, which is not 1 for `in = out = 41`: resizing to the same
  size shifts the places of a ramp by a hair, and the cut takes a step off (`resize_same_refuted`). The result is cut instead of
  rounded, so flat pictures get darker spots (`resize_flat_refuted`). The places are kept inside the picture only if both
  sides grow, so very wide results read past the end (`resize_wide_refuted`). From reading: `ratio_dimensions_larger` is
  the same function as `ratio_dimensions_smaller`.

### JPEG XL
* The alpha channel is always announced with 8 bits, also when the samples have 16 (`jxl_alpha_depth_refuted`). Sides of
  2^30 and more end in a failed assertion after all the work is done (`jxl_wide_refuted`), although the crate has an error
  for too large dimensions.

### Gaussian blur and sharpening
* The Gaussian blur passes the widths of its three boxes where radii are expected: deviation 1 spreads with deviation about
  3.5, and, as each box is off by one, the picture moves by three pixels (`gaussian_spread_refuted`). It inherits the box
  blur's trouble with short sides and filters cut to an even length (`gaussian_narrow_refuted`, `gaussian_flat_refuted`).
* Sharpening 8-bit samples turns every sample slightly darker than its surroundings white, since the difference wraps
  (`unsharpen_dark_refuted`); with 16 bits the sum wraps (`unsharpen_wrap_refuted`), and dark details are never sharpened.

### zune-gif
* `decode_into` succeeds for every file with readable headers and gives transparent black; the rest of the file is never
  read (`gif_blank_refuted`). A global table of colours cut off by the end of the file is accepted
  (`gif_truncated_table_refuted`). After a failed `decode_headers` a second call continues in the middle of the file.

### Bilateral filter
* Diameter 1 panics on every picture (the middle of a window of one sample is taken to be sample 1), and diameter 2 panics
  too (four entries for the five points of the circle) (`bilateral_small_refuted`).
* The weights are those of a circle in order, but they are applied to the first samples of the square window, so samples
  outside the circle count and those below the centre do not (`bilateral_value_refuted`); the centre is off by one.

### Affine transform
* The identity turns the last column and the last row of every picture white; a picture one sample wide or high becomes
  entirely white (`affine_identity_white`, `affine_identity_refuted`). The other transforms with whole entries lose them as well (`affine_shows_partial`).
* `a.then(b)` applies `b` first (`affine_then_order_refuted`).

### Resizing with kernels
* A white row becomes 254 in places with Catmull-Rom and Mitchell: the rounded weights do not add up to 1 and samples are
  cut, not rounded (`sep_flat_refuted`).
* The kernels are not widened when a picture is shrunk, so that most samples are ignored, for every kernel
  (`sep_skips_refuted`).
* What remains is picked, not averaged: shrinking by an odd factor with Catmull-Rom or Hermite gives exactly the middle
  sample of every group (`sep_middle`).
