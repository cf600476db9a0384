{"id": "C01", "title": "Cursor reads are exact or leave the position alone", "statement": "Reading N bytes (or a big/little-endian u16/u32/u64) from an in-memory cursor with the error-returning API succeeds exactly when N bytes remain, returns precisely those bytes (or the integer they spell) and moves the position by N; when fewer remain it reports an error and the position is what it was before the call.", "quantifier": "every byte string, every position (including past the end), every width N", "why_tests_cant": "the failing boundary depends on position and length together; tests only sample a few offsets", "anchors": ["crates/zune-core/src/bytestream/reader.rs: ZReader::read_fixed_bytes_or_error, read_fixed_bytes_or_zero, get_u16_be/le(_err), get_u32_*, get_u64_*, read_u8, read_u8_err", "crates/zune-core/src/bytestream/reader/std_readers.rs"]}
{"id": "C02", "title": "Peeking never moves the stream", "statement": "peek_at returns the same bytes a skip followed by a read would return, and after the call, successful or not, the stream position is unchanged.", "quantifier": "every byte string, starting position, peek offset and peek length", "why_tests_cant": "the failure path moves the stream only for particular combinations of offset, length and stream size", "anchors": ["crates/zune-core/src/bytestream/reader.rs: ZReader::peek_at"]}
{"id": "C03", "title": "The writer's byte count and contents match the history of writes", "statement": "After any sequence of writer calls, bytes_written equals the number of bytes that reached the sink and the sink holds exactly the concatenation of the successful writes in order; on a fixed-size slice sink a write that does not fit changes nothing and no write ever goes past the end of the slice.", "quantifier": "every sequence (history) of write_all / write / write_const_bytes / write_u8 / write_uN_be/le calls, every slice capacity", "why_tests_cant": "needs all histories and all capacities; errors in the middle of a history are silently ignored by some calls", "anchors": ["crates/zune-core/src/bytestream/writer.rs: ZWriter", "crates/zune-core/src/bytestream/writer/no_std_writer.rs"]}
{"id": "C04", "title": "Integers written by the writer are read back by the reader", "statement": "Any u8/u16/u32/u64 written in either byte order and read back with the matching reader call at the same offset returns the same integer, whatever surrounds it in the stream.", "quantifier": "every integer of each width, both byte orders, every prefix and suffix of the stream", "why_tests_cant": "2^64 values per width and arbitrary surroundings", "anchors": ["crates/zune-core/src/bytestream/writer.rs: write_single_type!", "crates/zune-core/src/bytestream/reader.rs: get_single_type!"]}
{"id": "C05", "title": "QOI round trip is lossless", "statement": "Encoding any 8-bit RGB or RGBA image with the QOI encoder and decoding the result with the QOI decoder returns the same pixels, width, height and colorspace.", "quantifier": "every width and height (1 .. decoder limit), every pixel array of matching length, 3 or 4 components", "why_tests_cant": "the encoder and decoder share a 64-entry colour cache, a run counter and three difference encodings; agreement is an invariant over the entire pixel history", "anchors": ["crates/zune-qoi/src/encoder.rs: QoiEncoder::encode, encode_headers", "crates/zune-qoi/src/decoder.rs: QoiDecoder::decode_headers, decode_into, decode"]}
{"id": "C06", "title": "QOI worst-case size is an upper bound", "statement": "The number of bytes the QOI encoder writes never exceeds the published worst case width*height*(components+1)+14+8, so a buffer of that size is always enough.", "quantifier": "every image of every size, 3 or 4 components", "why_tests_cant": "the worst pixel sequence depends on the cache and run state", "anchors": ["crates/zune-qoi/src/encoder.rs: QoiEncoder::max_size, encode"]}
{"id": "C07", "title": "QOI decoder is total on arbitrary bytes", "statement": "For every byte string, with default options, the QOI decoder either returns pixels whose length is exactly width*height*components for the dimensions in the header or returns an error: it never panics, indexes out of range or loops forever.", "quantifier": "every byte string of every length", "why_tests_cant": "fuzzing samples inputs; termination and absence of panics need all of them", "anchors": ["crates/zune-qoi/src/decoder.rs: QoiDecoder::decode_headers, decode_into, decode"]}
{"id": "C08", "title": "QOI decoder enforces its limits", "statement": "If decoding headers succeeds, the reported width and height are non-zero, at most the configured maximum width and height, and the output size equals width*height*components.", "quantifier": "every byte string and every configured maximum", "why_tests_cant": "limits must hold for all inputs", "anchors": ["crates/zune-qoi/src/decoder.rs: decode_headers, output_buffer_size"]}
{"id": "C09", "title": "QOI decode_into accepts any sufficiently large buffer", "statement": "decode_into with a buffer at least output_buffer_size long writes the image into the first output_buffer_size bytes and succeeds exactly when decode succeeds, whatever the buffer's extra length.", "quantifier": "every valid stream, every buffer length not smaller than required", "why_tests_cant": "depends on buffer length relative to the image; tests use exact size", "anchors": ["crates/zune-qoi/src/decoder.rs: decode_into"]}
{"id": "C10", "title": "Paeth predictor equals the PNG specification", "statement": "The branch-reduced Paeth predictor used by the PNG decoder returns the value defined by the PNG specification.", "quantifier": "every triple of bytes (left, above, upper-left)", "why_tests_cant": "2^24 inputs with tie-breaking rules; a proof covers all including ties", "anchors": ["crates/zune-png/src/filters/de_filter.rs: paeth"]}
{"id": "C11", "title": "PNG un-filtering inverts the PNG specification's filters", "statement": "For each filter type (None, Sub, Up, Average, Paeth), first row or not, un-filtering a row that was filtered as in the PNG specification returns the original row.", "quantifier": "every row content, every previous row, every row length, every bytes-per-pixel 1..8", "why_tests_cant": "row lengths and contents unbounded", "anchors": ["crates/zune-png/src/filters/de_filter.rs: handle_avg, handle_sub, handle_paeth, handle_up, handle_paeth_first, handle_avg_first"]}
{"id": "C12", "title": "SIMD un-filters compute the same bytes as the scalar ones", "statement": "For pixel sizes 3, 4, 6 and 8, the SSE implementations of Sub, Average and Paeth un-filtering produce byte for byte the scalar result.", "quantifier": "every row, previous row and row length that is a multiple of the pixel size", "why_tests_cant": "CPU-dependent code paths; tests on one machine and few rows", "anchors": ["crates/zune-png/src/filters/sse4.rs: de_filter_sub_sse2, defilter_avg_sse, de_filter_paeth_sse41"]}
{"id": "C13", "title": "PNG CRC is the standard CRC-32", "statement": "The 8-bytes-at-a-time table CRC used for PNG chunks equals the bit-by-bit CRC-32 of ISO 3309 (polynomial 0xEDB88320), for data of any length; computing it in two calls (chunk name, then data) equals computing it over the concatenation.", "quantifier": "every byte string, every split point, every starting state", "why_tests_cant": "2048 table entries and a remainder path; one wrong entry is hit by few inputs", "anchors": ["crates/zune-png/src/crc.rs: crc32_slice8, crc32_slice1, calc_crc", "crates/zune-png/src/crc/crc_tables.rs", "crates/zune-png/src/headers/writers.rs: write_header_fn, write_chunk"]}
{"id": "C14", "title": "PNG round trip is lossless", "statement": "Encoding any 8-bit or 16-bit Luma, LumaA, RGB or RGBA image with the PNG encoder and decoding with default options returns the same samples, dimensions, depth and colorspace.", "quantifier": "every image of every size up to the decoder's default limit", "why_tests_cant": "chunk splitting, zlib stored-block splitting, filtering and checksums interact at sizes tests do not cover", "anchors": ["crates/zune-png/src/encoder.rs: PngEncoder::encode, add_filters", "crates/zune-png/src/decoder.rs: PngDecoder::decode_headers, decode_raw, create_png_image_raw, inflate", "crates/zune-inflate/src/encoder.rs: encode_zlib", "crates/zune-inflate/src/decoder.rs: decode_zlib"]}
{"id": "C15", "title": "Adam7 de-interlacing touches each pixel exactly once", "statement": "The seven Adam7 passes, with the pass widths and heights computed by the decoder, together visit each pixel of the image exactly once and no position outside of it.", "quantifier": "every width and height", "why_tests_cant": "pass geometry has rounding for every residue of width and height modulo 8", "anchors": ["crates/zune-png/src/decoder.rs: decode_interlaced"]}
{"id": "C16", "title": "Sub-byte PNG samples are unpacked correctly", "statement": "Expanding 1-, 2- or 4-bit packed samples yields, for each pixel of the row, the sample at its most-significant-first bit position, scaled to the full 8-bit range when scaling is asked for.", "quantifier": "every packed row, every width, each bit depth", "why_tests_cant": "width residues modulo samples per byte and all bit patterns", "anchors": ["crates/zune-png/src/utils.rs: expand_bits_to_byte"]}
{"id": "C17", "title": "PNG header limits are enforced", "statement": "If the PNG decoder accepts an IHDR chunk, width and height are non-zero and within the configured limits, the bit-depth/colour-type pair is one allowed by the PNG specification, and chunk data consumed equals the declared length.", "quantifier": "every IHDR payload and every configured limit", "why_tests_cant": "2^104 header payloads", "anchors": ["crates/zune-png/src/headers/readers.rs: parse_ihdr"]}
{"id": "C18", "title": "Deflate bit reader presents the bit stream faithfully", "statement": "Whatever the pattern of refills, the bits delivered by the inflate bit reader are the bits of the input bytes, least significant first, in order, followed by zeros; dropping n bits drops exactly the first n, and the reader reports how many bytes past the end it has invented.", "quantifier": "every byte string, every sequence of refill / peek / drop operations", "why_tests_cant": "a history property of a 64-bit shift register with a branch-free refill", "anchors": ["crates/zune-inflate/src/bitstream.rs: BitStreamReader"]}
{"id": "C19", "title": "zlib round trip is lossless", "statement": "Decoding with the zlib decoder what the zlib encoder produced returns the original data.", "quantifier": "every byte string (every length, so every number of stored blocks)", "why_tests_cant": "block-size boundaries at multiples of 65535 and arbitrary data", "anchors": ["crates/zune-inflate/src/encoder.rs: DeflateEncoder::encode_zlib, encode_in_place", "crates/zune-inflate/src/decoder.rs: DeflateDecoder::decode_zlib, start_deflate_block_inner"]}
{"id": "C20", "title": "Match copies follow LZ77 semantics", "statement": "Every match-copy path of the inflate decoder (fill for offset 1, byte loop, wide copy, out-of-buffer growth) leaves the output as if length bytes had been appended one by one, each copied from offset bytes back, including overlapping matches.", "quantifier": "every output history, every offset not exceeding it, every length 3..258", "why_tests_cant": "wide copies over overlapping regions are only right under side conditions tests cannot enumerate", "anchors": ["crates/zune-inflate/src/decoder.rs: start_deflate_block_inner", "crates/zune-inflate/src/utils.rs: fixed_copy_within, copy_rep_matches"]}
{"id": "C21", "title": "Inflate output limit", "statement": "Decompression with an output limit L either fails or returns at most L bytes.", "quantifier": "every compressed stream and every limit", "why_tests_cant": "a decompression-bomb guard must hold for every stream", "anchors": ["crates/zune-inflate/src/decoder.rs: start_deflate_block_inner, set_limit"]}
{"id": "C22", "title": "HDR run-length scanlines round trip", "statement": "Expanding with the HDR decoder any scanline plane compressed by the HDR encoder's run-length coder gives back the plane; the coder terminates and every packet it emits is well-formed.", "quantifier": "every plane content and width", "why_tests_cant": "runs, literals and short-run look-ahead interact over unbounded history", "anchors": ["crates/zune-hdr/src/encoder.rs: rle", "crates/zune-hdr/src/decoder.rs: decompress / RLE scanline loop"]}
{"id": "C23", "title": "HDR encoder's published buffer size suffices", "statement": "expected_buffer_size bytes are always enough to hold the encoded HDR image.", "quantifier": "every image of every size", "why_tests_cant": "needs the worst case over all contents", "anchors": ["crates/zune-hdr/src/encoder.rs: expected_buffer_size, encode"]}
{"id": "C24", "title": "PPM/PAM round trip is lossless", "statement": "Encoding any 8-bit or 16-bit image in a PNM-supported colorspace and decoding it gives back dimensions, depth, colorspace and samples.", "quantifier": "every image", "why_tests_cant": "the failure depends on the value of the first pixels (white-space and comment skipping)", "anchors": ["crates/zune-ppm/src/encoder.rs: encode", "crates/zune-ppm/src/decoder.rs: decode_headers, decode_into, skip_spaces, get_integer"]}
{"id": "C25", "title": "Farbfeld round trip is lossless", "statement": "Encoding any 16-bit RGBA image as farbfeld and decoding it gives back the image.", "quantifier": "every image with at least one pixel", "why_tests_cant": "universal over images", "anchors": ["crates/zune-farbfeld/src/encoder.rs: encode", "crates/zune-farbfeld/src/decoder.rs: decode_headers, output_buffer_size, decode_into, decode"]}
{"id": "C26", "title": "BMP run-length decoding is safe and total", "statement": "Decoding any RLE4 or RLE8 payload into an image never writes outside the image, never panics and terminates, for both bit depths.", "quantifier": "every payload, every image size", "why_tests_cant": "delta, absolute and encoded modes move a cursor freely; safety is an invariant over all command sequences", "anchors": ["crates/zune-bmp/src/decoder.rs: decode_rle"]}
{"id": "C27", "title": "BMP bit-field scaling maps full range to full range", "statement": "For a contiguous mask of 1..8 bits, the extracted channel equals bit replication of the field to eight bits: zero stays zero, all-ones becomes 255, and the map is monotone.", "quantifier": "every field value, every width 1..8 and every shift", "why_tests_cant": "table-driven multiply-and-shift over all shifts and widths", "anchors": ["crates/zune-bmp/src/decoder.rs: shift_signed"]}
{"id": "C28", "title": "Image channel storage behaves as a byte vector", "statement": "After any history of push, extend, fill, clone operations a channel reports the length and contents a plain growable vector would have, and no operation writes outside the allocated capacity.", "quantifier": "every history of operations from every construction, for element sizes 1, 2 and 4", "why_tests_cant": "memory safety of hand-rolled growth depends on the capacity history", "anchors": ["crates/zune-image/src/channel.rs: Channel::new, push, extend, fill, reinterpret_as"]}
{"id": "C29", "title": "De-interleave then flatten is the identity", "statement": "Splitting interleaved samples into per-component channels and flattening them again returns the original samples; component i of pixel p is sample i of the p-th group.", "quantifier": "every component count 1..4 (and any count for the generic path), every length divisible by it", "why_tests_cant": "vectorised paths change behaviour with length modulo the block size", "anchors": ["crates/zune-image/src/deinterleave/scalar.rs", "crates/zune-image/src/deinterleave/deinterleave_impls.rs", "crates/zune-image/src/utils.rs: swizzle_channels", "crates/zune-image/src/frame.rs: flatten"]}
{"id": "C30", "title": "Vectorised de-interleave equals scalar de-interleave", "statement": "The SSE2/SSE4.1 de-interleaving of 8-bit samples produces the same channels as the scalar routine for every length.", "quantifier": "every input length and content", "why_tests_cant": "CPU-dependent paths; shuffle networks where a single wrong lane affects few positions", "anchors": ["crates/zune-image/src/deinterleave/sse2.rs", "crates/zune-image/src/deinterleave/sse41.rs"]}
{"id": "C31", "title": "Colorspace layout conversions round trip", "statement": "Converting RGB to BGR and back, RGB to RGBA and back, RGBA to ARGB and back returns the original image.", "quantifier": "every image", "why_tests_cant": "channel permutations must be inverse for all channel contents", "anchors": ["crates/zune-image/src/core_filters/colorspace.rs: convert_rgb_bgr, convert_rgba_argb, conversion table"]}
{"id": "C32", "title": "Bit-depth widening then narrowing is lossless", "statement": "Converting an 8-bit image to 16 bits and back returns the original image; 16-bit to 8-bit conversion maps 0 to 0, 65535 to 255 and is monotone.", "quantifier": "every sample value, hence every image", "why_tests_cant": "single precision rounding of 256 products; one-off truncations are easy to miss", "anchors": ["crates/zune-image/src/core_filters/depth.rs: depth_u8_to_u16, depth_u16_to_u8"]}
{"id": "C33", "title": "Flip, flop and vertical flip do what they say and are involutions", "statement": "Flop mirrors every row, vertical flip reverses the order of rows, flip does both; each applied twice is the identity.", "quantifier": "every image, every width and height, odd and even", "why_tests_cant": "odd sizes and middle rows", "anchors": ["crates/zune-imageprocs/src/flip.rs: flip, vertical_flip, flop"]}
{"id": "C34", "title": "Transpose swaps rows and columns", "statement": "Transposing an image places the pixel at (x,y) at (y,x) for every pixel, and transposing twice is the identity.", "quantifier": "every width and height", "why_tests_cant": "blocked loop with remainder handling; small or non-multiple-of-8 sizes take different paths", "anchors": ["crates/zune-imageprocs/src/transpose/scalar.rs: transpose_scalar"]}
{"id": "C35", "title": "Rotation by multiples of 90 degrees permutes pixels correctly", "statement": "Rotating by 90, 180 or 270 degrees moves each pixel to its rotated place; four 90 degree rotations are the identity.", "quantifier": "every image, all sizes", "why_tests_cant": "odd sizes and non-square images", "anchors": ["crates/zune-imageprocs/src/rotate.rs: rotate_180, rotate_90, rotate_270"]}
{"id": "C36", "title": "Crop extracts exactly the requested window", "statement": "Cropping a window that lies inside the image returns exactly the pixels of that window; a window that does not fit horizontally leaves the output untouched and never reads out of range.", "quantifier": "every image, every window position and size", "why_tests_cant": "boundary combinations", "anchors": ["crates/zune-imageprocs/src/crop.rs: crop"]}
{"id": "C37", "title": "Padding replicates edges", "statement": "Padding with replication gives, at every position, the pixel of the input at the nearest in-range coordinates; constant padding leaves the image centred.", "quantifier": "every image with at least one pixel, every pad amount", "why_tests_cant": "all paddings and sizes", "anchors": ["crates/zune-imageprocs/src/pad.rs: replicate, no_fill"]}
{"id": "C38", "title": "Integer division by reciprocal multiplication is exact", "statement": "Dividing by a precomputed reciprocal gives exactly the quotient of integer division.", "quantifier": "every 32-bit dividend and every divisor 1 .. 2^32-1", "why_tests_cant": "2^64 pairs; the existing test checks a single dividend", "anchors": ["crates/zune-imageprocs/src/mathops.rs: compute_mod_u32, fastdiv_u32"]}
{"id": "C39", "title": "Alpha pre-multiplication is a correctly rounded product", "statement": "Pre-multiplying a colour by alpha yields the product scaled to the sample range (rounded to nearest); full alpha leaves the colour unchanged and zero alpha gives zero.", "quantifier": "every colour and alpha value at 8 and 16 bits", "why_tests_cant": "all value pairs; overflow occurs only at extremes", "anchors": ["crates/zune-imageprocs/src/premul_alpha.rs: premultiply_u8, premultiply_u16, unpremultiply_u8, unpremultiply_u16"]}
{"id": "C40", "title": "Median filter returns the window median", "statement": "Each output pixel of the median filter is the median of the (2r+1)x(2r+1) neighbourhood with replicated edges, and the incremental histogram always equals the histogram of the current window.", "quantifier": "every image, radius and pixel position", "why_tests_cant": "incremental histogram is an invariant over the scan history", "anchors": ["crates/zune-imageprocs/src/median.rs: median_u8, spatial_median"]}
{"id": "C41", "title": "Invert and threshold act pointwise as documented", "statement": "Inverting twice is the identity; each threshold method maps each pixel as its documentation table says.", "quantifier": "every pixel value, threshold and method", "why_tests_cant": "documentation table vs code for all values", "anchors": ["crates/zune-imageprocs/src/invert.rs", "crates/zune-imageprocs/src/threshold.rs: threshold"]}
{"id": "C42", "title": "Mirror follows its documentation", "statement": "Mirroring East/West/North/South copies the documented half onto the other half; applying it twice equals applying it once, and the result is symmetric.", "quantifier": "every image, odd and even sizes", "why_tests_cant": "odd sizes and middle lines", "anchors": ["crates/zune-imageprocs/src/mirror.rs: mirror"]}
{"id": "C43", "title": "Threaded channel processing is schedule independent", "statement": "Running a per-channel operation with one thread per channel gives the same image as running it channel by channel, for every interleaving of the threads; an error on any channel is reported in channel order.", "quantifier": "every interleaving of every number of threads, every operation as a sequence of atomic steps on its own channel", "why_tests_cant": "tests see only the schedules the OS happens to produce", "anchors": ["crates/zune-imageprocs/src/utils.rs: execute_on", "crates/zune-image/src/frame.rs: Clone"]}
{"id": "C44", "title": "Contrast stretching is monotone and full range", "statement": "For lower <= upper the integer contrast stretch maps values at or below lower to 0, at or above upper to the maximum, is monotone, and never overflows the sample type.", "quantifier": "every pixel, lower, upper at 8 and 16 bits", "why_tests_cant": "overflow boundaries for all pairs", "anchors": ["crates/zune-imageprocs/src/stretch_contrast.rs: stretch_contrast"]}
{"id": "C45", "title": "Blurring a constant image leaves it constant", "statement": "A box blur maps a constant image to itself and every output value lies between the smallest and largest value in its row.", "quantifier": "every width, height, radius and sample value", "why_tests_cant": "window/edge handling depends on width, radius parity", "anchors": ["crates/zune-imageprocs/src/box_blur.rs: box_blur_inner"]}
{"id": "C46", "title": "Compositing copies the overlapping rectangle only", "statement": "Compositing an opaque image at a position overwrites exactly the in-range intersection and leaves all other destination pixels unchanged, never panicking.", "quantifier": "every pair of images and every position", "why_tests_cant": "all overlaps", "anchors": ["crates/zune-imageprocs/src/composite.rs: composite_over"]}
{"id": "C47", "title": "Non-erroring reads return zeros when bytes are missing", "statement": "Reading N bytes or an integer with the non-erroring API when fewer than N bytes remain returns all zeros and leaves the position alone; when N bytes remain it returns them and advances by N.", "quantifier": "every byte string, every position, every width", "why_tests_cant": "the short-read boundary depends on position and length together", "anchors": ["crates/zune-core/src/bytestream/reader.rs: read_fixed_bytes_or_zero, get_u16_be/le, get_u32_*, get_u64_*", "crates/zune-core/src/bytestream/reader/std_readers.rs: read_const_bytes_no_error"]}
{"id": "C48", "title": "The PNG checksum detects every short burst error", "statement": "Two chunk contents of the same length that differ only inside four consecutive bytes have different checksums, so with CRC checking such a corruption is always noticed.", "quantifier": "every chunk content, every position, every pair of different 1..4 byte replacements", "why_tests_cant": "2^32 error patterns at unbounded positions", "anchors": ["crates/zune-png/src/crc.rs: calc_crc, crc32_slice8"]}
{"id": "C49", "title": "PFM rows come out top to bottom", "statement": "Decoding a PFM file returns the rows of the image from top to bottom, although the file stores them from bottom to top.", "quantifier": "every image of every height, odd and even", "why_tests_cant": "row reversal by swapping halves depends on the parity of the height", "anchors": ["crates/zune-ppm/src/decoder.rs: PPMDecoder::decode"]}
{"id": "C50", "title": "The PNM decoder never panics and respects its limits", "statement": "For every input the PNM decoder either reports an error or returns an image whose dimensions are non-zero and within the configured limits and whose sample count is width x height x components.", "quantifier": "every byte sequence, every configured limit", "why_tests_cant": "needs all malformed inputs", "anchors": ["crates/zune-ppm/src/decoder.rs: PPMDecoder::decode, decode_headers"]}
{"id": "C51", "title": "BMP run-length streams decode to what their commands draw", "statement": "For every conforming RLE8 or RLE4 stream (encoded runs, absolute runs, line ends, deltas, end of bitmap) whose drawing stays inside the image, decoding succeeds and each pixel is the palette colour that the last command covering it put there (colour 0 where none did), with rows delivered top to bottom. A line end after the last row changes nothing.", "quantifier": "every command sequence of every length, every image size, both depths, any bytes after the end mark", "why_tests_cant": "the cursor history is unbounded and absolute runs have parity-dependent padding", "anchors": ["crates/zune-bmp/src/decoder.rs: decode_rle, expand_palette, decode_into_inner"]}
{"id": "C52", "title": "Uncompressed BMP pixels land at their place", "statement": "For 24-bit and 8-bit palette images, every output pixel equals the stored pixel of the same column in the stored row that the orientation flag selects, rows being padded to four bytes; a 24-bit file too short for its rows is an error.", "quantifier": "every width (all four padding cases), every height, both orientations, both channel orders", "why_tests_cant": "row padding, reversal and flip interact with width mod 4 and height parity", "anchors": ["crates/zune-bmp/src/decoder.rs: decode_into_inner, expand_palette_from_remaining_bytes"]}
{"id": "C53", "title": "Box blur averages the window centred on each pixel", "statement": "Each output sample of a box blur of radius r is the average of the row averages of the samples at most r columns and r rows away, positions outside the image counting as the nearest inside.", "quantifier": "every image, radius and position", "why_tests_cant": "which window is averaged shows only on asymmetric inputs; edges interact with width and radius", "anchors": ["crates/zune-imageprocs/src/box_blur.rs: box_blur_u8, box_blur_u16, box_blur_inner"]}
{"id": "C54", "title": "Limited thread pools respect the limit and finish", "statement": "When the JPEG XL encoder is told to use n threads, never more than n run at once, and encoding always finishes, whatever the scheduling.", "quantifier": "every number of groups, every limit, every interleaving", "why_tests_cant": "needs all schedules; tests see only a few", "anchors": ["crates/zune-jpegxl/src/encoder.rs: encode_inner"]}
{"id": "C55", "title": "16-bit serialisation is the interleaved samples", "statement": "Turning a 16-bit frame into bytes (big endian or native endian) gives the samples of all channels interleaved pixel by pixel, each as two bytes in the chosen order.", "quantifier": "every channel count, every channel content", "why_tests_cant": "pointwise over unbounded data; byte order mistakes hide on symmetric samples", "anchors": ["crates/zune-image/src/frame.rs: u16_to_big_endian, u16_to_native_endian"]}
{"id": "C56", "title": "Ignoring alpha selects exactly the colour channels", "statement": "Asking for the channels of an image without alpha returns all colour channels and not the alpha channel; separating colour from alpha puts each where it belongs, for every colorspace.", "quantifier": "every colorspace, every channel content", "why_tests_cant": "a wrong position for one colorspace swaps data silently", "anchors": ["crates/zune-image/src/frame.rs: separate_color_and_alpha, channels_ref, channels_mut"]}
{"id": "C57", "title": "Integer images survive the way through floating point", "statement": "Converting an 8-bit or 16-bit image to floating point and back returns the original image; every depth conversion of any image succeeds, keeps the number of samples and yields samples in range, whatever the floating point samples are (also infinite or not a number).", "quantifier": "every sample value, every image", "why_tests_cant": "single precision rounding of 65536 products; special values", "anchors": ["crates/zune-image/src/core_filters/depth.rs: Depth::execute_impl"]}
{"id": "C58", "title": "Every colorspace conversion leaves a well-formed image", "statement": "Converting an image between any two of RGB, RGBA, BGR, BGRA, ARGB, Luma, LumaA, CMYK, HSL and HSV succeeds, and the result has the requested colorspace, the old depth and size, the right number of channels and channels of full length; any other conversion is an error that leaves the image as it was.", "quantifier": "every pair of colorspaces, every depth, every image of any size and number of frames", "why_tests_cant": "conversions call each other through intermediate colorspaces and depths; 100 pairs times unbounded images", "anchors": ["crates/zune-image/src/core_filters/colorspace.rs: ColorspaceConv::execute_impl", "crates/zune-image/src/traits.rs: OperationsTrait::execute", "crates/zune-image/src/image.rs: convert_color"]}
{"id": "C59", "title": "Converting to CMYK and back returns the picture", "statement": "An RGB picture converted to CMYK and back to RGB has the same samples.", "quantifier": "every picture, every depth", "why_tests_cant": "all 2^24 colours of floating point rounding followed by integer rounding", "anchors": ["crates/zune-image/src/core_filters/colorspace/rgb_to_cmyk.rs", "crates/zune-image/src/core_filters/colorspace/conversion_functions.rs: convert_rgb_to_cmyk, convert_cmyk_to_rgb"]}
{"id": "C60", "title": "Grayscale is the weighted sum of the colours on every processor", "statement": "Every pixel of a grayscale conversion is within one of 0.299 R + 0.587 G + 0.114 B, for every picture size and whichever vector instructions the processor has; alpha is kept, or opaque when it was absent.", "quantifier": "every pixel count, every sample, every processor", "why_tests_cant": "scalar and vector variants, and the pixels left over after whole vectors, are different code; test machines have one processor", "anchors": ["crates/zune-image/src/core_filters/colorspace/grayscale.rs", "crates/zune-image/src/core_filters/colorspace/grayscale/avx2.rs", "crates/zune-image/src/core_filters/colorspace/grayscale/sse41.rs", "crates/zune-image/src/core_filters/colorspace/grayscale/scalar.rs"]}
{"id": "C61", "title": "Transparency chunks of PNG files are honoured", "statement": "A pixel whose samples equal the transparent colour of the file becomes fully transparent and every other pixel opaque; the alphas given for palette entries are attached to the entries; colours are unchanged.", "quantifier": "every image, depth, colour type and transparent colour", "why_tests_cant": "comparison of samples happens after byte expansion and before byte swapping, at depths 1 to 16", "anchors": ["crates/zune-png/src/headers/readers.rs: parse_trns", "crates/zune-png/src/utils.rs: expand_trns"]}
{"id": "C62", "title": "Palette images show the palette's colours", "statement": "A palette image decodes to the palette colour of every index, at depths 1, 2, 4 and 8, with the alphas of the transparency chunk or opaque, interlaced or not.", "quantifier": "every palette, every index array, every size", "why_tests_cant": "indices are unpacked, scaled or not, and widened in place by code shared with other colour types", "anchors": ["crates/zune-png/src/utils.rs: expand_palette", "crates/zune-png/src/decoder.rs: create_png_image_raw"]}
{"id": "C63", "title": "Text chunks of a PNG file are returned", "statement": "Every uncompressed text chunk of a PNG file is returned with its keyword and text, in the order of the file.", "quantifier": "every sequence of text chunks among other chunks", "why_tests_cant": "keyword search is limited to a window; lengths and positions vary", "anchors": ["crates/zune-png/src/headers/readers.rs: parse_text"]}
{"id": "C64", "title": "PNG chunks are read to their end", "statement": "After any chunk the decoder goes on at the next chunk of the file; the compressed data it decodes is the data of the IDAT chunks in order.", "quantifier": "every sequence of chunks", "why_tests_cant": "every chunk reader moves the stream by itself; a reader off by a few bytes reinterprets data as chunks", "anchors": ["crates/zune-png/src/decoder.rs: decode_headers, parse_header", "crates/zune-png/src/headers/readers.rs"]}
{"id": "C65", "title": "The byte order of 16-bit PNG samples does not depend on the processor", "statement": "Sixteen-bit samples come out in the byte order asked for, whichever vector instructions are available and whatever the length.", "quantifier": "every buffer, every processor", "why_tests_cant": "vector code with remainders differs from scalar code", "anchors": ["crates/zune-png/src/utils.rs: convert_be_to_target_endian_u16"]}
{"id": "C66", "title": "Stripping PNG samples to eight bits keeps the high byte", "statement": "With strip_to_8bit, decode_raw returns for each 16-bit sample its most significant byte.", "quantifier": "every 16-bit image, both byte orders", "why_tests_cant": "interaction of two options", "anchors": ["crates/zune-png/src/decoder.rs: decode_raw, decode_into"]}
{"id": "C67", "title": "A well-formed PNG file decodes to its picture", "statement": "A file of header, optional palette and transparency, compressed data split over any IDAT chunks, ancillary chunks anywhere, and end decodes to the picture it describes, interlaced or not, any depth and colour type; ancillary chunks do not change it.", "quantifier": "every such file, every filter choice per row", "why_tests_cant": "the product of depths, colour types, interlacing, filters, widths and chunk layouts is unbounded", "anchors": ["crates/zune-png/src/decoder.rs: decode_headers, decode_raw, decode, decode_into"]}
{"id": "C68", "title": "Corrupt PNG chunks are detected when checksums are confirmed", "statement": "With png_confirm_crc set, a file with a chunk whose checksum is not the CRC-32 of its name and data is not accepted.", "quantifier": "every file, every chunk", "why_tests_cant": "all single and multiple corruptions", "anchors": ["crates/zune-png/src/decoder.rs: read_chunk_header", "crates/zune-png/src/crc.rs"]}
{"id": "C69", "title": "PNG gamma, time and Exif are returned", "statement": "After decoding the headers the gamma number, the time of last change and the Exif data are those of the file's last such chunks.", "quantifier": "every file", "why_tests_cant": "chunks can repeat and stand anywhere", "anchors": ["crates/zune-png/src/headers/readers.rs: parse_gama, parse_time, parse_exif"]}
{"id": "C70", "title": "Every valid zlib stream decodes to exactly its data", "statement": "decode_zlib returns the original bytes for every well-formed zlib stream (RFC 1950/1951) whose output fits the limit, whatever mixture of stored, fixed and dynamic blocks, code lengths, matches and trailing bytes it has.", "quantifier": "every stream a conforming compressor can produce", "why_tests_cant": "the number of codes, block structures, match distances and alignments of bits to bytes is unbounded; failures need a long match at one bit alignment", "anchors": ["crates/zune-inflate/src/decoder.rs: decode_zlib, start_deflate_block, build_decode_table", "crates/zune-inflate/src/bitstream.rs"]}
{"id": "C71", "title": "Code lengths are accepted exactly when they form a code", "statement": "A Huffman-coded block is accepted by the table builder exactly when its code lengths form a complete code, a single one-bit code or no code; every code word then decodes to its symbol, and the tables are always large enough. All other lengths are reported as corrupt data; nothing panics.", "quantifier": "every list of code lengths", "why_tests_cant": "there are 16^288 lists of lengths; table overflow needs the worst of them", "anchors": ["crates/zune-inflate/src/decoder.rs: build_decode_table, build_decode_table_inner", "crates/zune-inflate/src/constants.rs"]}
{"id": "C72", "title": "Debug and release builds of inflate agree", "statement": "For every input a build with overflow checks and debug assertions either panics or returns the same result as a release build.", "quantifier": "every input, valid or not, and every option", "why_tests_cant": "a statement about pairs of runs over all inputs", "anchors": ["crates/zune-inflate/src/decoder.rs: decode_zlib", "crates/zune-inflate/src/bitstream.rs: drop_bits, peek_bits"]}
{"id": "C73", "title": "Raw DEFLATE streams decode to their data", "statement": "decode_deflate returns the original bytes for every well-formed raw DEFLATE stream within the limit.", "quantifier": "every stream", "why_tests_cant": "depends on how many bytes follow the last stored block and on bit alignment", "anchors": ["crates/zune-inflate/src/decoder.rs: decode_deflate, start_deflate_block"]}
{"id": "C74", "title": "The inverse transform of a JPEG block does not depend on the routine chosen", "statement": "The samples of a JPEG block are the same whether the processor has AVX2 or not, whether the shortcut for a single value, the one for a 4x4 corner or the full routine is used, and in debug and release builds.", "quantifier": "every block of 64 coefficients", "why_tests_cant": "2^2048 blocks; differences would appear at rounding or overflow boundaries only", "anchors": ["crates/zune-jpeg/src/idct/scalar.rs", "crates/zune-jpeg/src/idct/avx2.rs", "crates/zune-jpeg/src/mcu.rs: inner_decode_mcu_width"]}
{"id": "C75", "title": "JPEG blocks do not disturb each other", "statement": "Decoding many blocks one after the other gives for each block the samples of its own coefficients: nothing is left over from earlier blocks, although the scratch block is only partly cleared; exactly the 8x8 square of the block is written, with values 0 to 255.", "quantifier": "every sequence of blocks", "why_tests_cant": "needs particular sequences of short and long blocks", "anchors": ["crates/zune-jpeg/src/mcu.rs: inner_decode_mcu_width"]}
{"id": "C76", "title": "JPEG colours are right", "statement": "A JPEG row of luma and chroma samples is turned into RGB, RGBA, BGR or BGRA pixels whose values differ by at most 0.51 from the JFIF formula, with opaque alpha, for every width, and identically with and without AVX2.", "quantifier": "every width and every three rows of samples 0..255", "why_tests_cant": "2^24 colours times every width and tail length, and a second code path on other processors", "anchors": ["crates/zune-jpeg/src/color_convert.rs", "crates/zune-jpeg/src/color_convert/scalar.rs", "crates/zune-jpeg/src/color_convert/avx.rs", "crates/zune-jpeg/src/worker.rs: color_convert"]}
{"id": "C77", "title": "Other JPEG colour spaces", "statement": "A grayscale JPEG is written unchanged (repeated for RGB, opaque for RGBA); CMYK and YCCK images are scaled by the black channel with correct rounding for RGB and RGBA output; two-component images are not written as something else.", "quantifier": "every width and all rows of samples", "why_tests_cant": "all combinations of input and output colorspace", "anchors": ["crates/zune-jpeg/src/worker.rs: color_convert"]}
{"id": "C78", "title": "Pictures with subsampled colour have the right pixels", "statement": "Every pixel of a YCbCr JPEG decoded to RGB, RGBA, BGR or BGRA has the colour of the full-size luma and chroma planes at its own place: chroma is interpolated by the triangle filter (repeated for unusual factors), also across the borders between rows of blocks, where rows are carried over from one step to the next; padding on the right and at the bottom is cut off.", "quantifier": "every width and height, every number of rows of blocks, all samples, 4:4:4, 4:2:2, 4:2:0, 4:4:0, 4:1:1", "why_tests_cant": "an error would show only in one or two rows near a border between rows of blocks and depends on the height", "anchors": ["crates/zune-jpeg/src/worker.rs: upsample", "crates/zune-jpeg/src/mcu.rs: post_process", "crates/zune-jpeg/src/upsampler/scalar.rs", "crates/zune-jpeg/src/upsampler/avx2.rs"]}
{"id": "C79", "title": "Upsampling does not depend on the processor", "statement": "Decoding a JPEG with subsampled colour gives the same bytes with and without AVX2, for every width.", "quantifier": "every row length and all samples", "why_tests_cant": "the vector code treats the last samples of a row differently depending on the length", "anchors": ["crates/zune-jpeg/src/upsampler/avx2.rs"]}
{"id": "C80", "title": "JPEG Huffman tables", "statement": "A Huffman table of a JPEG file is accepted if and only if it describes a prefix code (and, for DC, has no symbol above 15); any other table gives an error, never a panic.", "quantifier": "all sixteen code counts and all symbol lists", "why_tests_cant": "a table has up to 256 symbols over sixteen lengths; tests cover a handful of tables", "anchors": ["crates/zune-jpeg/src/huffman.rs", "crates/zune-jpeg/src/headers.rs"]}
{"id": "C81", "title": "JPEG blocks decode to their coefficients", "statement": "The blocks of a component in entropy-coded data, with stuffed bytes, decode to the dequantised coefficients that were coded; a component that is not needed is skipped over exactly the same bits; the debug and the release build agree.", "quantifier": "all tables, blocks and byte alignments of the data", "why_tests_cant": "the bit buffer refills at different points for each sequence of code lengths, and fast tables cover only part of the codes", "anchors": ["crates/zune-jpeg/src/bitstream.rs"]}
{"id": "C82", "title": "A valid JPEG scan is decoded completely", "statement": "Every block of a valid baseline scan, with or without restart markers, ends up in its place in the samples, whatever the order and sampling of the components; the result depends neither on the processor nor on strictness. This should hold for components in separate scans too.", "quantifier": "all scans, restart intervals and sampling factors", "why_tests_cant": "markers may be met at any point relative to the rows, because the bit buffer reads ahead; a test fixes one alignment", "anchors": ["crates/zune-jpeg/src/mcu.rs", "crates/zune-jpeg/src/bitstream.rs", "crates/zune-jpeg/src/headers.rs"]}
{"id": "C83", "title": "Corrupt JPEG scans never panic", "statement": "Whatever bytes follow the headers of a JPEG file, decoding ends with samples between 0 and 255 or with an error; it does not panic.", "quantifier": "all byte strings after any legal headers", "why_tests_cant": "fuzzing reaches only a sample of the corrupt files", "anchors": ["crates/zune-jpeg/src/mcu.rs", "crates/zune-jpeg/src/bitstream.rs", "crates/zune-jpeg/src/idct/scalar.rs"]}
{"id": "C84", "title": "From JPEG bytes to pixels", "statement": "A valid baseline YCbCr picture (4:4:4, 4:2:2, 4:4:0 or 4:2:0) decodes to the pixels that its blocks describe: each block transformed in its place, colour brought to full size, converted to the colour space asked for, for every width and height.", "quantifier": "all pictures, tables and sizes", "why_tests_cant": "the stages interact at block rows and picture edges; tests compare a few pictures with reference output", "anchors": ["crates/zune-jpeg/src/mcu.rs", "crates/zune-jpeg/src/worker.rs", "crates/zune-jpeg/src/upsampler/scalar.rs"]}
{"id": "C85", "title": "JPEG headers mean what the standard says", "statement": "From SOI to the first scan, and from one scan to the next, the tables, restart interval, frame and scan headers and metadata that the decoder works with are those the segments define, in any legal order, with or without fill bytes. Segments a decoder does not know are skipped without a trace.", "quantifier": "all legal sequences of segments", "why_tests_cant": "the number of segment orders, table counts and payloads is unbounded; tests have a few files from common encoders", "anchors": ["crates/zune-jpeg/src/headers.rs", "crates/zune-jpeg/src/decoder.rs", "crates/zune-jpeg/src/components.rs"]}
{"id": "C86", "title": "JPEG colour model", "statement": "Number of components, Adobe's transform flag and the component names R, G, B decide how samples are interpreted: grayscale, YCbCr, RGB, CMYK or YCCK.", "quantifier": "all headers", "why_tests_cant": "combinations of component counts, flags and names are rare in test files", "anchors": ["crates/zune-jpeg/src/headers.rs", "crates/zune-jpeg/src/misc.rs", "crates/zune-jpeg/src/decoder.rs"]}
{"id": "C87", "title": "ICC profiles in several chunks", "statement": "A profile is returned if and only if its chunks are complete (as many as they say, each number once, in any order), and then it is the chunks in order of their numbers.", "quantifier": "all lists of chunks", "why_tests_cant": "up to 255 chunks in any order and with any numbering errors", "anchors": ["crates/zune-jpeg/src/decoder.rs"]}
{"id": "C88", "title": "JPEG headers of any bytes do not panic", "statement": "Reading the headers of any byte string, up to the first scan or between scans, ends with a result or an error: no index out of range, no overflow, no endless loop.", "quantifier": "all byte strings, sizes, limits and strictness", "why_tests_cant": "fuzzing samples byte strings; lengths in segments can claim anything", "anchors": ["crates/zune-jpeg/src/headers.rs", "crates/zune-jpeg/src/decoder.rs", "crates/zune-core/src/bytestream/reader.rs"]}
{"id": "C89", "title": "A progressive JPEG file is decoded to its picture", "statement": "From the bytes of a valid progressive file (three components, 4:4:4, 4:2:2, 4:4:0 or 4:2:0) to pixels: after any legal sequence of scans every pixel has the colour of the coefficients sent so far.", "quantifier": "all files, scan sequences, sizes, tables, coefficients, output orders, builds and processors", "why_tests_cant": "legal scan scripts are unbounded, each with its own tables and refinements; tests have a handful of files and compare hashes", "anchors": ["crates/zune-jpeg/src/mcu_prog.rs", "crates/zune-jpeg/src/bitstream.rs", "crates/zune-jpeg/src/decoder.rs", "crates/zune-jpeg/src/headers.rs", "crates/zune-jpeg/src/mcu.rs"]}
{"id": "C90", "title": "A baseline JPEG file is decoded to its picture", "statement": "From the bytes of a valid baseline file (three components in one scan; 4:4:4, 4:2:2, 4:4:0 or 4:2:0) to pixels: every pixel has the colour of the file's coefficients at its place.", "quantifier": "all files, sizes, tables, restart intervals, coefficients, output orders, builds and processors", "why_tests_cant": "sizes up to 65535 and all combinations of tables and restart intervals", "anchors": ["crates/zune-jpeg/src/mcu.rs", "crates/zune-jpeg/src/bitstream.rs", "crates/zune-jpeg/src/decoder.rs", "crates/zune-jpeg/src/headers.rs", "crates/zune-jpeg/src/worker.rs"]}
{"id": "C91", "title": "Progressive and baseline files with the same coefficients look the same", "statement": "A file that was transcoded losslessly between baseline and progressive form decodes to exactly the same bytes.", "quantifier": "all pairs of files with the same coefficients, size and quantisers", "why_tests_cant": "two independent decoding paths must agree on every bit for every input", "anchors": ["crates/zune-jpeg/src/mcu_prog.rs", "crates/zune-jpeg/src/mcu.rs"]}
{"id": "C92", "title": "A compressed PSD file decodes to its picture", "statement": "Reading a PSD file whose merged image is stored with PackBits run-length compression gives, pixel by pixel, the samples of the file's channels (RGB, RGB with opacity, gray, CMYK).", "quantifier": "all sizes, channel data, packet sequences, resources and layer blocks", "why_tests_cant": "packets can be split in arbitrarily many ways and cross rows; tests have one or two files", "anchors": ["crates/zune-psd/src/decoder.rs", "crates/zune-image/src/codecs/psd.rs"]}
{"id": "C93", "title": "An uncompressed PSD file decodes to its picture", "statement": "Reading a PSD file stored without compression, with 8 or 16 bits a sample, gives the samples of its channels.", "quantifier": "all sizes, channel counts, depths, data and byte orders of the machine", "why_tests_cant": "the result depends on the machine's byte order and the number of channels", "anchors": ["crates/zune-psd/src/decoder.rs"]}
{"id": "C94", "title": "Arbitrary bytes never crash the PSD reader", "statement": "Decoding any bytes as PSD ends with an error or with a picture within the configured limits and with as many samples as its size and colours say.", "quantifier": "all byte strings and limits", "why_tests_cant": "the space of malformed files is unbounded", "anchors": ["crates/zune-psd/src/decoder.rs", "crates/zune-image/src/codecs/psd.rs", "crates/zune-image/src/image.rs"]}
{"id": "C95", "title": "PSD colours are freed from the white background", "statement": "Photoshop stores colours blended with white; the decoded straight colour is the one that was blended, up to the unavoidable rounding of the stored value and one unit.", "quantifier": "all colours and opacities", "why_tests_cant": "floating point rounding for every pair of colour and opacity", "anchors": ["crates/zune-psd/src/decoder.rs"]}
{"id": "C96", "title": "Neighbourhood statistics are those of the window", "statement": "Each output pixel of the spatial statistics filter is the minimum, maximum, their difference, the mean or the contrast (max-min)/(max+min) of the square window around it, with edge pixels repeated.", "quantifier": "all pictures of 8 or 16 bits, sizes and radii, debug and release builds", "why_tests_cant": "only radii for which the sums stay small are ever tried, and overflow differs between debug and release builds", "anchors": ["crates/zune-imageprocs/src/spatial_ops.rs:40-170", "crates/zune-imageprocs/src/spatial.rs:106-194"]}
{"id": "C97", "title": "Edge filters compute the documented gradient", "statement": "Each output pixel of the Sobel and Scharr filters is the length of the gradient with the documented matrices, cut to an integer and limited to the range of the samples; a flat picture becomes black.", "quantifier": "all pictures of 8 or 16 bits and sizes, debug and release builds", "why_tests_cant": "the pixels that enter with wrong weights matter only for some windows, the overflow only for strong edges", "anchors": ["crates/zune-imageprocs/src/sobel.rs:14-200", "crates/zune-imageprocs/src/scharr.rs:14-250"]}
{"id": "C98", "title": "Convolution is the weighted sum of the window", "statement": "Each output pixel of a convolution with a 3x3, 5x5 or 7x7 kernel is the weighted sum of its window times the scale, limited to the range of the samples; other kernel sizes are refused.", "quantifier": "all pictures of 8 or 16 bits, sizes and kernels", "why_tests_cant": "kernels and pictures form a space no set of examples covers; rounding errors of sums of floats show only for some values", "anchors": ["crates/zune-imageprocs/src/convolve.rs:131-333"]}
{"id": "C99", "title": "Brightness adds the chosen share of the range", "statement": "Brightening by an amount from -1 to 1 adds that share of the largest sample to every sample, limited to the range; 0 changes nothing, 1 gives white, -1 black; larger amounts count as 1, and the result is monotone in the sample and in the amount.", "quantifier": "all finite amounts, all samples of 8 or 16 bits", "why_tests_cant": "the amounts are all 32-bit floats; rounding errors that break monotonicity show only for some of them", "anchors": ["crates/zune-imageprocs/src/brighten.rs:70-139"]}
{"id": "C100", "title": "Exposure and contrast follow their formulas", "statement": "Exposure subtracts the black level and multiplies; contrast stretches around the middle level. The documented default settings change nothing, and the order of the samples is kept.", "quantifier": "all finite settings, all samples (8 or 16 bits for exposure, 8 bits for contrast)", "why_tests_cant": "settings are arbitrary floats; a default that is never run in tests may destroy the picture", "anchors": ["crates/zune-imageprocs/src/exposure.rs:20-106", "crates/zune-imageprocs/src/contrast.rs:97-109"]}
{"id": "C101", "title": "Blending mixes two pictures", "statement": "Blending with opacity alpha gives alpha*source + (1-alpha)*destination for every sample; 0 or less keeps the destination, 1 or more gives the source, values that are no numbers are refused.", "quantifier": "all alphas, all samples of 8 or 16 bits", "why_tests_cant": "alpha above one and rounding just below a level are boundary cases of a continuous parameter", "anchors": ["crates/zune-imageprocs/src/blend.rs:20-157"]}
{"id": "C102", "title": "Gamma correction is a monotone curve that fixes black and white", "statement": "Gamma correction keeps the order of the samples and their range, leaves black and white alone, gives the maximum where the curve goes above it, and changes nothing for gamma 1.", "quantifier": "all positive exponents and every power function that is monotone on 0..1, all samples of 8 or 16 bits", "why_tests_cant": "the power function belongs to the platform; 65536 levels times all exponents cannot be tried", "anchors": ["crates/zune-imageprocs/src/gamma.rs:20-158"]}
{"id": "C103", "title": "A colour matrix is applied as documented", "statement": "Each component of a pixel becomes the documented combination of the four components and a constant, limited to the range; the identity matrix changes nothing, a matrix needs exactly twenty entries, and the documented examples do what they say.", "quantifier": "all finite matrices with moderate entries, all pixels of 8 or 16 bits", "why_tests_cant": "matrices have twenty arbitrary float entries", "anchors": ["crates/zune-imageprocs/src/color_matrix.rs:20-227"]}
{"id": "C104", "title": "Hue, saturation and lightness settings mean what they say", "statement": "The neutral setting (0, 1, 1) changes nothing, saturation 0 gives gray whatever the hue, and lightness 0 or less gives black.", "quantifier": "all pixels of 8 or 16 bits, all hues and lightness values", "why_tests_cant": "an error in one constant of the matrix changes bright blue only by a few levels, which fuzzy image comparison accepts", "anchors": ["crates/zune-imageprocs/src/hsv_adjust.rs:20-181"]}
{"id": "C105", "title": "A whole BMP file decodes to its pixels", "statement": "For a file described by its header fields (24 bits, 32 bits with or without masks, 16 bits, a palette with 1, 2, 4 or 8 bits, run lengths; stored from the top or the bottom) the decoder returns, for every pixel, the colour at its place in the file.", "quantifier": "all complete files with headers of 12, 40, 52, 56, 64, 108 or 124 bytes, all sizes within the limits", "why_tests_cant": "the test pictures are 127 by 64 pixels, where rows of 16, 4, 2 and 1 bits happen to have the length that the decoder computes in the wrong way", "anchors": ["crates/zune-bmp/src/decoder.rs:285-602", "crates/zune-bmp/src/decoder.rs:676-1114", "crates/zune-bmp/src/utils.rs:9-108"]}
{"id": "C106", "title": "The BMP decoder survives any bytes", "statement": "Whatever the input is, decoding returns a picture or an error; a picture has exactly the number of bytes announced by the header, and the size respects the limits.", "quantifier": "all byte strings shorter than 2^55, all limits whose product can be allocated", "why_tests_cant": "fuzzing cannot try all files; a panic may need a particular mix of depth, compression and palette", "anchors": ["crates/zune-bmp/src/decoder.rs:285-1114"]}
{"id": "C107", "title": "BMP header fields are reported correctly", "statement": "After reading the header, width, height, depth, number of channels, masks, colour primaries and the embedded colour profile are those of the file.", "quantifier": "all files of 24 or 32 bits with the known headers, all profiles up to 20 MB", "why_tests_cant": "the repository has few files with long headers, and none with each length", "anchors": ["crates/zune-bmp/src/decoder.rs:285-602"]}
{"id": "C108", "title": "Animated PNG frames are composed as the specification says", "statement": "Playing an animation with the documented loop shows, after every frame, the canvas that the APNG specification prescribes: the frame's pixels in its region, everything else as left by the frames before it and their dispose operations.", "quantifier": "all image sizes, colour types, numbers of frames, offsets, sizes and pixel values", "why_tests_cant": "the animations in the tests are compared with stored results of this very code, and none checks what the next frame finds", "anchors": ["crates/zune-png/src/apng.rs:226-390", "crates/zune-png/src/apng.rs:172-224"]}
{"id": "C109", "title": "Laying an animation frame over the canvas mixes by opacity", "statement": "With the OVER operation a transparent pixel changes nothing, an opaque one replaces colours and opacity, and others give the mixture of the colours.", "quantifier": "all samples, opacities, gamma values and sizes", "why_tests_cant": "there are 2^24 combinations for each sample and gamma, and rounding is in single precision", "anchors": ["crates/zune-png/src/apng.rs:326-387"]}
{"id": "C110", "title": "Composing an animation frame never panics", "statement": "post_process_image returns an error for frames outside of the image or buffers that are too short, and never panics.", "quantifier": "all frame descriptions, buffers and colour types", "why_tests_cant": "the frame description comes from the file; unit tests use well formed files only", "anchors": ["crates/zune-png/src/apng.rs:226-390"]}
{"id": "C111", "title": "Every frame of an animated PNG file is delivered, in order, with its pixels", "statement": "Reading an animated PNG with the documented loop gives the description (size, position, delay, dispose and blend operation) and the pixels of every frame exactly once, in the order of the file, the image of the IDAT chunks first, wherever ancillary chunks stand and however the data is divided into chunks.", "quantifier": "all images, colour types, numbers and sizes of frames, divisions into chunks, ancillary chunks and options", "why_tests_cant": "frames share one parser state that is resumed in the middle of the file; the combinations of layouts are unbounded", "anchors": ["crates/zune-png/src/headers/readers.rs:238-259", "crates/zune-png/src/headers/readers.rs:471-571", "crates/zune-png/src/decoder.rs:389-423", "crates/zune-png/src/decoder.rs:612-744"]}
{"id": "C112", "title": "zune-image reads an animated PNG as the canvases a viewer would show", "statement": "Decoding an animated PNG with animations enabled gives one picture for each frame of the animation: what a viewer shows at that moment.", "quantifier": "all animated files and images", "why_tests_cant": "the only animated test files check the number of frames", "anchors": ["crates/zune-image/src/codecs/png.rs:38-86", "crates/zune-png/src/apng.rs:226-390"]}
{"id": "C113", "title": "A gzip file decodes to its data", "statement": "For every gzip file whose data fits the output limit, the decoder returns exactly the data of its members, whichever optional header fields are present and whatever bytes follow.", "quantifier": "all members: flags, extra fields, names, comments, header checksums, times, DEFLATE streams; all trailing bytes and options", "why_tests_cant": "header fields of variable length shift the compressed data, and streams are unbounded", "anchors": ["crates/zune-inflate/src/decoder.rs:360-509", "crates/zune-inflate/src/crc.rs:18-45"]}
{"id": "C114", "title": "What gzip decoding returns agrees with the trailer", "statement": "For any bytes at all, the gzip header parser returns an error or a position inside the input without panicking; if data is returned, the file holds its length and (when checksums are confirmed) its CRC-32; builds with overflow checks return the same or panic.", "quantifier": "all byte strings and options", "why_tests_cant": "a test can only try some corruptions", "anchors": ["crates/zune-inflate/src/decoder.rs:360-509"]}
{"id": "C115", "title": "Automatic orientation shows pictures upright", "statement": "For every picture and every Exif orientation 1 to 8, AutoOrient leaves the picture whose sample at column x, row y is the stored sample that the Exif standard assigns to that place, with width and height exchanged for 5 to 8, and marks the Exif data as upright.", "quantifier": "all pictures: sizes, depths, channels, samples; all Exif field lists", "why_tests_cant": "sizes and samples are unbounded and the new dimensions go through floating point", "anchors": ["crates/zune-imageprocs/src/auto_orient.rs:36-125", "crates/zune-imageprocs/src/rotate.rs:25-162", "crates/zune-imageprocs/src/flip.rs:76-121", "crates/zune-imageprocs/src/transpose.rs:50-92", "crates/zune-image/src/traits.rs:143-251"]}
{"id": "C116", "title": "Orienting is done once", "statement": "Running AutoOrient a second time changes nothing, whatever the picture and its Exif fields; without a usable orientation the first run changes no sample and no other field.", "quantifier": "all pictures, field lists and values of sine and cosine", "why_tests_cant": "any combination and order of fields may occur", "anchors": ["crates/zune-imageprocs/src/auto_orient.rs:36-125"]}
{"id": "C117", "title": "A pipeline applies all operations to all images", "statement": "Running a pipeline to its end leaves every image, the decoded one last, with all operations applied in order, or reports an error.", "quantifier": "all images, operations and decoders, abstractly", "why_tests_cant": "operations are arbitrary code that may fail for some images", "anchors": ["crates/zune-image/src/pipelines.rs:75-246"]}
{"id": "C118", "title": "Pipelines come to an end", "statement": "Running a pipeline to its end terminates from every state it can be in.", "quantifier": "all pipelines", "why_tests_cant": "a loop over states with errors and early exits", "anchors": ["crates/zune-image/src/pipelines.rs:20-60", "crates/zune-image/src/pipelines.rs:234-246"]}
{"id": "C119", "title": "HDR samples decode to their value", "statement": "Every sample of a decoded Radiance file is exactly the number its RGBE pixel denotes: mantissa times two to the exponent less 136, and zero for exponent zero.", "quantifier": "all files the decoder accepts, all pixels and components", "why_tests_cant": "files, positions and all 65536 pairs of mantissa and exponent", "anchors": ["crates/zune-hdr/src/decoder.rs:248-394", "crates/zune-hdr/src/decoder.rs:460-519"]}
{"id": "C120", "title": "HDR files keep the picture", "statement": "Writing a picture of floats and reading it gives every colour back to the precision of RGBE, each pixel depending on nothing but itself.", "quantifier": "all pictures of floats", "why_tests_cant": "pictures are unbounded and the conversion takes logarithms", "anchors": ["crates/zune-hdr/src/encoder.rs:129-348", "crates/zune-hdr/src/decoder.rs:248-519"]}
{"id": "C121", "title": "Saved pictures are recognised", "statement": "Saving a valid picture in a format succeeds, and looking at the file's first bytes, as opening it does, gives that format back and leaves the source at its start.", "quantifier": "all valid pictures of every colorspace, depth and size, in every format written (QOI, PNG, PPM, Farbfeld)", "why_tests_cant": "tests save a few pictures; every format's signature is compared with every file's first bytes, which depend on the picture", "anchors": ["crates/zune-image/src/codecs.rs:723-790", "crates/zune-image/src/traits.rs:309-366", "crates/zune-image/src/codecs/png.rs:155-221", "crates/zune-image/src/codecs/ppm.rs:44-90", "crates/zune-image/src/codecs/qoi.rs:101-146", "crates/zune-image/src/codecs/farbfeld.rs:107-146"]}
{"id": "C122", "title": "Saving and opening gives the picture back", "statement": "Opening a saved file gives the first frame of the picture with its size, every sample as converting by hand to the colours and depth the format keeps would give.", "quantifier": "all valid pictures, formats and reading options without alpha or stripping", "why_tests_cant": "the space of pictures, and all the layers together: conversion, interleaving, byte order, codec, recognition, splitting", "anchors": ["crates/zune-image/src/codecs.rs:547-664", "crates/zune-image/src/traits.rs:309-366", "crates/zune-image/src/image.rs:185-220", "crates/zune-image/src/image.rs:403-441"]}
{"id": "C123", "title": "Saving keeps colours and transparency", "statement": "A saved picture shows the same colours and the same transparency when opened again, in whatever arrangement its channels were and whether its colours were multiplied by alpha or not, if the format can store them.", "quantifier": "all pictures in arrangements of red, green, blue and alpha", "why_tests_cant": "tests compare a handful of pictures; arrangements, marks and formats multiply", "anchors": ["crates/zune-image/src/traits.rs:309-366", "crates/zune-image/src/traits.rs:418-420", "crates/zune-image/src/codecs/png.rs:192-221"]}
{"id": "C124", "title": "Bilinear resizing computes the interpolated picture", "statement": "Resizing an 8-bit or 16-bit channel to sides of up to 2^20 never fails, gives a channel of the new size, and each sample is the exact bilinear value between the pixels, cut to a whole number, with an error of at most a quarter of a step and (width + height) / 2^22 of the full range.", "quantifier": "all pictures and all sizes with sides from 1 to 2^20, both depths", "why_tests_cant": "the arithmetic is in single precision; the errors of the place and of the weights depend on all sizes and samples", "anchors": ["crates/zune-imageprocs/src/resize/bilinear.rs:1-64", "crates/zune-imageprocs/src/resize.rs:128-186"]}
{"id": "C125", "title": "Resizing makes no new light", "statement": "A sample of a resized picture is no brighter than the brightest of the four pixels around its place and no darker than the darkest of them; a flat picture stays flat.", "quantifier": "all pictures and all sizes with sides from 1 to 2^20, both depths", "why_tests_cant": "rounding errors appear only for particular sizes, places and samples", "anchors": ["crates/zune-imageprocs/src/resize/bilinear.rs:1-64"]}
{"id": "C126", "title": "Resizing to the same size changes nothing", "statement": "Resizing a picture to the size it has leaves it unchanged, and reducing its sides by whole factors picks every so many pixels.", "quantifier": "all pictures and sizes", "why_tests_cant": "whether the ratio of the sides is computed exactly depends on the size: the first size that goes wrong is 41", "anchors": ["crates/zune-imageprocs/src/resize/bilinear.rs:18-49"]}
{"id": "C127", "title": "A JPEG XL file says what it contains and its table of contents leads to every section", "statement": "Saving a picture as JPEG XL with sides from 2 to 2^30 - 1 writes whole bytes; a reader of the format finds in them the width, height, depth and grey or colour of the picture and whether it has alpha, then a table of contents with which it cuts the rest of the file into exactly the sections that the compressor produced, each filled up with zero bits, with nothing left over.", "quantifier": "all sides, both depths, all four kinds of colour, all numbers of sections and all contents of them", "why_tests_cant": "the fields have four lengths each depending on the value, sections end within bytes, and where each lies depends on all those before it", "anchors": ["crates/zune-jpegxl/src/encoder.rs:1373-1425", "crates/zune-jpegxl/src/encoder.rs:1448-1595", "crates/zune-jpegxl/src/bit_writer.rs:104-228"]}
{"id": "C128", "title": "A JPEG XL file announces the depth of every channel", "statement": "The headers of a saved JPEG XL file announce the depth of the samples for the colours and for the alpha channel.", "quantifier": "all sides, both depths, all four kinds of colour", "why_tests_cant": "the decoder of another program reads the field; tests compare only 8-bit pictures", "anchors": ["crates/zune-jpegxl/src/encoder.rs:1518-1523"]}
{"id": "C129", "title": "The bit writer of the JPEG XL encoder keeps every bit", "statement": "Any sequence of calls that put fewer than 56 bits each or fill up to a byte, within the memory asked for at the start, goes through without a panic, and the writer then holds exactly those bits in that order.", "quantifier": "all sequences of calls, all values, all amounts of memory", "why_tests_cant": "the buffer is emptied at moments that depend on the lengths of all earlier calls", "anchors": ["crates/zune-jpegxl/src/bit_writer.rs:27-99"]}
{"id": "C130", "title": "Numbers in JPEG XL sections can be recovered", "statement": "Run lengths and residuals split into a token and extra bits are recovered by the rule of the format, the extra bits fit the number that the token announces, and signed residuals folded to unsigned ones are recovered.", "quantifier": "all 32-bit values", "why_tests_cant": "there are 2^32 values and the split changes at every power of two", "anchors": ["crates/zune-jpegxl/src/bit_writer.rs:230-251", "crates/zune-jpegxl/src/encoder.rs:148-150"]}
{"id": "C131", "title": "Skipping and rewinding a stream move by exactly the bytes asked for", "statement": "Skipping moves the position forwards by the number of bytes given, rewinding moves it back by that number and undoes a skip, neither changes the data, and rewinding past the start is an error.", "quantifier": "all streams, positions and amounts", "why_tests_cant": "all positions and amounts, also beyond both ends", "anchors": ["crates/zune-core/src/bytestream/reader.rs:160-179", "crates/zune-core/src/bytestream/reader/std_readers.rs:119-140"]}
{"id": "C132", "title": "A Gaussian blur stays within the range of the picture", "statement": "Blurring a picture with a Gaussian of any deviation does not panic, every sample of the result lies between the smallest and the largest sample of the picture, and a flat picture is not changed.", "quantifier": "all pictures at both integer depths, all sides and deviations", "why_tests_cant": "the running sums depend on all samples of a row, and the cut of the filters on the sides", "anchors": ["crates/zune-imageprocs/src/gaussian_blur.rs:169-248", "crates/zune-imageprocs/src/gaussian_blur.rs:310-366"]}
{"id": "C133", "title": "A Gaussian blur spreads by its deviation, in place", "statement": "A Gaussian blur with deviation sigma is three averages along rows and columns whose widths together have about that deviation, and it does not move the picture.", "quantifier": "all pictures at both integer depths, all sides and deviations", "why_tests_cant": "the result is a composition of six filters, and an error in their widths still looks like a blur", "anchors": ["crates/zune-imageprocs/src/gaussian_blur.rs:169-248"]}
{"id": "C134", "title": "Sharpening adds what the blur removes", "statement": "Sharpening adds to each sample its difference from the blurred picture when that exceeds the threshold, keeping the result within the range, and leaves other samples as they are.", "quantifier": "all pictures at both integer depths, all thresholds and deviations", "why_tests_cant": "samples darker and brighter than their surroundings take different paths through modular arithmetic", "anchors": ["crates/zune-imageprocs/src/unsharpen.rs:182-252"]}
{"id": "C135", "title": "The headers of a GIF file are read as the format says", "statement": "For every file with one of the two signatures, the width, height, flags, background, ratio and global colours are what the file contains, the size announced for the output is four bytes a pixel, and the stream stands behind the colours; other data, a file ending in the screen descriptor and sides above the limits are refused, and reading the headers again changes nothing.", "quantifier": "all contents of files, limits and flags", "why_tests_cant": "all combinations of flags, sides and lengths of data", "anchors": ["crates/zune-gif/src/decoder.rs:52-121", "crates/zune-gif/src/decoder.rs:176-195"]}
{"id": "C136", "title": "The GIF decoder keeps to the buffer it is given", "statement": "In every state of the decoder a call keeps the length of the buffer, leaves the contents alone when it fails, does not panic, and refuses a buffer smaller than the size announced.", "quantifier": "all states of the decoder, files and buffers", "why_tests_cant": "the state depends on all earlier calls, also failed ones", "anchors": ["crates/zune-gif/src/decoder.rs:136-174"]}
{"id": "C137", "title": "Decoding a GIF file gives its picture", "statement": "Decoding a GIF file puts the pixels of its first picture in the buffer, and a file that ends early is an error.", "quantifier": "all files", "why_tests_cant": "needs all pictures", "anchors": ["crates/zune-gif/src/decoder.rs:100-174"]}
{"id": "C138", "title": "A bilateral filter works with every diameter and stays within the range of the picture", "statement": "Filtering with any diameter and deviations does not panic, every sample of the result lies between the smallest and the largest sample of the picture, and a flat picture is not changed.", "quantifier": "all pictures, sides, diameters and weights", "why_tests_cant": "the room for the weights depends on the number of grid points in a circle, for every diameter", "anchors": ["crates/zune-imageprocs/src/bilateral_filter.rs:78-223"]}
{"id": "C139", "title": "A bilateral filter averages the circle around each sample", "statement": "Each sample of the result is the average of the samples within the radius, weighted by their distance from it and by their difference from it.", "quantifier": "all pictures, sides, diameters and weights", "why_tests_cant": "a filter that uses the wrong neighbours still looks smooth", "anchors": ["crates/zune-imageprocs/src/bilateral_filter.rs:136-223"]}
{"id": "C140", "title": "An affine transform moves the picture as asked", "statement": "The result has the size of the box around the moved picture, and every place of it shows the sample that was moved there, or the fill colour where there is none. In particular the identity changes nothing.", "quantifier": "all pictures, sides and transforms", "why_tests_cant": "every coordinate passes through rounded arithmetic and an inverse; samples near the border are easily lost", "anchors": ["crates/zune-imageprocs/src/affine.rs:113-311"]}
{"id": "C141", "title": "Affine transforms compose and invert as documented", "statement": "A composed transform moves every point as its parts do one after the other, in the order in which they are written; the inverse moves every point back; a transform that has no inverse is refused.", "quantifier": "all transforms and points", "why_tests_cant": "the order matters only for transforms that do not commute, and tests use ones that do", "anchors": ["crates/zune-imageprocs/src/affine.rs:93-128"]}
{"id": "C142", "title": "Resizing with any method works and keeps flat pictures flat", "statement": "Resizing a picture to any size with any method gives a picture of that size, with all samples in range, without a panic; if all samples are equal, so are those of the result.", "quantifier": "all pictures, sizes and kernel functions", "why_tests_cant": "positions and weights are rounded, and the windows near both ends are cut", "anchors": ["crates/zune-imageprocs/src/resize/seperable_kernel.rs:74-411"]}
{"id": "C143", "title": "Shrinking takes the whole row into account", "statement": "When a row is shrunk, every sample of it can influence the result, as it can when the eye averages the row.", "quantifier": "all rows, widths and kernel functions", "why_tests_cant": "which samples are read depends on both widths; a picture shrunk a little looks right", "anchors": ["crates/zune-imageprocs/src/resize/seperable_kernel.rs:257-411"]}
{"id": "C144", "title": "Shrinking by an odd factor gives the middle samples exactly", "statement": "Shrinking a row, or both sides of a picture, by odd factors with the Catmull-Rom or Hermite method, or any other whose kernel is 1 at 0 and 0 at the other whole numbers, gives exactly the middle sample of every group: rounding changes no sample.", "quantifier": "all rows and pictures with sides of up to 2^20 samples, all odd factors, all such kernels", "why_tests_cant": "positions, weights and sums are rounded; tests look at a few widths", "anchors": ["crates/zune-imageprocs/src/resize/seperable_kernel.rs:257-467"]}
