{"id": "C01", "title": "Coefficient round trip with the standard Huffman tables", "statement": "For every valid image and every configuration with optimized tables off (any sampling factor, colour type, restart interval, quality, built-in or custom table with entries <= 255, baseline or progressive with at most 33 scans), encoding succeeds and a decoder written from ITU-T T.81 accepts the produced byte stream and recovers exactly the width, height, component list, sampling factors, quantization tables, application segments and, for every block of every component, exactly the quantized DCT coefficients the encoder computed from the (edge-replicated, subsampled) input samples.", "quantifier": "all images (dimensions 1..65535, all pixel values), all encoder configurations, both usize widths, debug and release", "why_tests_cant": "A test decodes a handful of images; the claim is about every pixel array, every dimension, every combination of options.", "anchors": ["src/encoder.rs:encode_image_internal", "src/encoder.rs:encode_image_interleaved", "src/encoder.rs:encode_image_sequential", "src/encoder.rs:encode_image_progressive", "src/writer.rs:write_block", "src/writer.rs:write_bits"]}
{"id": "C02", "title": "Coefficient round trip with optimized Huffman tables", "statement": "With set_optimized_huffman_tables(true), no restart inside a scan, and at most 146,467 data units (63 AC symbols each stay below the Fibonacci bound of C20), encoding succeeds, the emitted Huffman tables are valid, and the T.81 decoder recovers exactly the same coefficients as with the standard tables.", "quantifier": "all images up to the symbol bound, sequential and progressive, all sampling factors and colour types", "why_tests_cant": "Optimized tables depend on the histogram of the whole image; tests see a few histograms.", "anchors": ["src/encoder.rs:optimize_huffman_table", "src/huffman.rs:new_optimized"]}
{"id": "C03", "title": "Optimized Huffman tables together with a restart interval", "statement": "With optimized Huffman tables and a restart interval the DC statistics ignore that the prediction is reset at a restart. Exactly when every DC category that is written (with the resets) also occurs among the categories of the successive differences without resets, for a component with the same table, the encoder writes the reference encoder's bytes in every build and the file decodes to the image. Otherwise a build with debug assertions always panics, and a release build always returns Ok and writes a file in which those categories have no code word (a 16x8 grey image with restart interval 1 gives an undecodable file, although each option alone works). [A defect of the unchanged code.]", "quantifier": "all images of at most 146,467 data units, all configurations with optimized tables, all restart intervals, all builds and targets", "why_tests_cant": "The failure needs a DC category which only occurs right after a restart; the option pair is untested and most images happen to work.", "anchors": ["src/encoder.rs:optimize_huffman_table", "src/writer.rs:write_dc", "src/huffman.rs:get_for_value"]}
{"id": "C04", "title": "Decoded coefficients do not depend on the coding mode", "statement": "For a fixed image, quality, tables and sampling factor, the decoded coefficients of every block are the same whether the file was written interleaved, one scan per component or progressive with any number of scans, with standard or optimized Huffman tables, and whatever the restart interval, as long as the file decodes to the image at all (C46).", "quantifier": "all images, all pairs of coding modes", "why_tests_cant": "Relates two runs for every image; tests compare against the input with a tolerance.", "anchors": ["src/encoder.rs:encode_image_internal"]}
{"id": "C05", "title": "Byte stuffing: no accidental markers in entropy-coded data", "statement": "In the entropy-coded part of every scan each 0xFF byte is followed by 0x00 (a stuffed byte) or is the first byte of a restart marker that the encoder deliberately wrote; the word-at-a-time fast path emits exactly the bytes the byte-at-a-time path would.", "quantifier": "all sequences of bit writes, all buffer states, both word sizes; any number of scans, quantization tables, standard or optimized Huffman tables", "why_tests_cant": "An accidental marker depends on bit alignment and on carries in the 0xFF detection trick; 2^64 buffer values cannot be enumerated.", "anchors": ["src/writer.rs:write_bit_buffer", "src/writer.rs:flush_byte_from_bit_buffer", "src/writer.rs:finalize_bit_buffer", "src/writer.rs:write_bits"]}
{"id": "C06", "title": "Restart markers", "statement": "With restart interval r, each scan of n MCUs (blocks, in single-component scans) contains exactly ceil(n/r)-1 restart markers, one after every r MCUs, numbered RST0..RST7 cyclically from RST0 in each scan, byte aligned with 1-bits padding, and DC prediction restarts from 0 after each; with interval 0 there are none and no DRI segment is written.", "quantifier": "all MCU counts, all restart intervals 0..65535, all block contents; any number of scans, quantization tables, standard or optimized Huffman tables", "why_tests_cant": "Marker position and numbering is a counter invariant over arbitrarily many MCUs.", "anchors": ["src/encoder.rs:set_restart_interval", "src/encoder.rs:encode_image_interleaved", "src/encoder.rs:encode_image_sequential", "src/encoder.rs:encode_image_progressive", "src/writer.rs:write_dri"]}
{"id": "C07", "title": "Write failures", "statement": "If the output sink fails at any write, encode returns exactly that error, nothing is written afterwards, and what the sink accepted before is a prefix of the bytes a never-failing sink would have received.", "quantifier": "all sinks, all failure points, all images and configurations", "why_tests_cant": "Every failure point of every run is a separate case.", "anchors": ["src/writer.rs:JfifWrite", "src/writer.rs:write", "src/encoder.rs:encode_image_internal"]}
{"id": "C08", "title": "Input validation writes nothing", "statement": "encode returns BadImageData{length, required} exactly when data is shorter than width*height*bytes-per-pixel, ZeroImageDimensions exactly when it is long enough and width or height is 0, and in both cases not a single byte is written.", "quantifier": "all data lengths, dimensions and colour types (64-bit usize)", "why_tests_cant": "Boundary for every combination of dimension and colour type.", "anchors": ["src/encoder.rs:encode", "src/encoder.rs:encode_image_internal"]}
{"id": "C09", "title": "add_app_segment contract", "statement": "add_app_segment(n, data) succeeds exactly when 1 <= n <= 15 and data is at most 65533 bytes, then appends that segment; otherwise it returns InvalidAppSegment (checked first) or AppSegmentTooLarge and leaves the encoder unchanged. Each accepted segment appears verbatim, in call order, in the output with a correct length field.", "quantifier": "all segment numbers, all data, all histories of calls", "why_tests_cant": "Quantifies over histories and lengths up to the 16-bit limit.", "anchors": ["src/encoder.rs:add_app_segment", "src/writer.rs:write_segment"]}
{"id": "C10", "title": "ICC profile round trip", "statement": "add_icc_profile on data needing at most 254 chunks succeeds, adds APP2 segments that carry ICC_PROFILE\\0, sequence numbers 1..n and the total n, and the ICC reassembly procedure applied to them gives back exactly the data; otherwise it returns IccTooLarge and changes nothing (never a partial profile).", "quantifier": "all byte strings", "why_tests_cant": "One 128 KiB profile is tested; chunk boundaries and the limit are not.", "anchors": ["src/encoder.rs:add_icc_profile", "src/encoder.rs:ceil_div"]}
{"id": "C11", "title": "ICC profile size limit", "statement": "The documented maximum (16,707,345 bytes, i.e. 255 chunks) is accepted. [Violated: the code already rejects profiles needing 255 chunks; the real limit is 16,641,826 bytes.]", "quantifier": "all lengths up to the documented maximum", "why_tests_cant": "No test goes near the limit.", "anchors": ["src/encoder.rs:add_icc_profile"]}
{"id": "C12", "title": "The quantization table in the file is the one used for quantizing", "statement": "Each DQT entry written to the file is the divisor that was applied to the corresponding coefficient (times the DCT scale of 8), and is non-zero. [Holds for all built-in tables and qualities and for custom entries <= 255; violated for custom entries 256..2048, which are truncated to 8 bits in the file: with such an entry in a table the image uses, the file never decodes to the image; with a multiple of 256 in either table no file is valid, even for a greyscale image, which does not use the second table.]", "quantifier": "all table types, qualities, custom tables, indices", "why_tests_cant": "2^1024 custom tables.", "anchors": ["src/quantization.rs:get_user_table", "src/quantization.rs:get", "src/writer.rs:write_quantization_segment"]}
{"id": "C13", "title": "Quality controls the quantization tables monotonically", "statement": "For every built-in table, every quantizer is in 1..255, equals the libjpeg scaling formula, never increases when quality increases, and is 1 everywhere at quality 100.", "quantifier": "all built-in tables, all qualities, all indices", "why_tests_cant": "Relation between all pairs of qualities.", "anchors": ["src/quantization.rs:get_with_quality"]}
{"id": "C14", "title": "Quality is clamped", "statement": "Quality 0 produces the same file as quality 1, and any quality above 100 the same file as 100.", "quantifier": "all images, all out-of-range qualities", "why_tests_cant": "Equality of whole files for all images.", "anchors": ["src/encoder.rs:new", "src/quantization.rs:get_with_quality"]}
{"id": "C15", "title": "Quantization error bound", "statement": "Each quantized coefficient c with divisor d approximates the DCT output v: sign is preserved, zero maps to zero, magnitude is monotone in |v|, and |v - c*d| stays within an explicit bound; for the divisors used at quality 100 (and every power-of-two table entry) it is the nearest integer. [Exact round-to-nearest for every divisor is violated because a 15-bit reciprocal is used.]", "quantifier": "all 16-bit coefficients, all divisors 8..16384", "why_tests_cant": "Tests check one divisor.", "anchors": ["src/quantization.rs:compute_reciprocal", "src/quantization.rs:quantize"]}
{"id": "C16", "title": "DCT arithmetic never overflows and coefficients stay codable", "statement": "For every 8x8 block of 8-bit samples no intermediate i32 operation of the forward DCT overflows, no result is truncated by the cast to i16, and for every quantization table the quantized DC differences have at most 11 bits and AC coefficients at most 10 bits, so each has a code in the standard tables.", "quantifier": "all 256^64 sample blocks, all quantization tables", "why_tests_cant": "The extreme blocks are not random; overflow is worst-case.", "anchors": ["src/fdct.rs:fdct", "src/writer.rs:get_code"]}
{"id": "C17", "title": "The forward transform is the DCT", "statement": "The integer transform differs from 8 times the exact (real-number) two-dimensional DCT-II of T.81 A.3.3 by less than an explicit small constant for every coefficient of every sample block.", "quantifier": "all 256^64 sample blocks, all 64 coefficients", "why_tests_cant": "Tests compare two blocks with libjpeg.", "anchors": ["src/fdct.rs:fdct", "src/fdct.rs:descale"]}
{"id": "C18", "title": "Flat areas are coded without AC energy", "statement": "A block in which all samples are equal gives 63 zero AC coefficients and DC proportional to the sample, so its reconstruction error is bounded by half a DC quantizer step.", "quantifier": "all sample values, all tables", "why_tests_cant": "Must hold for every value of the quantified domain, of which tests exercise a few points.", "anchors": ["src/fdct.rs:fdct", "src/quantization.rs:quantize"]}
{"id": "C19", "title": "Standard Huffman tables are valid and sufficient", "statement": "Each of the four standard tables is a prefix-free canonical code with no all-ones codeword, code lengths <= 16, and has a codeword for every symbol any encodable block can need (DC categories 0..11; AC run 0..15 x size 1..10, EOB, ZRL).", "quantifier": "all symbols", "why_tests_cant": "Sufficiency is needed for all blocks.", "anchors": ["src/huffman.rs:create_lookup_table", "src/huffman.rs:create_codes", "src/huffman.rs:default_luma_ac"]}
{"id": "C20", "title": "Optimized Huffman tables are valid for every histogram", "statement": "For every symbol histogram (u32 counts, reserved symbol counted once, at least one and at most 254 used symbols) whose total stays below the Fibonacci bound 9,227,465, table generation terminates without panic and returns a canonical prefix-free code with lengths 1..16, no all-ones codeword, listing exactly the symbols with non-zero count.", "quantifier": "all histograms below the bounds", "why_tests_cant": "Code-length limiting only triggers for extremely skewed histograms.", "anchors": ["src/huffman.rs:new_optimized"]}
{"id": "C21", "title": "Limits of optimized Huffman table generation", "statement": "The two bounds of C20 are sharp, so table generation is not panic-free for every histogram of u32 counts: a 33-symbol Fibonacci histogram with total exactly 9,227,465 indexes out of bounds, and 255 equally frequent symbols overflow the length counter; both panic on every platform, with or without overflow checks. [A limitation of the unchanged code.]", "quantifier": "all histograms with u32 counts", "why_tests_cant": "Requires a histogram with 34 symbols in Fibonacci proportion.", "anchors": ["src/huffman.rs:new_optimized"]}
{"id": "C22", "title": "Colour conversion", "statement": "rgb_to_ycbcr equals the JFIF conversion formula rounded to nearest (error at most one half plus coefficient rounding) for every colour, needs no clamping, maps greys to (g,128,128); cmyk_to_ycck applies it to CMY and inverts K.", "quantifier": "all 2^24 RGB triples, all 2^32 CMYK quadruples", "why_tests_cant": "Tests check some 90 triples.", "anchors": ["src/image_buffer.rs:rgb_to_ycbcr", "src/image_buffer.rs:cmyk_to_ycck"]}
{"id": "C23", "title": "Pixel format equivalences", "statement": "Rgba and Bgra files are byte-identical to the Rgb file of the same pixels without alpha, Bgr to the channel-swapped Rgb, Rgb to the Ycbcr file of the converted pixels, CmykAsYcck to the Ycck file of the converted pixels.", "quantifier": "all images, all alpha values, all configurations", "why_tests_cant": "Equality of whole outputs for all images.", "anchors": ["src/image_buffer.rs:ycbcr_image", "src/encoder.rs:encode"]}
{"id": "C24", "title": "Only the pixels of the image influence the output", "statement": "Bytes after width*height*bytes-per-pixel in data do not influence the output.", "quantifier": "all data, all surplus bytes", "why_tests_cant": "Non-interference over all inputs.", "anchors": ["src/encoder.rs:encode", "src/image_buffer.rs:get_line"]}
{"id": "C25", "title": "Block geometry and edge replication", "statement": "Each component of a scan contains exactly the blocks T.81 A.2 prescribes (ceil of the component dimension by 8, or whole MCUs when interleaved), in the prescribed order; samples come from the component plane at the subsampled position with coordinates beyond the right and bottom edge replaced by the last column and row.", "quantifier": "all dimensions, all sampling factors, all component counts", "why_tests_cant": "All residues of width and height modulo the MCU size.", "anchors": ["src/encoder.rs:encode_blocks", "src/encoder.rs:get_block", "src/encoder.rs:encode_image_interleaved", "src/encoder.rs:ceil_div"]}
{"id": "C26", "title": "ImageBuffer contract", "statement": "fill_buffers of a user-supplied ImageBuffer is only ever called with a row number below height, in non-decreasing order (every row once, then the last row again up to a multiple of the MCU height), whatever the buffer does; for every buffer that appends exactly width values per used channel no index is out of bounds, and each call has room for one more row within the capacity reserved for the sample buffers.", "quantifier": "all image buffers, dimensions, sampling factors and modes", "why_tests_cant": "Covers user code and all dimensions.", "anchors": ["src/image_buffer.rs:ImageBuffer", "src/encoder.rs:encode_blocks", "src/encoder.rs:encode_image_interleaved"]}
{"id": "C27", "title": "Progressive scans partition the coefficients", "statement": "For every accepted number of scans n the file starts with one scan of the DC coefficients per component, followed for each of n-1 bands by one scan per component; every AC coefficient 1..63 is in exactly one of the bands.", "quantifier": "all scan counts 2..64", "why_tests_cant": "Must hold for every value of the quantified domain, of which tests exercise a few points.", "anchors": ["src/encoder.rs:encode_image_progressive", "src/encoder.rs:set_progressive_scans"]}
{"id": "C28", "title": "Progressive scan headers are valid", "statement": "For every accepted number of scans (2..33) all scan headers satisfy Ss <= Se. [Violated for 34..64 scans: the first AC scan has Ss=1, Se=0; such a call reports success, and no file it writes is valid, whatever the image and the other settings.]", "quantifier": "all scan counts 2..64, all images and configurations", "why_tests_cant": "Tests only use 4 scans.", "anchors": ["src/encoder.rs:encode_image_progressive", "src/writer.rs:write_scan_header"]}
{"id": "C29", "title": "Setter history", "statement": "After any sequence of setter calls the getters report the last value set (restart interval 0 meaning none, set_progressive(true) meaning 4 scans, aliases kept as given), and the file depends only on those last values and the list of accepted segments.", "quantifier": "all sequences of configuration calls", "why_tests_cant": "Histories are unbounded.", "anchors": ["src/encoder.rs:set_density", "src/encoder.rs:set_sampling_factor", "src/encoder.rs:set_progressive", "src/encoder.rs:set_restart_interval"]}
{"id": "C30", "title": "Sampling factor aliases", "statement": "R_4_4_4.. aliases produce byte-identical files to their F_h_v counterparts; from_factors(h,v) returns the variant whose factors are (h,v) and None exactly for unsupported pairs.", "quantifier": "all images, all variants, all u8 pairs", "why_tests_cant": "Equality of whole files for all images.", "anchors": ["src/encoder.rs:SamplingFactor", "src/encoder.rs:from_factors", "src/encoder.rs:get_sampling_factors"]}
{"id": "C31", "title": "Platform independence", "statement": "Two builds in which a valid call succeeds write the same bytes, for 32-bit and 64-bit usize and with and without overflow checks and debug assertions; for the configurations of C01/C02 it succeeds in all of them.", "quantifier": "all images and configurations (optimized tables: up to 68,174,084 data units, which covers every greyscale image)", "why_tests_cant": "Needs runs on different targets for every image.", "anchors": ["src/writer.rs:BUFFER_SIZE", "src/writer.rs:write_bits", "src/writer.rs:write_bit_buffer"]}
{"id": "C32", "title": "AVX2 colour conversion equals the scalar one", "statement": "For every row of every image the SIMD fill_buffers appends the same bytes as the scalar one; it reads only inside the slice and writes only inside the capacity the encoder reserved, for every configuration and valid input, so a run with the SIMD buffer equals the run with the scalar buffer. (Without the length check this fails: on 32-bit release builds, where the check wraps around, the safe API reaches undefined behaviour.)", "quantifier": "all rows, widths and pixel values", "why_tests_cant": "All widths modulo 8 and all pixels; memory safety.", "anchors": ["src/avx2/ycbcr.rs:fill_buffers_avx2", "src/image_buffer.rs:ycbcr_image", "src/encoder.rs:init_rows", "src/encoder.rs:encode"]}
{"id": "C33", "title": "SIMD DCT against the scalar DCT", "statement": "With the simd feature (AVX2) every coefficient equals the one of the scalar build, except that in rows 0 and 4 and odd columns of a block it may be one less before quantization, and at most one less after (the rounding constant is missing in odd 16-bit lanes). So files of the two builds can differ, and there are images where they do; but every file of the SIMD build still decodes, to exactly the coefficients of the SIMD transform, and its bytes are determined by configuration and image.", "quantifier": "all sample blocks; all configurations and valid images for the file-level claims", "why_tests_cant": "No test compares the two; differs only for some residues.", "anchors": ["src/avx2/fdct.rs:fdct_avx2", "src/fdct.rs:fdct"]}
{"id": "C34", "title": "Short data is rejected on 32-bit targets", "statement": "encode never proceeds with too little data. [Violated with 32-bit usize in release builds: width*height*bytes wraps.]", "quantifier": "all dimensions, 32-bit usize", "why_tests_cant": "Needs a 32-bit target and dimensions whose product wraps.", "anchors": ["src/encoder.rs:encode"]}
{"id": "C35", "title": "File header", "statement": "Every file starts with SOI and a JFIF 1.02 APP0 segment carrying the configured density and unit, is followed for CMYK/YCCK by an Adobe APP14 segment with transform 0/2, then the user segments, and ends with EOI.", "quantifier": "all configurations", "why_tests_cant": "Must hold for every value of the quantified domain, of which tests exercise a few points.", "anchors": ["src/writer.rs:write_header", "src/encoder.rs:encode_image_internal"]}
{"id": "C36", "title": "Encoding valid input never panics", "statement": "For every valid image and any configuration, encode returns Ok(()) on a never-failing sink - no index out of bounds, overflow, failed assertion or unreachable! is reached, also with debug assertions on - and everything written are bytes; the only exceptions are the debug assertion that fails, in builds with debug assertions, for the calls described in C03 (optimized Huffman tables with a restart interval), and, only for more than 146,467 data units with optimized tables, the index panic of C43.", "quantifier": "all images and configurations", "why_tests_cant": "Absence of panics for every input.", "anchors": ["src/encoder.rs:encode_image", "src/writer.rs:write_bits", "src/huffman.rs:get_for_value"]}
{"id": "C37", "title": "Progressive scan count validation", "statement": "set_progressive_scans panics exactly when the argument is outside 2..=64 and otherwise stores it.", "quantifier": "all u8 values", "why_tests_cant": "Must hold for every value of the quantified domain, of which tests exercise a few points.", "anchors": ["src/encoder.rs:set_progressive_scans"]}
{"id": "C38", "title": "The file is determined by the samples", "statement": "Two encodings with the same settings and dimensions, from any two pixel formats or user image buffers that present the same component samples for every pixel and the same JPEG colour type, write the same bytes and return the same result; in particular encode(data, w, h, color) behaves as encode_image on the corresponding built-in image buffer.", "quantifier": "all images, pixel formats, image buffers, settings and sinks", "why_tests_cant": "Must hold for every pair of images presenting the same samples, whatever the buffer implementation.", "anchors": ["src/encoder.rs:encode", "src/encoder.rs:encode_image", "src/image_buffer.rs:ImageBuffer"]}
{"id": "C39", "title": "Release builds refine checked builds", "statement": "For every configuration, image (valid or not) and writer behaviour (including failing writers): if encode or encode_image does not panic in a build with overflow checks and debug assertions, a build without them makes the same write calls with the same bytes in the same order and returns the same result.", "quantifier": "all configurations, inputs, image buffers, writers and pointer widths", "why_tests_cant": "Tests run one build profile; the claim compares two profiles on every input and failure schedule.", "anchors": ["src/encoder.rs:encode", "src/writer.rs:write_bits", "src/fdct.rs:fdct", "src/huffman.rs:new_optimized"]}
{"id": "C40", "title": "Exact output", "statement": "The bytes written are exactly those of a reference encoder written from ITU-T T.81: SOI, the APPn segments, SOF, both DQT segments, the DHT segments, DRI if a restart interval is set, then for every scan of the scan script the scan header and the entropy-coded data of its data units in order (categories, additional bits, ZRL for sixteen zeros and EOB, bytes filled with ones, stuffed, restart markers in cyclic order), EOI - for the standard tables with every configuration (including quantizers above 255 and more than 33 progressive scans), and for optimized tables with four tables that a decoder accepts and that depend on the image and configuration only.", "quantifier": "all configurations, images, image buffers, builds and targets (optimized tables: images of at most 146,467 data units, and no restart inside a scan or as in C03)", "why_tests_cant": "Golden files compare a few images; equality of every byte for every image and configuration is not testable.", "anchors": ["src/encoder.rs:encode_image_internal", "src/encoder.rs:encode_image_interleaved", "src/encoder.rs:encode_image_sequential", "src/encoder.rs:encode_image_progressive", "src/writer.rs"]}
{"id": "C41", "title": "Bounded reconstruction error", "statement": "For every valid call, a decoder that dequantizes and applies the exact inverse DCT of T.81 to the coefficients of the file gets back every block of every component with a mean squared error of at most the mean square of an explicit function of the quantizers (about 5/8 of a quantizer step plus a constant 0.315); at quality 100 with the built-in tables the mean squared error of every block is at most 0.67 and no sample is off by more than 6.6.", "quantifier": "all images, pixel formats, qualities, tables, sampling factors, sequential and progressive, standard and optimized Huffman tables, scalar and AVX2 transform", "why_tests_cant": "Tests decode a few images with a tolerance; worst-case errors over all blocks cannot be searched.", "anchors": ["src/fdct.rs:fdct", "src/quantization.rs:QuantizationTable::quantize", "src/encoder.rs:encode_image_internal"]}
{"id": "C43", "title": "With optimized Huffman tables, success means a decodable file, whatever the image size", "statement": "With optimized tables switched on (8-bit quantizers, at most 33 scans, no restart inside a scan) and a valid image of up to 68,174,084 data units, encode either panics with an index error while building the tables, or returns Ok and the bytes decode to exactly the quantized coefficients of the image. It never returns Ok with a file that misses a code word or that a decoder rejects. Whether it panics depends on the image and the configuration only, not on the build or target; it does not with at most 146,467 data units. With any other configuration (restart markers, larger quantizers, more scans) too, either every build panics in that way or the outcome is that of C03.", "quantifier": "all images of those sizes, all such configurations, all platforms, all symbol histograms up to 2^32 occurrences", "why_tests_cant": "The dangerous inputs have Fibonacci-like symbol statistics over tens of millions of symbols; whether the table generator goes wrong silently or loudly there is a property of every histogram.", "anchors": ["src/huffman.rs: HuffmanTable::new_optimized", "src/encoder.rs: Encoder::optimize_huffman_table"]}
{"id": "C42", "title": "Files written through Encoder::new_file: success and completeness", "statement": "With Encoder::new_file the encoder writes through std's BufWriter (8 KiB). On a file system that makes progress on every write, whatever the sizes of the partial writes, the file finally holds exactly the bytes the same call would put into a Vec, with the same outcome. On any file system the file holds a beginning of these bytes; when encode reports success at most the last 8192 bytes can be missing, and none if the implicit flush on drop succeeded. 'Ok implies a complete file' is violated: when every write fails, encode returns Ok for every JPEG below 8192 bytes and the file is empty; above 8192 bytes the failure is reported.", "quantifier": "all file systems (arbitrary state machines with partial writes and failures), platforms, qualities, setter histories, images and user image buffers", "why_tests_cant": "Needs every pattern of partial writes and failure points of the operating system.", "anchors": ["src/encoder.rs:Encoder::new_file", "src/writer.rs:JfifWrite", "src/encoder.rs:encode_image_internal"]}
{"id": "C44", "title": "Optimized Huffman tables are optimal", "statement": "Unless codes had to be cut to the 16 bits a JPEG file allows, the Huffman tables generated with set_optimized_huffman_tables(true) are optimal: no table that a file can hold, that covers the symbols of the image and whose longest code is not longer, codes them in fewer bits, and a table with longer codes saves at most the difference of the longest lengths (at most 15 bits for the whole stream). Codes are not cut when a table counts fewer than 4,181 symbols or when it has no 16-bit code.", "quantifier": "all symbol statistics up to 2^32 occurrences of up to 254 symbols, all competing tables, all platforms", "why_tests_cant": "Optimality compares with every possible prefix code for every histogram; a test compares with a few.", "anchors": ["src/huffman.rs: HuffmanTable::new_optimized", "src/encoder.rs: Encoder::optimize_huffman_table"]}
{"id": "C45", "title": "Optimized Huffman tables make the entropy-coded data as small as possible", "statement": "With set_optimized_huffman_tables(true) (8-bit quantizers, at most 33 scans, no restart inside a scan) the bytes written are the reference file with four tables for which holds: with any other tables that a file can hold and that have a code for every symbol of the image, the entropy-coded data of the same coefficients in the same scans takes at least as many bits, up to the difference of the longest code lengths. This holds whenever the call does not end in the index panic of C43 (never with at most 146,467 data units). In particular the option never costs more than 52 bits (25 for greyscale) of entropy-coded data against the default tables, for any image of at most 66 data units, and for larger images unless a table in the file has a code of 16 bits.", "quantifier": "all images, all such configurations, all alternative Huffman tables, all platforms", "why_tests_cant": "Compares the output for every image with what every other set of tables would give; the statistics the tables are built from must be exactly those of the symbols later written.", "anchors": ["src/encoder.rs: Encoder::optimize_huffman_table", "src/encoder.rs: Encoder::encode_image_sequential, encode_image_progressive", "src/huffman.rs: HuffmanTable::new_optimized"]}
{"id": "C46", "title": "Exactly which calls give a file that decodes to the image", "statement": "A valid call of encode or encode_image reports success and writes a file from which a T.81 decoder recovers the image's quantized coefficients, quantizers, frame, scans, restart interval and application segments if and only if (unless, with optimized tables and more than 146,467 data units, the call ends in the index panic of C43): the entries of the quantization tables the image uses are at most 255 and no entry of the second table is a multiple of 256; a progressive file has at most 33 scans; and, with optimized Huffman tables, every DC category written (with the resets at restarts) is among those counted (without them). So the defects C03, C12 and C28 are the only ones: there is no further combination of image, size, colour type and settings for which the file is wrong.", "quantifier": "all images (optimized tables: up to 68,174,084 data units), all configurations and setter histories, all platforms and builds, scalar and SIMD code", "why_tests_cant": "An equivalence over all images and configurations: both that nothing else goes wrong and that each listed condition always does.", "anchors": ["src/encoder.rs: Encoder::encode, encode_image, encode_image_internal", "src/encoder.rs: optimize_huffman_table, encode_image_progressive", "src/quantization.rs: QuantizationTable::get", "src/writer.rs: write_quantization_segment, write_scan_header"]}
{"id": "C47", "title": "Encoding always ends, and only index and checked-arithmetic panics are possible", "statement": "A call of encode or encode_image with any pixels, dimensions, colour type, configuration and writer comes to an end: every loop (restart flushing, zero runs, Huffman table construction, length limiting) terminates. It never fails an assert!, unwrap or unreachable!; if it panics, a slice index was out of bounds or, in builds with overflow checks and debug assertions, an overflow or debug assertion was detected; an ImageBuffer's own panics are passed on. Building optimized tables ends for every array of 257 frequencies, even when sums overflow. On 64-bit targets with the standard Huffman tables there is no panic at all: every call, valid or not, returns BadImageData, ZeroImageDimensions or a file.", "quantifier": "all data, dimensions, colour types, accepted setter histories, ImageBuffer implementations, writers (any sequence of successes and errors), platforms and builds", "why_tests_cant": "Termination and absence of a class of panics over all inputs and writer behaviours; the wrapped-sum histograms need images of more than 68 million data units.", "anchors": ["src/huffman.rs: HuffmanTable::new_optimized", "src/encoder.rs: encode, encode_image_internal, optimize_huffman_table, init_rows, init_block_buffers", "src/writer.rs: write_bits, flush_bit_buffer, write_ac_block, write_huffman_segment, write_quantization_segment", "src/quantization.rs: new_with_quality"]}
{"id": "C48", "title": "A file cut off after any scan is still a valid, consistent file", "statement": "A file written by a call whose configuration and image are representable (C46) consists of a header and the scans of the scan script, each starting with an SOS marker, then EOI. If it is cut off after any number of scans (as in an interrupted progressive download, with EOI added) the result is again a file that a T.81 decoder accepts: it has the same frame, application segments, quantization tables and restart interval, the coefficients of the remaining scans have exactly the values of the full file, and no value at all is given for the others. Low frequencies come first: if some coefficient of a component is there, then so are all coefficients of lower frequency of that component in all blocks; a progressive file cut off after one scan per component has exactly all DC coefficients.", "quantifier": "all images, representable configurations (progressive with 2 to 33 scans per component, or one scan per component, or interleaved), restart intervals, Huffman tables (optimized: up to 68,174,084 data units, unless the call ends in the index panic of C43), all cut points between scans, platforms, scalar and SIMD code", "why_tests_cant": "Every cut point of every file, and every coefficient of every block at each of them.", "anchors": ["src/encoder.rs: encode_image_progressive, encode_image_sequential, encode_image_interleaved", "src/writer.rs: write_scan_header, write_dc, write_ac_block"]}
{"id": "C49", "title": "Short writes, interruptions and fixed-size buffers", "statement": "With any std::io::Write as output, however it splits the writes, is interrupted (ErrorKind::Interrupted) or fails, the writer receives a beginning of exactly the bytes that a Vec<u8> would receive, in order: either all of them, and encode returns the same result, or encode returns the error of the write that failed (WriteZero if it accepted nothing), and that write was the last one. A writer that always accepts something, after finitely many interruptions, receives all bytes. Encoding into a byte slice of n bytes succeeds exactly as with a Vec if the file has at most n bytes; otherwise the slice holds the first n bytes and encode returns WriteZero. Without std, a Vec<u8> (also behind &mut) is appended to and keeps what it held.", "quantifier": "all writers (arbitrary state machines that do not claim to have written more than they were given), all schedules of short writes, interruptions and failures, all images, configurations and builds", "why_tests_cant": "All interleavings of short writes, interruptions and errors over all files.", "anchors": ["src/writer.rs: trait JfifWrite, impl JfifWrite for W: std::io::Write, for &mut W, for Vec<u8>", "src/encoder.rs: Encoder::new, encode, encode_image"]}
{"id": "C50", "title": "The size of a file is bounded in advance", "statement": "A file written by encode or encode_image is never larger than a bound that can be computed from the dimensions, colour model, sampling factors, number of scans, restart interval and the lengths of the caller's APP segments alone, whatever the samples, the quality and the quantization tables: the header segments, and for every data unit at most 27 bits for its DC difference and 26 for each AC coefficient over all scans together, filled up to a byte in every restart interval, at worst doubled by byte stuffing, plus the RST markers. In round numbers: 6000 bytes, 4 bytes and the data for each APP segment, 417 bytes per block (including those that complete the last MCUs) and 4 per restart interval. A fixed buffer of that size is always large enough.", "quantifier": "all images (all samples), accepted configurations (optimized tables: up to 68,174,084 data units), platforms, scalar and SIMD code", "why_tests_cant": "The worst case over all images cannot be found by testing: it needs the maximal code length, magnitude category and stuffing for every coefficient of every block.", "anchors": ["src/encoder.rs: encode_image_internal, encode_image_interleaved, encode_image_sequential, encode_image_progressive", "src/writer.rs: write_block, write_dc, write_ac_block, write_bits, finalize_bit_buffer", "src/huffman.rs: HuffmanTable::new_optimized", "src/quantization.rs: QuantizationTable::quantize"]}
{"id": "C51", "title": "Error messages", "statement": "The message of every error (Display of EncodingError) says which error it is and gives its numbers in decimal without superfluous zeros; kind and numbers can be read back from the message unambiguously. An error of the writer is shown as the writer's own text and is the only kind of error with a source(), and that only if it is an io::Error. The numbers are the caller's: a rejected add_app_segment names the segment number or the length given, a rejected add_icc_profile the length of the profile, and a rejected encode the length of the data and the length required, or the dimensions; encode reports an error of its own only before anything has been written.", "quantifier": "all errors, all rejected calls (all arguments, all configurations, both word sizes)", "why_tests_cant": "Unambiguity is about all pairs of errors with arbitrary 64-bit numbers; the numbers come from arbitrary arguments.", "anchors": ["src/error.rs: impl Display for EncodingError, impl Error for EncodingError", "src/encoder.rs: Encoder::add_app_segment, add_icc_profile, encode, encode_image_internal"]}
{"id": "C52", "title": "The Huffman tables hold exactly the symbols of the image", "statement": "The Huffman tables in a file list every symbol once and only symbols that T.81 knows: DC categories 0..11 and, for AC, end of block, run of sixteen zeros, or a run of 0..15 zeros with a category 1..10 - so at most 12 and 162 symbols. Without optimization they are the tables of Annex K. With set_optimized_huffman_tables(true) each AC table holds exactly the symbols that occur in the scans of the components that use it, no other one and none missing, and each DC table exactly the categories of the successive differences of those components; if no scan has restart markers these are exactly the categories that are written.", "quantifier": "all images and configurations for which the call succeeds (optimized tables: up to 68,174,084 data units), encode and encode_image, scalar and SIMD, both word sizes, debug and release", "why_tests_cant": "An equivalence between the contents of a table and all symbols of an arbitrary image.", "anchors": ["src/encoder.rs: optimize_huffman_table, encode_image_sequential, encode_image_progressive", "src/huffman.rs: HuffmanTable::new_optimized, default_luma_dc, default_luma_ac, default_chroma_dc, default_chroma_ac", "src/writer.rs: write_huffman_segment"]}
{"id": "C53", "title": "Locality and cropping: a block depends on the pixels it covers only", "statement": "For two calls with the same pixel format, quality, quantization tables and sampling factor (other settings, dimensions and build may differ) whose files represent their images (C46): blocks of a component that cover equal pixels have equal coefficients in both files, wherever they are in the image. Of the pixels a block of a subsampled component covers only every step-th one in each direction matters (decimation, no filtering), and beyond the last row and column the last one counts. So changing some pixels changes only blocks that cover a changed pixel; and encoding a rectangle that begins at a block boundary of all components gives the coefficients the large file has there, except for blocks that reach beyond the rectangle at an edge that is not an edge of the large image.", "quantifier": "all pairs of images and configurations as described, all blocks of all components and all 64 coefficients; scalar and SIMD", "why_tests_cant": "A relation between two runs on arbitrary images and configurations (2-safety).", "anchors": ["src/encoder.rs: get_block, encode_blocks, encode_image_interleaved, init_components", "src/image_buffer.rs: ImageBuffer::fill_buffers", "src/fdct.rs: fdct"]}
{"id": "C54", "title": "The pixels a decoder shows are the caller's, within a bound", "statement": "Converting a colour to YCbCr and back by the inverse JFIF formulas, rounded to bytes, changes no channel by more than 1. For every pixel format and every call without chroma subsampling whose file represents the image (C46), a decoder with exact arithmetic that inverts the colour conversion of the format (JFIF for RGB/BGR, Adobe's inverted CMYK, YCCK) and stores the nearest bytes shows every 8x8 block of every byte of the caller's pixels (the alpha bytes excepted) with a root mean square error of at most a combination of the errors of the quantization tables plus at most 1.9, and no byte is off by more than the same combination of eight times the table errors. At quality 100 with the built-in tables this is 4.2 in the root mean square and 20 for a single byte.", "quantifier": "all images of all nine pixel formats, all configurations without subsampling, scalar and SIMD", "why_tests_cant": "A bound over all images; a test samples a few.", "anchors": ["src/image_buffer.rs: rgb_to_ycbcr, cmyk_to_ycck, ImageBuffer impls", "src/encoder.rs: Encoder::encode, encode_image_internal", "src/fdct.rs: fdct", "src/quantization.rs: QuantizationTable::quantize, get"]}
{"id": "C55", "title": "With SIMD the guarantees are the same", "statement": "With the feature simd on a processor with AVX2, where the coefficients may differ slightly (C33), encode and encode_image keep the other promises: every valid call gives, in every build and on every platform, the same file, which is the reference encoder's file for the SIMD transform (the only exceptions are the debug assertion of C03 and, for more than 146,467 data units with optimized tables, the index panic of C43, which then occurs in every build); too little data and zero dimensions are reported before anything is written, and no other error occurs unless the writer reports one; a failing or short-writing writer receives a prefix of that file and its error is returned; only the last value of each setting counts; only the samples of the image count; a release build does what a checked build does unless the latter panics; scans, restart intervals and byte stuffing are those of the scalar build.", "quantifier": "all images and pixel formats, image buffers, configurations and call histories, writers, builds and 32/64-bit targets", "why_tests_cant": "The project's tests run on one machine, with one build and one code path; these are statements about every input, writer and build of the SIMD path.", "anchors": ["src/encoder.rs: Encoder::encode, Encoder::encode_image", "src/avx2.rs: AVX2Operations", "src/avx2/fdct.rs: fdct_avx2", "src/avx2/ycbcr.rs: fill_buffers_avx2"]}
{"id": "C56", "title": "Restart markers contain damage", "statement": "With a restart interval set, damage stays where it is: if the entropy-coded bytes of some restart intervals of a written file are replaced by any other bytes, more or fewer, a decoder that goes on at the next restart marker still finds the same frame, tables, metadata and scans, and for every block in every interval that was not hit exactly the coefficients of the image, whatever happened to the intervals before it. Every scan has one interval for each s MCUs (s the value given to set_restart_interval); without restart markers a whole scan is one interval. The same holds for encode_image and with SIMD.", "quantifier": "all images, pixel formats and configurations that are representable (C46), all replacements of the bytes of any number of intervals of any scans, all blocks and coefficients", "why_tests_cant": "Unbounded images, and unboundedly many ways to damage the bytes of an interval; a test shows single cases.", "anchors": ["src/encoder.rs: Encoder::set_restart_interval, encode_image_interleaved, encode_image_sequential, encode_image_progressive, get_block", "src/writer.rs: JfifWriter::finalize_bit_buffer, write_marker, write_dri"]}
{"id": "C57", "title": "Encoding a decoded image again loses nothing more", "statement": "When all quantization steps are at least 11 (with the default tables: quality up to 47), encoding an image that came out of a decoder with the same settings does not change it: if the samples of a block are the exactly reconstructed samples of some file with the same frame and quantization tables, rounded to integers either way and not clamped, then the new file has exactly the coefficients of that file for the block; and if this holds for all blocks of an image of whole MCUs, the new file is byte for byte the old one, for any number of generations, with standard or optimized tables, baseline or progressive, scalar or SIMD.", "quantifier": "all images, configurations with steps of at least 11, blocks, ways of rounding and numbers of generations", "why_tests_cant": "Relates the integer transform, the reciprocal quantizer and the real inverse transform for every block of samples; tests re-encode single images.", "anchors": ["src/encoder.rs: Encoder::encode, encode_image_internal, quantize_block", "src/fdct.rs: fdct", "src/quantization.rs: QuantizationTable::quantize", "src/avx2/fdct.rs: fdct_avx2"]}
{"id": "C58", "title": "Components are encoded alike whatever the pixel format; grey images stay grey", "statement": "The coefficients of a block depend on the samples of that component and its quantization table only: in two successful calls of any pixel formats, settings and dimensions, components with equal tables have equal coefficients where their samples are equal. So an image of grey pixels in a colour format (R = G = B in RGB, RGBA, BGR, BGRA; chroma 128 in YCbCr; also the first three channels of the YCCK formats) has exactly the luminance coefficients of the same picture encoded as ColorType::Luma with the same quality and luminance table, and all chroma coefficients are zero, with every sampling factor; a decoder shows it without any colour cast and with the brightness of the greyscale file. Scalar or SIMD.", "quantifier": "all pairs of valid calls (formats, settings, dimensions, platforms), components and blocks; all grey images", "why_tests_cant": "Relates the files of two arbitrary calls; tests encode single images.", "anchors": ["src/encoder.rs: Encoder::encode, get_block, encode_image_internal", "src/image_buffer.rs: rgb_to_ycbcr, RgbImage, RgbaImage, BgrImage, BgraImage, YCbCrImage, CmykAsYcckImage, YcckImage", "src/fdct.rs: fdct"]}
{"id": "C59", "title": "The error bounds hold for decoders that compute approximately", "statement": "For every decoder whose inverse transform is off by at most d from the exact one (clamped to 0..255 or not, integer or not) and whose colour conversion is off by at most g: with every sampling factor, the samples it gets from a successful call's file differ from the samples of the image in every 8x8 block by at most (root mean square of the quantizer errors) + d in the root mean square and by at most 8 times that root mean square + d anywhere; without chroma subsampling, the bytes of the pixels it shows differ from the caller's by the corresponding amounts + g. With quality 100 and the built-in tables, a decoder that satisfies the peak error requirement of IEEE 1180 and converts colours within one unit is off by at most 9 in the root mean square and 25 anywhere. Such decoders exist for every file.", "quantifier": "all valid calls whose file represents the image (C46), all decoders within the tolerances, all blocks and samples", "why_tests_cant": "Ranges over all decoders and all images; a test runs one decoder on one image.", "anchors": ["src/encoder.rs: Encoder::encode, encode_image, encode_image_internal", "src/fdct.rs: fdct", "src/quantization.rs: QuantizationTable", "src/image_buffer.rs: rgb_to_ycbcr, cmyk_to_ycck", "src/avx2/fdct.rs: fdct_avx2"]}
{"id": "C60", "title": "Image buffers with internal state", "statement": "An ImageBuffer may keep state behind &self and answer differently from call to call. Whatever its width, height, get_jpeg_color_type and fill_buffers answer, also inconsistently: encode_image comes to an end; it panics only as any call may (index out of bounds; in checked builds overflow or a debug assertion) or because a method of the buffer panics; an error of the writer is returned at once and nothing is written after it. A buffer that keeps no state is encoded as the value it describes. A streaming buffer that can give the rows of an image once, in order, and the last one again for the padding, gives the same writes and the same outcome as that image, with every writer; a reader with one row of memory is such a buffer. Scalar or SIMD.", "quantifier": "all implementations of ImageBuffer (states, answers, panics), configurations, platforms and writers", "why_tests_cant": "Ranges over all implementations of a trait and all their histories.", "anchors": ["src/image_buffer.rs: ImageBuffer", "src/encoder.rs: encode_image, encode_image_internal, encode_image_interleaved, encode_image_sequential, encode_image_progressive, encode_blocks, write_frame_header"]}
{"id": "C61", "title": "A file ends at its EOI: concatenated files, truncation, reading segments without decoding", "statement": "A reader that knows nothing but the marker syntax (marker, length, payload; coded data up to the next marker that is not RSTn) reads every file of a successful call to its end and stops there, whatever bytes follow: Motion JPEG streams and files written one after the other to the same writer can be cut apart again, byte by byte, also when application segments or coded data contain bytes that look like markers. On the way it finds the application segments of the configuration (JFIF, Adobe, the caller's, ICC chunks), all of them, unchanged, in order, before everything else. A file cut off anywhere contains no complete file. Scalar or SIMD.", "quantifier": "all valid calls (formats, settings, images), all following bytes, all cut positions, all sequences of calls on one writer", "why_tests_cant": "Whether marker-like bytes appear in the coded data depends on the image; ranges over all images and all continuations.", "anchors": ["src/writer.rs: write_marker, write_segment, write_bit_buffer, flush_byte, finalize_bit_buffer", "src/encoder.rs: Encoder::encode, encode_image, add_app_segment, add_icc_profile"]}
{"id": "C62", "title": "Metadata and image data are independent", "statement": "Setting the density, adding application segments or an ICC profile changes a file only by these segments: for two configurations that agree in everything else, any image buffer and any outcome, both calls end alike (also in the same panic), and the outputs are SOI, the metadata of the configuration, and then the same bytes. Scalar or SIMD.", "quantifier": "all pairs of call sequences that agree but for density and segments, all image buffers and pixel data, all platforms and outcomes", "why_tests_cant": "Relates two runs for all images and configurations.", "anchors": ["src/encoder.rs: encode_image_internal, set_density, add_app_segment, add_icc_profile", "src/writer.rs: write_header, write_segment"]}
{"id": "C63", "title": "Brightness changes only the mean values", "statement": "Adding a constant d to all samples of an 8x8 block leaves every AC coefficient of the block unchanged and moves its DC coefficient by 8 d in dequantized units, up to two quantizer steps and never in the wrong direction. This holds between any two files and components with equal quantization tables. Encoding an image that is brighter by d in every pixel therefore gives a file whose luminance AC coefficients, and whose other components altogether (chroma, black), are exactly those of the original's file. Scalar or SIMD; encode or encode_image.", "quantifier": "all pairs of successful calls, all images whose samples (before and after) are u8, all constants, platforms and settings", "why_tests_cant": "Relates two runs over all images and all constants; the rounding of the fixed-point transform must cancel for every block.", "anchors": ["src/fdct.rs: fdct", "src/avx2/fdct.rs: fdct_avx2", "src/image_buffer.rs: rgb_to_ycbcr", "src/encoder.rs: quantize_block", "src/quantization.rs: quantize"]}
{"id": "C64", "title": "The pixels enter the file through the quantized coefficients only", "statement": "If two images of the same size (possibly in different pixel formats of the same file colour space) have the same quantized coefficients in every block, then encoding them with the same configuration gives byte-identical files, also with optimized Huffman tables and restart intervals. For images of whole MCUs two files of the same configuration are equal exactly when they decode to the same coefficients. Scalar or SIMD; encode or encode_image.", "quantifier": "all pairs of images, all configurations and platforms", "why_tests_cant": "Relates two runs for all images; the Huffman tables are computed from the image.", "anchors": ["src/encoder.rs: encode_image_internal, encode_image_interleaved, encode_image_sequential, encode_image_progressive, optimize_huffman_table, encode_blocks"]}
{"id": "C65", "title": "Chroma settings do not touch the luminance, and the reverse", "statement": "For one image and quality, the coefficients of the components with quantization table 0 (luminance, and K) depend on the luminance table only: sampling factors, chroma table, scans, restart interval, Huffman tables, metadata and platform change nothing. The coefficients of the components with table 1 depend on the chroma table and the sampling factors only. Scalar or SIMD; encode or encode_image.", "quantifier": "all images, all pairs of configurations with the same quality, all platforms", "why_tests_cant": "Relates two runs for all images and all pairs of configurations.", "anchors": ["src/encoder.rs: init_components, get_block, quantize_block, set_sampling_factor, set_quantization_tables", "src/quantization.rs: QuantizationTable::new_with_quality"]}
{"id": "C66", "title": "Only the effective settings matter", "statement": "Two configurations whose quantization tables have the same 64 + 64 entries (however chosen: preset and quality, or custom tables with any quality), whose sampling factors are equal as numbers and whose other options are equal, write the same bytes and end the same way with every writer, image buffer and data, scalar or SIMD. For greyscale images the sampling factor does not matter at all, although it selects between the interleaved and the sequential coding path: the files are byte-identical.", "quantifier": "all pairs of setter histories that agree in the effective settings, all images and buffers (greyscale: all valid images), all platforms", "why_tests_cant": "pairs of unbounded histories and all image contents; the greyscale part compares two different code paths", "anchors": ["src/encoder.rs: encode_image_internal, init_components, supports_interleaved, encode_image_interleaved, encode_image_sequential", "src/quantization.rs: QuantizationTable::new_with_quality"]}
{"id": "C67", "title": "Continuing an image beyond its edges changes only the dimensions", "statement": "If an image is continued to the right and below by repeating its last column and row, without adding blocks of 8x8 pixels, then encoding it with any configuration succeeds exactly when encoding the original does, and the two files differ in the four dimension bytes of the frame header only (so cropping such a file by editing its header is lossless). All modes, sampling factors, Huffman tables and restart intervals; scalar or SIMD; encode or encode_image.", "quantifier": "all images, all sizes and larger sizes with the same number of blocks, all configurations, all platforms", "why_tests_cant": "pairs of images of unbounded size in all modes and subsampling ratios", "anchors": ["src/encoder.rs: encode_image_interleaved, encode_blocks, get_block, init_rows", "src/encoder.rs: write_frame_header"]}
{"id": "C68", "title": "A finer table keeps the coefficients: exactly up to 69, to within one beyond", "statement": "If one image is encoded with two configurations of the same sampling factor and the quantization tables of the first are entry by entry at most those of the second, then no coefficient in the first file has an opposite sign to, or is smaller in absolute value than, the one in the second - provided no entry is above 69; up to 255 it can be smaller by one. A higher quality with the same preset tables gives finer tables; with the default tables entries are at most 69 from quality 72 on. Beyond 69 the exact claim is false: a coefficient of a concrete image is coded at quality 50 and lost at quality 51.", "quantifier": "all images, all pairs of configurations, all coefficients; scalar or SIMD; encode or encode_image", "why_tests_cant": "the fixed-point reciprocal must be compared for every pair of quantizers and every coefficient value", "anchors": ["src/quantization.rs: QuantizationTable::quantize, compute_reciprocal, new_with_quality", "src/encoder.rs: quantize_block"]}
{"id": "C69", "title": "With restart intervals an image can be encoded in strips", "statement": "If an image is cut horizontally after a whole number of MCU rows, and the part above the cut is a whole number of restart intervals in every scan, then encoding the two strips separately and encoding the whole image (the bytes of the upper strip followed by those of the lower one) all succeed, and the file of the whole image is obtained from the strips' files by adding the heights in the frame header and appending, scan by scan, the restart intervals of the lower file to those of the upper file (with the restart markers counted on); all other segments are the same. Standard Huffman tables; sequential or progressive, every sampling factor; the three calls can run on different platforms; scalar or SIMD; encode or encode_image.", "quantifier": "all images, all cuts, all configurations with the standard Huffman tables and a restart interval, all platforms", "why_tests_cant": "all image sizes, cuts, restart intervals, modes and sampling factors", "anchors": ["src/encoder.rs: encode_image_interleaved, encode_image_sequential, encode_image_progressive", "src/encoder.rs: get_block, encode_blocks", "src/writer.rs: write_dri, finalize_bit_buffer"]}
{"id": "C70", "title": "Optimized tables are those of T.81 Annex K.2, and every file's bytes are determined", "statement": "The Huffman table built from symbol counts is exactly the one that the procedure of T.81 Annex K.2 gives (same tie-breaking between equal counts, same limitation to 16 bits, same removal of the reserved code, same order of the values). Hence any valid call that returns Ok has written exactly one determined sequence of bytes: the file of T.81 for the settings and the image, with the Annex K.2 tables of the image's own symbols if optimized tables are on, and the tables of Annex K.3 otherwise; no dependence on platform or build mode. Up to 146,467 data units and without restarts inside a scan the optimized call does return Ok. Scalar or SIMD; encode or encode_image.", "quantifier": "all histograms of at most 255 used symbols (the reserved one included) with a total below 2^32; all images, configurations and platforms", "why_tests_cant": "all histograms with all patterns of ties and of over-long codes; all images and configurations", "anchors": ["src/huffman.rs: HuffmanTable::new_optimized", "src/encoder.rs: optimize_huffman_table, encode_image_internal"]}
{"id": "C71", "title": "Least file size: no image takes less than a computable number of bytes, and a mid-grey one takes exactly that", "statement": "With the standard Huffman tables a successful call writes at least min_size bytes, a number computed from the dimensions, the colour type and the configuration only (headers, application segments, tables, restart markers, and two to six bits per data unit and scan). With sequential scans or at most 22 progressive ones the bound is the best possible: an image all of whose component samples are 128 takes exactly that many bytes, on every platform, so no other image of the same size has a smaller file.", "quantifier": "every valid call (dimensions, colour type, pixel data), every configuration with the standard Huffman tables (sampling factors, quality or custom quantization tables, restart interval, progressive scans, metadata), every platform; encode, encode_image and the SIMD encoder", "why_tests_cant": "the lower bound is over all images of a given size; a test compares finitely many images", "anchors": ["src/encoder.rs: Encoder::encode, encode_image, encode_image_interleaved, encode_image_sequential, encode_image_progressive", "src/writer.rs: JfifWriter::write_block, write_dc, write_ac_block, finalize_bit_buffer", "src/huffman.rs: default_luma_dc, default_luma_ac, default_chroma_dc, default_chroma_ac"]}
{"id": "C72", "title": "Rotated and mirrored pictures; stripes and symmetric areas", "statement": "If the samples of a block are those of another block rotated by 90, 180 or 270 degrees, transposed or mirrored, the coefficients in the file are those of the other block with the frequencies exchanged and the signs changed accordingly, up to one quantization step, for any two calls with the same quantization table (transposed when rows and columns are exchanged). Hence the file of a rotated or mirrored picture without subsampling (whole blocks on the sides turned over) is the file of the picture with blocks and coefficients moved. A block whose rows (or columns) are uniform has only coefficients of the first column (row), and one that is its own mirror image has no odd frequencies: these coefficients are exactly zero, whatever the quality and the mode.", "quantifier": "every motion of the rectangle, every pair of valid calls (dimensions, colour types, pixel data, settings, platforms), every component and block of both files; every pattern; encode, encode_image and the SIMD encoder", "why_tests_cant": "a statement about all pairs of images and all blocks; rounding in the integer transform and in the quantizer could exceed a step for inputs no test contains", "anchors": ["src/fdct.rs: fdct", "src/avx2/fdct.rs: fdct_avx2", "src/quantization.rs: QuantizationTable::quantize", "src/encoder.rs: Encoder::encode, get_block, quantize_block"]}
{"id": "C73", "title": "Small changes of the image change the coefficients little", "statement": "If the samples of two blocks, of any two files with the same quantization table, differ by at most e each and by t in all, their dequantized coefficients differ by at most 8 e and by at most t / 4, plus two quantization steps. If no colour byte of an image changes by more than e, every dequantized coefficient of every component changes by at most 8 e plus two quantization steps: colour conversion, transform and quantizer never amplify a change, nowhere in their range.", "quantifier": "every pair of valid calls (dimensions, colour types, pixel data, settings, platforms), every component and block of both files, every e and t; for whole images every format, every pair of pixel data of the same dimensions, every configuration with the same sampling factors and tables; encode, encode_image and the SIMD encoder", "why_tests_cant": "a statement about all pairs of images: an overflow or a discontinuity (a wrap-around, a wrong table entry) may show up for a single pair of sample values only", "anchors": ["src/fdct.rs: fdct", "src/avx2/fdct.rs: fdct_avx2", "src/quantization.rs: QuantizationTable::quantize", "src/image_buffer.rs: rgb_to_ycbcr, cmyk_to_ycck", "src/encoder.rs: get_block, quantize_block"]}
{"id": "C74", "title": "What a restart interval changes", "statement": "Two successful calls whose configurations differ in the restart interval only give files with the same bytes before the DRI segment (application segments, frame, quantization tables and Huffman tables, also optimized ones: the optimized tables do not depend on the interval) and, from there on, scans; and if no scan has more MCUs than its interval, or there is none, the scans are the same bytes too: the two files differ in the six bytes of the DRI segment at most.", "quantifier": "every pair of valid calls with the same pixels (dimensions, colour type), every configuration (sampling factors, tables, standard or optimized Huffman tables, progressive, metadata), every two restart intervals, every two platforms; encode, encode_image and the SIMD encoder", "why_tests_cant": "a statement about all images, configurations and intervals; an interval counter that is off by one shows only when the interval equals the number of MCUs of some scan", "anchors": ["src/encoder.rs: Encoder::set_restart_interval, encode_image_interleaved, encode_image_sequential, encode_image_progressive, optimize_huffman_table", "src/writer.rs: JfifWriter::write_dri"]}
{"id": "C75", "title": "A component of the file depends on its own channels only", "statement": "Two successful calls with the same dimensions, colour type, sampling factors and quantization tables, whose pixels agree in the bytes a component is made from (its own byte for grey, YCbCr, CMYK and YCCK data; the three colours for the Y, Cb and Cr converted from RGB or CMYK; the black byte for K; alpha for none), give files in which that component is the same: same size, same quantization table, same coefficients. The other bytes of the pixels, the coding mode (baseline or progressive, Huffman tables, restart interval), metadata and platform do not matter.", "quantifier": "every pair of valid calls of representable images with the same colour type, dimensions, sampling and quantization settings, every component, every change of the other channels; scalar and SIMD encoder", "why_tests_cant": "a statement about all pairs of images: a channel read at the wrong offset for one format, or a coefficient of one component carried into another, shows only for images in which the right pair of channels differ", "anchors": ["src/image_buffer.rs: GrayImage, RgbImage, RgbaImage, BgrImage, BgraImage, YCbCrImage, CmykImage, CmykAsYcckImage, YcckImage fill_buffers", "src/encoder.rs: Encoder::init_components, encode_image_interleaved, encode_blocks, get_block"]}
{"id": "C76", "title": "The negative of an image has the opposite coefficients", "statement": "If two successful calls have the same dimensions, colour type, sampling factors and quantization tables, and every colour byte of the second image is 255 minus that of the first, then every coefficient of the second file is that of the first with the other sign, up to 8 (16 for samples converted from RGB or CMY) and two quantization steps in dequantized units; and where no colour conversion rounds (grey, YCbCr, CMYK and YCCK bytes, K) no AC coefficient is off by more than one step. The same for any two blocks, of any two files, whose samples are 255 minus each other.", "quantifier": "every pair of valid calls of representable images, every component and block, every coding mode, metadata and platform; encode, encode_image and the SIMD encoder", "why_tests_cant": "a statement about all pairs of images; a quantizer or a transform that treats negative values differently by more than its rounding (an arithmetic shift where a division is meant) shows only for some values", "anchors": ["src/fdct.rs: fdct", "src/quantization.rs: QuantizationTable::quantize", "src/image_buffer.rs: rgb_to_ycbcr, cmyk_to_ycck", "src/encoder.rs: get_block, quantize_block", "src/avx2/fdct.rs: fdct_avx2"]}
{"id": "C77", "title": "The first rows of an image settle the first part of the file", "statement": "With the standard Huffman tables, two calls with the same configuration, dimensions and colour type, and images that have the first n rows in common, succeed and write files that begin with the same bytes: all segments, the header of the first scan and, of its entropy-coded data, the restart intervals and the codes of all MCUs made of these rows (except for the last bits, less than a byte). In particular m rows of MCUs of an interleaved scan are made of the first 8 m Vmax rows.", "quantifier": "every two valid images that agree in the first n rows, every n, every number of MCUs made of them, every configuration with standard Huffman tables (baseline and progressive, any restart interval), every two platforms; encode, encode_image and the SIMD encoder", "why_tests_cant": "a statement about all pairs of images and every place where they may begin to differ; a row buffer filled too late, or a statistic of the whole image that enters the first scan, shows only for images that differ further down", "anchors": ["src/encoder.rs: Encoder::encode_image_interleaved, encode_image_sequential, encode_image_progressive, init_rows, init_block_buffers", "src/writer.rs: JfifWriter::write_block, write_bits, flush_bit_buffer, finalize_bit_buffer"]}
{"id": "C78", "title": "The height of an image matters for its header only until its rows end", "statement": "With the standard Huffman tables, two calls with the same configuration, width and colour type, and images of any heights that have the first n rows in common (n at most both heights), succeed and write files that begin with the same bytes except for the two bytes of the height in the frame header: all segments, the header of the first scan, all restart intervals that are over, and the codes of all MCUs made of these rows (except for the last bits, less than a byte). This holds for the first k MCUs whenever they are within m rows of MCUs of the scan and these m rows of MCUs (8 Vmax rows of pixels each for an interleaved scan, 8 Vmax / V for a scan of one component) end within the n rows. In a file of several scans the same is true of the data of every scan. So what an encoder for images of unknown height may send ahead is exactly what this encoder writes, with the height patched afterwards.", "quantifier": "every two valid images of the same width and of any two heights that agree in the first n rows, every n, every number of MCUs within them, every configuration with standard Huffman tables (baseline and progressive, any restart interval), every two platforms; encode, encode_image and the SIMD encoder", "why_tests_cant": "a statement about all pairs of images, heights and places where they may begin to differ; an off-by-one in the number of block rows or a row clamped to the wrong height shows only for particular heights", "anchors": ["src/encoder.rs: Encoder::encode_image_interleaved, encode_image_sequential, encode_image_progressive, init_rows, init_block_buffers", "src/encoder.rs: Encoder::write_frame_header", "src/writer.rs: JfifWriter::write_frame_header, write_block, write_bits"]}
