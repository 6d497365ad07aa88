{"id": "C01", "title": "Huffman table acceptance and canonical code assignment (encoder)", "statement": "A Huffman table (BITS/HUFFVAL) supplied to the compressor is either rejected with JERR_BAD_HUFF_TABLE or gives every listed symbol the canonical T.81 Annex C code: codes are prefix-free, no code consists only of 1 bits, no symbol is listed twice, and unlisted symbols get length 0. Every table satisfying the T.81 validity condition is accepted.", "quantifier": "all BITS arrays and HUFFVAL arrays, DC/AC/lossless tables", "why_tests_cant": "the number of tables is astronomically large; correctness depends on Kraft-type arithmetic over all of them", "anchors": ["jchuff.c:jpeg_make_c_derived_tbl"]}
{"id": "C02", "title": "Huffman symbol decoding inverts the canonical code (decoder)", "statement": "For every table accepted by the decompressor, decoding a bit stream that starts with the canonical code of a symbol yields exactly that symbol and consumes exactly the bits of the code, no matter whether the 8-bit lookahead table or the bit-by-bit path is used, and whatever bits follow.", "quantifier": "all accepted tables, all listed symbols, all following bits", "why_tests_cant": "lookahead/slow-path agreement must hold for every table shape and every following bit pattern", "anchors": ["jdhuff.c:jpeg_make_d_derived_tbl", "jdhuff.c:jpeg_huff_decode", "jdhuff.h:HUFF_DECODE"]}
{"id": "C03", "title": "Sequential entropy encoder emits the T.81 F.1.2 bit stream", "statement": "For every sequence of coefficient blocks in range, the bytes written by the sequential Huffman encoder are exactly the F.1.2 run/size coding of the blocks, concatenated MSB first, padded with 1 bits at the end of each segment, with every FF data byte followed by 00.", "quantifier": "all blocks (64 coefficients each), all last-DC values, all valid tables, all numbers of blocks", "why_tests_cant": "the 64-bit accumulator, overflow-carry path and FF test have behaviour that depends on alignment of the whole history of bits", "anchors": ["jchuff.c:encode_one_block", "jchuff.c:flush_bits", "jchuff.c:PUT_BITS", "jchuff.c:FLUSH"]}
{"id": "C04", "title": "Sequential Huffman round trip", "statement": "Decoding the entropy-coded data that the compressor wrote for a scan returns exactly the quantized coefficients that were compressed, for every block of every MCU.", "quantifier": "all scans: any number of MCUs, components, blocks, valid tables and coefficient values", "why_tests_cant": "round trip over unbounded coefficient data", "anchors": ["jchuff.c:encode_mcu_huff", "jdhuff.c:decode_mcu"]}
{"id": "C05", "title": "Restart intervals", "statement": "With any restart interval, markers RST0..RST7 appear cyclically exactly between consecutive intervals of MCUs, DC prediction restarts at zero on both sides, and the round trip still holds.", "quantifier": "all restart intervals, all MCU counts and coefficients", "why_tests_cant": "counter/modulo behaviour over unboundedly many intervals", "anchors": ["jchuff.c:emit_restart", "jchuff.c:encode_mcu_huff", "jdhuff.c:process_restart", "jdmarker.c:read_restart_marker"]}
{"id": "C06", "title": "Entropy-coded data never contains a spurious marker", "statement": "In the entropy-coded bytes produced for any coefficient data, an FF byte is always followed by 00 (or is part of an intended RSTn marker), so a marker scanner never mistakes image data for a marker.", "quantifier": "all coefficient data", "why_tests_cant": "must hold for every data pattern and bit alignment", "anchors": ["jchuff.c:EMIT_BYTE", "jchuff.c:FLUSH", "jcphuff.c:emit_bits", "jcarith.c:finish_pass"]}
{"id": "C07", "title": "Output suspension / destination-buffer independence", "statement": "The byte stream delivered to the destination manager is independent of how the destination manager sizes its buffers and of how often it suspends: a suspended MCU is not recorded, and retrying it yields the same bytes as an unsuspended run.", "quantifier": "all sequences of buffer sizes and suspension points", "why_tests_cant": "suspension points form an unbounded schedule", "anchors": ["jchuff.c:STORE_BUFFER", "jchuff.c:dump_buffer", "jchuff.c:encode_mcu_huff", "jdatadst.c"]}
{"id": "C08", "title": "Input suspension / source-buffer independence", "statement": "The coefficients decoded are independent of how the source manager chunks its data and of suspensions: an MCU that suspends leaves the decoder's permanent state unchanged and decoding after more data arrives gives the same result as if all data had been present. (Exception, for data without restart intervals: the byte sequence FF FF 00, forbidden by T.81, for which the fast path's discarded attempt leaves stale coefficients, so that the result does depend on buffering.)", "quantifier": "all chunkings of all inputs, including corrupt data (with the stated exception)", "why_tests_cant": "suspension points form an unbounded schedule", "anchors": ["jdhuff.c:jpeg_fill_bit_buffer", "jdhuff.c:decode_mcu_slow"]}
{"id": "C09", "title": "Fast Huffman path agrees with slow path", "statement": "The fast MCU decoder, whenever it reports success, produces the same coefficients and the same number of consumed bits as the slow, suspendable one.", "quantifier": "all inputs, tables and alignments", "why_tests_cant": "equivalence over all bit streams and alignments", "anchors": ["jdhuff.c:decode_mcu_fast", "jdhuff.c:decode_mcu_slow"]}
{"id": "C10", "title": "Optimal Huffman table generation is valid", "statement": "For symbol statistics gathered from an image, jpeg_gen_optimal_table yields (or reports JERR_HUFF_CLEN_OVERFLOW) a table the encoder and decoder accept, in which every symbol with nonzero count, and no other, has a code of length 1..16, and no code is all ones.", "quantifier": "all count vectors (subject to the magnitude/number-of-symbols limits of real images)", "why_tests_cant": "tree building and the length-limiting loop must work for every distribution", "anchors": ["jchuff.c:jpeg_gen_optimal_table"]}
{"id": "C11", "title": "Statistics pass agrees with the output pass", "statement": "The symbols counted by the statistics-gathering pass are exactly the symbols the output pass emits, so encoding with the optimized table never hits a symbol without a code.", "quantifier": "all MCU sequences and restart intervals", "why_tests_cant": "two separately written code paths must agree on all data", "anchors": ["jchuff.c:htest_one_block", "jchuff.c:encode_mcu_gather", "jchuff.c:encode_one_block"]}
{"id": "C12", "title": "Decoder robustness on corrupt entropy data", "statement": "For every byte string whatsoever, the sequential Huffman decoder terminates and never reads or writes outside its tables or the 64-coefficient block; exhausted data decodes as zero bits with a warning.", "quantifier": "all byte strings and all accepted tables", "why_tests_cant": "adversarial inputs cannot be enumerated", "anchors": ["jdhuff.c:decode_mcu_slow", "jdhuff.c:jpeg_huff_decode", "jutils.c:jpeg_natural_order"]}
{"id": "C13", "title": "Zig-zag order", "statement": "The natural-order table is a permutation of the 64 positions following the T.81 zig-zag path, and every index reachable by a corrupt run length (64..79) maps inside the block.", "quantifier": "all indices 0..79", "why_tests_cant": "table facts are used for all data", "anchors": ["jutils.c:jpeg_natural_order"]}
{"id": "C14", "title": "Scan script validation", "statement": "A multi-scan script is accepted exactly when it obeys the T.81 rules: component lists strictly increasing and in range, spectral bands legal, DC and AC not mixed, AC scans single-component and after the component's first DC scan, first scan of a coefficient has Ah=0 and later ones refine exactly the next lower bit; every component gets DC data (or all data, for sequential and lossless).", "quantifier": "all scripts of all lengths", "why_tests_cant": "history-dependent acceptance over arbitrarily long scripts", "anchors": ["jcmaster.c:validate_script"]}
{"id": "C15", "title": "Built-in progressive scripts are valid and complete", "statement": "The script made by jpeg_simple_progression is accepted by the validator and transmits every bit of every coefficient of every component exactly once, for every component count, profile and DC-scan mode; the number of scans written equals the space reserved.", "quantifier": "all num_components, colour spaces, profiles, dc_scan_opt_mode", "why_tests_cant": "completeness is a statement about all coefficients of all components", "anchors": ["jcparam.c:jpeg_simple_progression", "jcparam.c:fill_scans", "jcparam.c:fill_dc_scans"]}
{"id": "C16", "title": "Scan optimization always assembles a valid complete file", "statement": "With optimize_scans, whatever the sizes of the trial scans turn out to be, the search terminates after finitely many passes and the scans copied to the output were all actually encoded and together form a valid progressive script transmitting every bit of every coefficient exactly once.", "quantifier": "all functions giving scan sizes (i.e. all images), grayscale and YCbCr, all dc_scan_opt_mode", "why_tests_cant": "the search path depends on data-dependent sizes; all branches of the search tree must be covered", "anchors": ["jcmaster.c:select_scans", "jcmaster.c:finish_pass_master", "jcmaster.c:select_scan_parameters", "jcparam.c:jpeg_search_progression"]}
{"id": "C17", "title": "Scan optimization picks the cheapest candidate it measured", "statement": "Among the successive-approximation levels and frequency splits that were tried, the search selects one of minimum total size.", "quantifier": "all scan sizes", "why_tests_cant": "optimality over all size vectors", "anchors": ["jcmaster.c:select_scans"]}
{"id": "C18", "title": "Progressive Huffman round trip (per scan)", "statement": "For each kind of progressive scan (DC first, DC refinement, AC first, AC refinement) decoding the bytes written for the scan brings the coefficient from its value as known after previous scans to its value at the new precision.", "quantifier": "all blocks, EOB runs of any length, all Ss,Se,Ah,Al, all tables", "why_tests_cant": "EOB-run and correction-bit buffering interact across arbitrarily many blocks", "anchors": ["jcphuff.c", "jdphuff.c"]}
{"id": "C19", "title": "Progressive whole-script round trip", "statement": "After decoding all scans of a complete script the coefficients equal the originals exactly.", "quantifier": "all valid complete scripts and all coefficient data", "why_tests_cant": "induction over scripts and data", "anchors": ["jcphuff.c", "jdphuff.c", "jcmaster.c:validate_script"]}
{"id": "C20", "title": "Quality scaling is monotone and bounded", "statement": "jpeg_quality_scaling maps quality into a scale that never increases with quality; out-of-range quality is clamped; the resulting quantization table entries lie in 1..32767 (1..255 with force_baseline) and never increase when quality increases.", "quantifier": "all qualities, all base tables", "why_tests_cant": "quantifies over all integers and tables", "anchors": ["jcparam.c:jpeg_quality_scaling", "jcparam.c:jpeg_float_quality_scaling", "jcparam.c:jpeg_add_quant_table"]}
{"id": "C21", "title": "Integer quantization by reciprocal equals rounded division", "statement": "The multiply-and-shift quantizer returns the coefficient divided by the quantizer step rounded to nearest (ties away from zero), sign-symmetric.", "quantifier": "all quantizer steps, all DCT outputs in range", "why_tests_cant": "2^32 combinations of divisor and value", "anchors": ["jcdctmgr.c:compute_reciprocal", "jcdctmgr.c:quantize"]}
{"id": "C22", "title": "Trellis quantization only moves AC coefficients toward zero", "statement": "Trellis (rate-distortion) quantization never changes the sign of an AC coefficient, never increases its magnitude above the rounded value, and leaves coefficients outside the scan band untouched; the run/size symbols it leaves always have a code in the Huffman table and the magnitudes fit the precision. With DC trellis the DC coefficient stays within four steps of the rounded value.", "quantifier": "all coefficient blocks, all cost tables (including all floating-point outcomes)", "why_tests_cant": "decisions depend on data-dependent real-valued costs", "anchors": ["jcdctmgr.c:quantize_trellis"]}
{"id": "C23", "title": "Color conversion tables and ranges", "statement": "RGB->YCbCr conversion of any in-range pixel yields in-range samples without table overrun; gray input (R=G=B=v) gives Y=v, Cb=Cr=center; YCbCr->RGB yields in-range pixels for every triple and gray stays gray.", "quantifier": "all pixels at each supported sample precision", "why_tests_cant": "must hold for all sample triples (2^24 or 2^36)", "anchors": ["jccolor.c:rgb_ycc_convert", "jdcolor.c:ycc_rgb_convert"]}
{"id": "C24", "title": "Color conversion round-trip accuracy", "statement": "RGB -> YCbCr -> RGB changes each channel by at most a small proven constant.", "quantifier": "all pixels", "why_tests_cant": "2^24 inputs per precision; statement about worst case", "anchors": ["jccolor.c", "jdcolor.c"]}
{"id": "C25", "title": "Pixel-format independence", "statement": "The stored components depend only on the R,G,B values, not on the channel order or padding of the extended pixel format chosen; decompressing to any extended format puts the same R,G,B at that format's offsets and 255 (max) in the alpha slot; null/gray/CMYK conversions copy exactly.", "quantifier": "all pixel formats and pixels", "why_tests_cant": "for all formats and data", "anchors": ["jccolext.c", "jdcolext.c", "jmorecfg.h:RGB_RED"]}
{"id": "C26", "title": "Lossless prediction round trip", "statement": "For each predictor 1..7 and point transform, undifferencing after differencing restores every sample (shifted by the point transform), for every image and every restart interval.", "quantifier": "all sample rows, predictors, point transforms, image sizes, restart rows", "why_tests_cant": "unbounded images; modulo-2^16 arithmetic", "anchors": ["jclossls.c", "jdlossls.c", "jlossls.h"]}
{"id": "C27", "title": "Lossless Huffman round trip", "statement": "The lossless entropy coder and decoder are inverse on every sequence of 16-bit differences, including the special 32768 category.", "quantifier": "all difference sequences and tables", "why_tests_cant": "all sequences", "anchors": ["jclhuff.c", "jdlhuff.c"]}
{"id": "C28", "title": "Arithmetic coder round trip", "statement": "The adaptive binary arithmetic decoder recovers exactly the sequence of binary decisions encoded with any contexts, for any sequence length, including carry propagation, stacked FF bytes and the trailing-zero trimming at the end of the segment.", "quantifier": "all decision/context sequences", "why_tests_cant": "carry-over can propagate arbitrarily far; state adapts over the whole history", "anchors": ["jcarith.c:arith_encode", "jcarith.c:finish_pass", "jdarith.c:arith_decode", "jaricom.c"]}
{"id": "C29", "title": "Arithmetic-coded scan round trip", "statement": "Decoding the entropy-coded data written by the arithmetic coder for a scan of any kind (sequential, progressive DC first, DC refinement, AC first, AC refinement), with or without restart intervals, succeeds without a warning, brings every block from what the decompressor knew of it to the precision of the scan (for a sequential scan: to exactly the coefficients compressed), changes nothing outside the band, and leaves the decompressor standing before the marker that follows.", "quantifier": "all sequences of MCUs of any composition, all coefficient blocks in range, all conditioning parameters and tables, all restart intervals, all progressive parameters, any following fill bytes, marker and data", "why_tests_cant": "context modelling must agree between encoder and decoder for all data", "anchors": ["jcarith.c:encode_mcu, encode_mcu_DC_first, encode_mcu_AC_first, encode_mcu_DC_refine, encode_mcu_AC_refine, emit_restart, start_pass", "jdarith.c:decode_mcu, decode_mcu_DC_first, decode_mcu_AC_first, decode_mcu_DC_refine, decode_mcu_AC_refine, process_restart, start_pass", "jdmarker.c:read_restart_marker"]}
{"id": "C30", "title": "Marker segment round trip", "statement": "The DQT, DHT, DAC, DRI, SOFn and SOS segments written by the compressor, parsed by the decompressor, restore the same tables, restart interval, dimensions, component ids, sampling factors, table selectors and progression parameters.", "quantifier": "all legal parameter values", "why_tests_cant": "combinatorially many parameter settings", "anchors": ["jcmarker.c", "jdmarker.c"]}
{"id": "C31", "title": "Marker parsing safety", "statement": "For every byte string, header parsing terminates in Suspend, error or success, never indexes outside a table, and on success the tables obey the limits later stages rely on.", "quantifier": "all byte strings", "why_tests_cant": "adversarial inputs", "anchors": ["jdmarker.c:get_dht", "jdmarker.c:get_dqt", "jdmarker.c:get_sof", "jdmarker.c:get_sos"]}
{"id": "C32", "title": "ICC profile round trip", "statement": "A profile of any size written by jpeg_write_icc_profile is returned byte for byte by jpeg_read_icc_profile, even if the APP2 chunks are reordered; inconsistent chunk sets are rejected with a warning.", "quantifier": "all profiles up to 255 chunks, all chunk permutations", "why_tests_cant": "all lengths and permutations", "anchors": ["jcicc.c:jpeg_write_icc_profile", "jdicc.c:jpeg_read_icc_profile"]}
{"id": "C33", "title": "Resynchronisation after data errors", "statement": "jpeg_resync_to_restart always makes progress: it either discards the marker, skips forward, or leaves the marker for the next restart, according to the documented distance rule, and never consumes a non-RST marker.", "quantifier": "all found markers and desired restart numbers, all following bytes", "why_tests_cant": "all corruption patterns", "anchors": ["jdmarker.c:jpeg_resync_to_restart", "jdmarker.c:next_marker"]}
{"id": "C34", "title": "Lossless transforms form the dihedral group", "statement": "Lossless flip/rotate/transpose on the coefficient arrays compose as the symmetries of the rectangle (flip twice = identity, rot90 four times = identity, etc.) and each corresponds to the transform of the pixel positions.", "quantifier": "all coefficient arrays of all sizes (perfect MCU alignment)", "why_tests_cant": "unbounded image sizes and data", "anchors": ["transupp.c:do_flip_h", "transupp.c:do_rot_90", "transupp.c:do_transpose"]}
{"id": "C35", "title": "Lossless crop", "statement": "Lossless cropping selects exactly the blocks of the requested region (rounded out to iMCU boundaries) without altering a coefficient.", "quantifier": "all images, crop rectangles", "why_tests_cant": "all sizes and offsets", "anchors": ["transupp.c:do_crop", "transupp.c:jtransform_request_workspace"]}
{"id": "C36", "title": "Rounding helpers", "statement": "jdiv_round_up is the exact ceiling of the quotient and jround_up the least multiple not below its argument.", "quantifier": "all nonnegative a and positive b without overflow", "why_tests_cant": "all integers", "anchors": ["jutils.c:jdiv_round_up", "jutils.c:jround_up"]}
{"id": "C37", "title": "Image geometry", "statement": "The component and MCU dimensions computed by compressor and decompressor agree, every sample of the image is covered by exactly one block, and dummy blocks lie only at the right/bottom edges.", "quantifier": "all image dimensions and sampling factors accepted", "why_tests_cant": "all dimensions and sampling factors", "anchors": ["jcmaster.c:initial_setup", "jcmaster.c:per_scan_setup", "jdinput.c:initial_setup", "jdinput.c:per_scan_setup"]}
{"id": "C38", "title": "MCU/block mapping round trip", "statement": "The interleaving of blocks into MCUs by the coefficient controllers is inverse between compressor and decompressor: each real block is written once and restored to its own position.", "quantifier": "all dimensions, sampling factors, interleaved and non-interleaved scans", "why_tests_cant": "all geometries", "anchors": ["jccoefct.c:compress_output", "jdcoefct.c:consume_data"]}
{"id": "C39", "title": "Memory destination", "statement": "With the memory destination manager the caller ends with a buffer holding exactly the bytes written, whatever the number of growth steps; data already written is never lost.", "quantifier": "all write sequences and initial buffer sizes", "why_tests_cant": "unbounded growth history", "anchors": ["jdatadst.c:empty_mem_output_buffer", "jdatadst.c:term_mem_destination", "jdatadst-tj.c"]}
{"id": "C40", "title": "Data source and end of input", "statement": "The source managers deliver exactly the bytes of the file in order, skip exactly the requested number of bytes, and after premature end deliver an EOI marker forever.", "quantifier": "all files and request sequences", "why_tests_cant": "all chunkings and request sequences", "anchors": ["jdatasrc.c"]}
{"id": "C41", "title": "Memory manager", "statement": "Pool allocations are aligned, lie inside their pool block and never overlap while live; freeing a pool releases exactly its objects; size overflow is reported instead of wrapping.", "quantifier": "all allocation sequences", "why_tests_cant": "unbounded allocation histories", "anchors": ["jmemmgr.c:alloc_small", "jmemmgr.c:alloc_large", "jmemmgr.c:free_pool"]}
{"id": "C42", "title": "Call-order protocol (compressor)", "statement": "Every public compression call made in a state where it is not allowed is rejected with JERR_BAD_STATE without effect; jpeg_write_scanlines accepts exactly image_height rows in total however they are batched; jpeg_finish_compress fails unless all were supplied.", "quantifier": "all call sequences and batch sizes", "why_tests_cant": "unbounded call histories", "anchors": ["jcapimin.c", "jcapistd.c"]}
{"id": "C43", "title": "Call-order protocol (decompressor)", "statement": "The decompressor accepts only the documented call sequences, and jpeg_read_scanlines delivers exactly output_height rows in total however they are batched.", "quantifier": "all call sequences", "why_tests_cant": "unbounded call histories", "anchors": ["jdapimin.c", "jdapistd.c"]}
{"id": "C44", "title": "Sample range limiting", "statement": "The range-limit table clamps every reachable index to 0..MAXJSAMPLE and implements the masked wraparound for IDCT output as documented.", "quantifier": "all table indices", "why_tests_cant": "all indices used for all data", "anchors": ["jdmaster.c:prepare_range_limit_table"]}
{"id": "C45", "title": "IDCT shortcuts agree with the full computation", "statement": "The zero-AC column/row shortcuts of the inverse DCTs give the same output as the general computation; output samples are always in range; a DC-only block decodes to a constant.", "quantifier": "all coefficient blocks and quantization tables", "why_tests_cant": "all blocks", "anchors": ["jidctint.c:_jpeg_idct_islow", "jidctred.c"]}
{"id": "C46", "title": "Upsampling/downsampling invariants", "statement": "Replication upsampling copies samples exactly; fancy (triangle) upsampling and downsampling of a constant area is the identity, results stay within the min and max of their inputs.", "quantifier": "all rows and widths", "why_tests_cant": "all sample data and widths", "anchors": ["jdsample.c", "jcsample.c"]}
{"id": "C47", "title": "Context-row buffering", "statement": "The decompressor's wraparound row-pointer scheme presents the upsampler, for every row group, with exactly the neighbouring rows above and below in image order (edge rows replicated at top and bottom).", "quantifier": "all image heights and sampling factors", "why_tests_cant": "pointer-permutation invariant over unbounded row sequences", "anchors": ["jdmainct.c:set_wraparound_pointers", "jdmainct.c:process_data_context_main"]}
{"id": "C48", "title": "Color quantizer", "statement": "Two-pass colour quantization maps every pixel to the (first) palette entry nearest to the centre of its histogram cell under the component weights; with Floyd-Steinberg dithering the same holds for a colour at most 32 away per component. The one-pass quantizer never uses more than the requested colours, and every output index names a palette entry each of whose components is, up to 1, as close to the (possibly dithered) sample as any value in the palette. No dithering mode reads or writes outside its tables.", "quantifier": "all palettes of 1..256 colours, all colour counts and component counts, all pixel rows of any width and number", "why_tests_cant": "there are 2^24 colours per pixel, unboundedly many palettes and unboundedly long error-diffusion histories", "anchors": ["jquant2.c:fill_inverse_cmap", "jquant2.c:find_nearby_colors", "jquant2.c:find_best_colors", "jquant1.c"]}
{"id": "C49", "title": "TurboJPEG buffer sizing", "statement": "tj3YUVPlaneWidth/Height, tj3YUVPlaneSize, tj3YUVBufSize and tj3JPEGBufSize return the exact documented size or report an error, with no silent wraparound, as long as the padded dimensions fit in an int (where they do not, the code overflows: stated as refutations); for every image a JPEG file can hold the planes tile the YUV buffer without overlap and inside tj3YUVBufSize bytes. The documented claim that tj3JPEGBufSize bounds the size of any JPEG image is false for lossless transforms (refutation).", "quantifier": "all dimensions, subsamplings, alignments", "why_tests_cant": "all dimensions up to integer limits", "anchors": ["turbojpeg.c:tj3JPEGBufSize", "turbojpeg.c:tj3YUVBufSize", "turbojpeg.c:tj3YUVPlaneSize"]}
{"id": "C50", "title": "GIF LZW round trip", "statement": "The GIF writer's LZW code stream, read by the GIF reader, gives back the same pixel indices.", "quantifier": "all images and palette sizes", "why_tests_cant": "dictionary state over unbounded streams", "anchors": ["wrgif.c", "rdgif.c"]}
{"id": "C51", "title": "Comment insertion", "statement": "wrjpgcom inserts the comment and leaves all other segments and the image data byte-identical, and rdjpgcom reads it back.", "quantifier": "all well-formed files and comments", "why_tests_cant": "all files", "anchors": ["wrjpgcom.c", "rdjpgcom.c"]}
{"id": "C52", "title": "GIF reader safe on arbitrary input", "statement": "Whatever bytes a GIF file contains, reading it never accesses memory outside its work arrays and always terminates, and what is delivered (size, colour space, pixels, warnings, or the error raised) does not depend on the previous contents of uninitialised memory.", "quantifier": "all byte strings, all contents of uninitialised memory (interlaced and non-interlaced images)", "why_tests_cant": "hostile code streams are unbounded; uninitialised reads are invisible to tests", "anchors": ["rdgif.c"]}
{"id": "C53", "title": "Skipping lines is the same as reading and discarding them", "statement": "Within its supported use (context rows with at most 2:1 vertical upsampling, or no context rows starting on a row-group boundary or leaving the iMCU row), jpeg_skip_scanlines(n) advances output_scanline by min(n, remaining lines), returns that number, and every line read afterwards, in any interleaving of reads and skips, is made from exactly the sample rows it would have been made from had every line been read; in a single-scan image the entropy decoder has consumed exactly the MCUs of the iMCU rows passed.", "quantifier": "all image heights, vertical sampling and scaled DCT sizes, all sequences of reads and skips of any size in an output pass", "why_tests_cant": "the buffer, context-row and row-group state after a skip depends on the whole history of reads and skips", "anchors": ["jdapistd.c: jpeg_skip_scanlines, read_and_discard_scanlines, increment_simple_rowgroup_ctr", "jdmainct.c", "jdsample.c: sep_upsample"]}
{"id": "C54", "title": "Merged upsampling equals separate upsampling plus colour conversion", "statement": "With do_fancy_upsampling off and 2:1 (or 2:2) chroma, every line jpeg_read_scanlines delivers is byte for byte what box-replication of the chroma followed by the ordinary YCbCr->RGB conversion would have written over the caller's row, for every pixel format, width (odd or even), height and any sequence of read sizes and supported skips; at least one and at most the requested number of lines is delivered, and no other row of the caller is touched.", "quantifier": "all widths, heights, IDCT sizes, pixel formats, precisions 8/12, sample values, sequences of reads (>= 1 line) and supported skips", "why_tests_cant": "the spare-row state depends on the whole history of read sizes; sample values are unbounded in number", "anchors": ["jdmerge.c", "jdmrgext.c", "jdmainct.c: process_data_simple_main", "jdapistd.c: jpeg_read_scanlines, jpeg_skip_scanlines"]}
{"id": "C55", "title": "jpeg_write_scanlines: batching and suspension do not matter", "statement": "Over any sequence of jpeg_write_scanlines calls, with any numbers of lines and any pattern of suspension by the compressor, every call is well defined (no row is read before it is written, no buffer is overrun, the accepted-line count never wraps), next_scanline advances by exactly the returned count and never passes the image height, a call that does not suspend accepts everything offered that fits in the image, and the entropy-coding back end is given exactly the iMCU rows of the image in order - each row group seeing the right image rows, with the first and last rows repeated beyond the edges - repeated unchanged while it suspends. Hence two sessions that write the same image compress the same data, and when the last line has been accepted every iMCU row has been taken.", "quantifier": "all image heights, sampling factors, data unit sizes, with and without context rows; all sequences of calls, line counts and suspensions; all prior buffer contents", "why_tests_cant": "The result must be independent of unboundedly many ways to batch the rows and to interleave suspensions; tests fix one batch size and a destination that never suspends.", "anchors": ["jcprepct.c:pre_process_data", "jcprepct.c:pre_process_context", "jcprepct.c:create_context_buffer", "jcprepct.c:expand_bottom_edge", "jcmainct.c:process_data_simple_main", "jcapistd.c:jpeg_write_scanlines"]}
{"id": "C56", "title": "PPM/PGM reader is safe on any input and reads back what the writer writes", "statement": "For every byte sequence, colour space and data precision (8, 12, 16 bits) the PPM/PGM reader either reports an error or reads the header and rows without ever accessing a table or buffer out of bounds; rows have width x components samples, all in range, and the pixel-count limit is respected. Every well-formed file - text or binary, any maxval up to 65535, any white space and comments - yields for each pixel its samples scaled to the nearest value of the data precision, in the requested colour layout. Scaling is nearest, monotone, exact at 0 and maxval and the identity when maxval is the maximum sample. A file written from decompressed rows in any layout is read back with the same pixels in any layout, and RGB to CMYK to RGB loses nothing.", "quantifier": "all byte sequences; all widths, heights, maxvals, comments and separators; all pixel layouts and precisions; all pixel values", "why_tests_cant": "The space of malformed files is unbounded, and rescaling depends on every pair of maxval and precision.", "anchors": ["rdppm.c:start_input_ppm", "rdppm.c:read_pbm_integer", "rdppm.c:get_rgb_row", "rdppm.c:get_word_rgb_row", "wrppm.c:start_output_ppm", "wrppm.c:put_rgb", "cmyk.h:rgb_to_cmyk"]}
{"id": "C57", "title": "Interblock smoothing only fills in unknown coefficients, from the right neighbours", "statement": "Block smoothing is used in an output pass exactly when it is asked for, the image is progressive, every component has a quantization table whose ten relevant entries are nonzero and a DC known at least partly, and some of the first nine AC coefficients is not exact. Then, for every image geometry, crop and coefficient content, no access leaves the coefficient array and no division is by zero. The blocks handed to the inverse DCT differ from the stored ones only in coefficients among those nine that are stored as zero and not known exactly, and in the DC when nothing but DC has arrived; a component known exactly is unchanged; an estimate with a low bits missing is smaller than 2^a. Estimates are the nearest integers to fixed weighted sums of the 5x5 DC neighbourhood clamped to the component; flat regions are unchanged; transposing the image transposes the result.", "quantifier": "all component geometries (rows, iMCU rows, sampling factors, crops); all coefficient arrays, quantization tables, precision tables and scan positions", "why_tests_cant": "The result depends on 25 DC values, quantizers and precisions at every position and edge case of every geometry; a wrong row pointer or missed guard shows only on particular sizes and truncated scans.", "anchors": ["jdcoefct.c:smoothing_ok", "jdcoefct.c:decompress_smooth_data", "jdcoefct.c:start_output_pass", "jdcoefct.h:SAVED_COEFS"]}
{"id": "C58", "title": "BMP input and output are memory safe, follow the file format, and round-trip", "statement": "cjpeg's and TurboJPEG's BMP reader, given any bytes, any requested colour space and any pixel limit, either reports an error or delivers rows of the announced size (within the pixel limit), never touching memory outside its buffers if the row buffer has room for the pixels rounded up to four bytes. For a well-formed 8-, 24- or 32-bit uncompressed file (OS/2 or Windows header) it reports the width and height of the header, settles on the documented colour space (an all-gray palette gives grayscale; a colour palette cannot become grayscale), and every pixel of every row is the pixel of the file at that place - palette looked up, alpha from the file or opaque, CMYK converted - whether rows are taken in file order or turned over. The BMP writer produces, from every complete image of at most 65535 by 65535, a well-formed file with these dimensions, pixels, density and file size, and reading it back gives the same pixels.", "quantifier": "all byte sequences, all requested colour spaces, both row orders, all pixel limits, all well-formed files of any size, all images up to 65535 by 65535 in every supported output colour space or colour map", "why_tests_cant": "the space of files and of header field combinations is unbounded; tests sample a few images", "anchors": ["rdbmp.c: start_input_bmp, read_colormap, get_8bit_row, get_24bit_row, get_32bit_row, preload_image, jinit_read_bmp", "wrbmp.c: write_bmp_header, write_os2_header, write_colormap, put_pixel_rows, put_gray_rows, finish_output_bmp, jinit_write_bmp", "cmyk.h"]}
{"id": "C59", "title": "Two-pass colour quantization chooses a sound palette", "statement": "With two-pass quantization to an RGB output colour space, for every nonempty image and every requested number of colours from 8 to 256 the first pass finishes without undefined behaviour and sets a palette: the colour cells (8 x 4 x 8 values) that occur in the image are divided into min(requested, number of cells) groups, none empty, none overlapping, each the content of a box in colour space, and the palette has for every group the mean of the cell centres weighted by the number of pixels (at most 65535 per cell), to the nearest integer. If no more cells occur than colours are requested, the palette has the centre of the cell of every pixel, and without dithering every pixel is shown in a colour that differs from it by at most 4, 2 and 4. Other numbers of colours are refused.", "quantifier": "all images, all requested numbers of colours, the three 3-component RGB output colour spaces", "why_tests_cant": "the histogram, the box splitting and the palette depend on the whole image; tests compare the output for one image", "anchors": ["jquant2.c: prescan_quantize, update_box, find_biggest_color_pop, find_biggest_volume, median_cut, compute_color, select_colors, _jinit_2pass_quantizer"]}
{"id": "C60", "title": "Targa input follows the file format and is memory safe", "statement": "cjpeg's Targa reader, given any bytes and any pixel limit, either reports an error or the header is one the format allows (colour-mapped 8-bit, 15/16-, 24-, 32-bit RGB or 8-bit gray, not interlaced, at most 256 map entries) and the image is then either delivered completely, every row of the announced size, or refused with an error; no memory outside its buffers is touched. For every well-formed file, run-length coded or not, top-down or bottom-up, with or without identification and colour map, the width, height and components are those of the header and every pixel of every row, counted from the top, is the pixel stored for that place: run-length packets are expanded (also across row ends), map indexes looked up, 5-bit components expanded to 8 bits to the nearest value, and the alpha byte ignored.", "quantifier": "all byte sequences, all pixel limits, all well-formed files of all sizes up to 65535 by 65535 and every packet structure", "why_tests_cant": "the space of files and packet structures is unbounded; the upstream tests convert no run-length coded file", "anchors": ["rdtarga.c: start_input_tga, read_colormap, read_non_rle_pixel, read_rle_pixel, get_8bit_gray_row, get_8bit_row, get_16bit_row, get_24bit_row, get_memory_row, preload_image"]}
{"id": "C61", "title": "djpeg -map takes exactly the colours of the GIF or PPM file", "statement": "Reading a colour map from any file ends with an error or with a map of at most 256 colours whose components are samples (0..255); no memory outside the map and the header buffer is touched. From a GIF file with a global colour table the map is the table's colours, each once, in the order of the file, and no file that begins with G but is not such a GIF file is accepted. From a PPM file, binary or text, with any white space and comments between the numbers and with maximum 255, the map is the different colours of the image in the order of their first appearance, or the error if there are more than 256 of them.", "quantifier": "all byte sequences; all GIF colour tables of all eight sizes; all PPM images of all dimensions and all layouts of their text", "why_tests_cant": "the files, image sizes and text layouts are unbounded; the upstream tests use one GIF map file", "anchors": ["rdcolmap.c: read_color_map, read_gif_map, read_ppm_map, read_pbm_integer, pbm_getc, add_map_entry"]}
{"id": "C62", "title": "cjpeg's scan scripts and quantization-table files mean what they say", "statement": "cjpeg -scans accepts a file exactly if its text, comments removed, is a sequence of at most 64 entries of the documented form (one to four component numbers, optionally a colon and Ss Se Ah Al, separated by white space or one other character, each entry ended by a semicolon or the end of the file); the compressor's scan script is then exactly those entries in order (numbers reduced to 32 bits) and scan optimization is off; any other file of numbers of at most 18 digits is refused and changes nothing; and the script is then accepted by the compressor exactly if the entries form a valid script. cjpeg -qtables accepts a file exactly if its text is 64 numbers for each of at most four tables; tables 0, 1, ... are then those numbers, scaled by the table's percentage with rounding and limited to 1..32767 (1..255 for baseline), and the other tables are unchanged; no file with numbers of at most 18 digits leads outside the arrays.", "quantifier": "all byte sequences, all previous states of the compressor, all scale factors, both baseline settings", "why_tests_cant": "the space of texts is unbounded (layout, comments, punctuation, number of entries); the upstream tests use one scan script", "anchors": ["rdswitch.c: text_getc, read_text_integer, read_quant_tables, read_scan_integer, read_scan_script", "jcparam.c: jpeg_add_quant_table"]}
{"id": "C63", "title": "Interlaced GIF files are read with their rows in the right order", "statement": "If the rows of an image are written in the order of the four interlace passes (every 8th row from 0, every 8th from 4, every 4th from 2, every 2nd from 1) and the image's interlace flag is set, cjpeg's GIF reader delivers the image with its rows in the right order, every pixel with its palette colour, and no warning; the pass order contains every row exactly once.", "quantifier": "all palettes, image sizes up to 65535x65535, pixel contents, both compression modes, all contents of uninitialised memory", "why_tests_cant": "the row order depends on the height modulo 8 and there are unboundedly many images; the upstream tests read no interlaced GIF", "anchors": ["rdgif.c: start_input_gif, load_interlaced_image, get_interlaced_row"]}
{"id": "C64", "title": "cjpeg's -qslots and -sample arguments mean what they say", "statement": "cjpeg -qslots accepts an argument exactly if it is a list of at most ten table numbers 0..3 separated by commas (white space before a number and a final comma are allowed, text after the tenth comma is not looked at); component i then uses the i-th table and the components after the last number use the last one (0 if the list is empty). cjpeg -sample accepts an argument exactly if it is such a list of factors HxV with H and V in 1..4; component i then has the i-th factors and the components after the last have 1x1. No argument whose numbers have at most 9 digits leads outside the ten components.", "quantifier": "all character strings, all previous states of the ten components", "why_tests_cant": "the strings are unbounded; the upstream tests use a handful of well-formed arguments", "anchors": ["rdswitch.c: set_quant_slots, set_sample_factors"]}
