# Formal model of mozilla/mozjpeg in Rocq (Coq 8.16.1)

## Approach

* The C code in /repo is read as text; every Gallina definition of the model
  carries a comment citing file and lines. Nothing is extracted or run.
* `rocq/theories/Base.v` fixes the conventions: C integers are `Z`; unsigned
  wrap-around and conversions are written explicitly; an array access goes
  through a checked accessor; a computation returns `outcome A`:
  `Ret a | Error code | Undef`, so that undefined behaviour (out-of-bounds index,
  bad shift, uninitialised read, signed overflow where it is possible) is a
  visible, separate outcome that theorems exclude. Suspension is an explicit
  result of the routines that can suspend.
* For each area there are up to four kinds of file:
  - `M_xxx.v`  the model (definitions only, citing the source),
  - `S_xxx.v`  a small independent specification (the English / T.81 meaning),
  - `P_xxx.v`  lemmas and proofs,
  - `T_xxx.v`  the property theorems with `Print Assumptions` and non-vacuity
    `Example`s (a concrete, non-trivial case that meets all the hypotheses).
* Functional correctness is stated against the specification, not merely as a
  round trip, wherever possible (encoder = spec, decoder inverts spec), so that a
  symmetric change of both sides is also caught.
* `seeded/LOG.jsonl` records the wrong programs tried against the theorems.

## Properties: what is modelled, how it is proved

| Id | property | theorems in | modelled code | method | limits |
|--|--|--|--|--|--|
| C01 | Huffman table acceptance and canonical code assignment (encoder) | T_HuffTbl.v | jchuff.c jpeg_make_c_derived_tbl (M_HuffTbl) | loops = canonical code of T.81 Annex C; prefix-freeness by interval arithmetic on codes | - |
| C02 | Huffman symbol decoding inverts the canonical code (decoder) | T_HuffDec.v | jdhuff.c jpeg_make_d_derived_tbl, HUFF_DECODE, jpeg_huff_decode, jpeg_fill_bit_buffer (M_HuffTbl, M_BitRead) | refinement of the bit buffer to a list of bits | 64-bit build |
| C03 | Sequential entropy encoder emits the T.81 F.1.2 bit stream | T_HuffEnc.v | jchuff.c encode_one_block, PUT_BITS/FLUSH, flush_bits, encode_mcu_huff (M_HuffEnc) | accumulator = pending bits of the spec bit list (S_Block, S_Stream) | 64-bit build, no SIMD |
| C04 | Sequential Huffman round trip | T_Round.v | C03 + jdhuff.c decode_mcu_slow (M_HuffDec) | encoder meets spec, decoder inverts spec; induction over MCUs | - |
| C05 | Restart intervals | T_HuffEnc.v, T_Round.v | emit_restart, process_restart, read_restart_marker | induction over restart intervals | - |
| C06 | Entropy-coded data never contains a spurious marker | T_HuffEnc.v | byte stuffing in STORE_BYTE | invariant over the output | - |
| C07 | Output suspension / destination-buffer independence | T_HuffEnc.v | STORE_BUFFER/LOAD_BUFFER, dump_buffer, empty_output_buffer (M_HuffEnc) | for all buffer sizes and suspension points | suspension granularity is the MCU, as in the code |
| C08 | Input suspension / source-buffer independence | T_HuffDec.v | jpeg_fill_bit_buffer with fill_input_buffer suspending (M_BitRead, M_Source) | for all chunkings / suspension points | one case is refuted (filled zero bits), see Findings |
| C09 | Fast Huffman path agrees with slow path | T_HuffDec.v | decode_mcu_fast, decode_mcu dispatcher (M_HuffFast) | simulation with decode_mcu_slow | same |
| C10 | Optimal Huffman table generation is valid | T_GenTbl.v | jpeg_gen_optimal_table (M_GenTbl) | Kraft-sum invariants of merge and length limiting | <= 254 distinct symbols, counts < 1e9; outside: refuted |
| C11 | Statistics pass agrees with the output pass | T_Gather.v | htest_one_block, encode_mcu_gather (M_Gather) | counts = multiset of emitted symbols | - |
| C12 | Decoder robustness on corrupt entropy data | T_HuffDec.v | jdhuff.c on arbitrary bytes | totality, no Undef, termination, behaviour after exhaustion | - |
| C13 | Zig-zag order | T_HuffDec.v | jpeg_natural_order (jutils.c) | complete finite check (64 entries) | the property itself is finite |
| C14 | Scan script validation | T_Script.v | validate_script (M_Script) | decision procedure = S_Script.script_ok | - |
| C15 | Built-in progressive scripts are valid and complete | T_Script.v | jpeg_simple_progression, fill_* (M_Script) | finite sweep over the finitely many parameter settings, lifted to all inputs | - |
| C16 | Scan optimization always assembles a valid complete file | T_ScanOpt.v | jpeg_search_progression, prepare_for_pass, finish_pass_master, select_scans, copy_buffer (M_ScanOpt) | invariants over the pass automaton, for all measured sizes | scan sizes are arbitrary numbers |
| C17 | Scan optimization picks the cheapest candidate it measured | T_ScanOpt.v | select_scans | argmin over the measured candidates | - |
| C18 | Progressive Huffman round trip (per scan) | T_PHuff.v | jcphuff.c, jdphuff.c (M_PHuff) | events of the encoder inverted by the decoder; EOB-run/correction-bit invariant | SIMD prepare routines and decoder suspension inside a scan not modelled |
| C19 | Progressive whole-script round trip | T_Scans.v | C18/C29 coders over coefficient arrays in the MCU order of C38 (M_Scans) | induction over scripts: array = known precision of the last covering scan | marker segments between scans are C30/C31 |
| C20 | Quality scaling is monotone and bounded | T_Quant.v | jcparam.c quality functions (M_Quant) | arithmetic | jpeg_quality_scaling for the integer interface; float variant not modelled |
| C21 | Integer quantization by reciprocal equals rounded division | T_Quant.v | compute_reciprocal, quantize (M_Quant) | error bound of the reciprocal, all coefficients | 8-bit islow path; 12-bit division path |
| C22 | Trellis quantization only moves AC coefficients toward zero | T_Trellis.v | quantize_trellis (M_Trellis) | invariant over the dynamic program | float costs are arbitrary boolean oracles; quantize_trellis_arith and trellis_q_opt sums not modelled |
| C23 | Color conversion tables and ranges | T_Color.v | jccolor.c, jdcolor.c tables and loops (M_Color) | arithmetic on fixed-point tables | no SIMD, no RGB565 |
| C24 | Color conversion round-trip accuracy | T_Color.v | same | composition of C23 bounds | - |
| C25 | Pixel-format independence | T_Color.v | same, pixel layouts | index arithmetic | - |
| C26 | Lossless prediction round trip | T_Lossless.v | jclossls.c, jdlossls.c, row sequencing (M_Lossless) | induction over rows and samples | - |
| C27 | Lossless Huffman round trip | T_LossHuff.v | jclhuff.c, jdlhuff.c (M_LossHuff) | as C03/C04 for differences modulo 2^16 | suspension inside an MCU row (see Findings) |
| C28 | Arithmetic coder round trip | T_Arith.v | jaricom.c, arith_encode, finish_pass, arith_decode, get_byte (M_Arith) | coder as exact interval arithmetic on big integers; decoder tracks the same interval | - |
| C29 | Arithmetic-coded scan round trip | T_ArithBlk.v | jcarith.c, jdarith.c block procedures (M_ArithBlk) | contexts agree step by step; decision trees | suspension is an error in the code |
| C30 | Marker segment round trip | T_MarkWr.v | jcmarker.c (M_MarkWr) against jdmarker.c (M_MarkRd) | written bytes parsed back to the same state | DAC written by arithmetic code modelled; destination never suspends for markers (an error in the code) |
| C31 | Marker parsing safety | T_MarkRd.v | jdmarker.c (M_MarkRd) | invariant over all byte strings, all suspension points | - |
| C32 | ICC profile round trip | T_Icc.v | jcicc.c, jdicc.c (M_Icc) | induction over chunks | - |
| C33 | Resynchronisation after data errors | T_HuffDec.v | jpeg_resync_to_restart, next_marker (M_Source) | case analysis against S_Resync | - |
| C34 | Lossless transforms form the dihedral group | T_Xform.v | transupp.c do_* (M_Xform) | block-index arithmetic; pixels theorem over the real IDCT | no drop / wipe / extension |
| C35 | Lossless crop | T_Xform.v | jtransform_request_workspace, do_crop (M_Xform) | index arithmetic | crop inside the image |
| C36 | Rounding helpers | T_Quant.v | jutils.c | arithmetic | - |
| C37 | Image geometry | T_Geom.v | jcmaster.c initial_setup, per_scan_setup; jdinput.c (M_Geom) | arithmetic | JPEG_LIB_VERSION 62 |
| C38 | MCU/block mapping round trip | T_MCU.v | jccoefct.c, jctrans.c, jdcoefct.c (M_Coef) | loop invariants over rows/columns, all suspension schedules | DCT and entropy coder abstract here (concrete in C04/C18/C19/C29) |
| C39 | Memory destination | T_MemDst.v | jdatadst.c, jdatadst-tj.c (M_MemDst) | histories of calls | malloc may fail at any call |
| C40 | Data source and end of input | T_DataSrc.v | jdatasrc.c (M_DataSrc) | histories of reads | - |
| C41 | Memory manager | T_Mem.v | jmemmgr.c (M_Mem) | invariant over all call histories, any malloc answers | virtual arrays as in C38 |
| C42 | Call-order protocol (compressor) | T_CApi.v | jcapimin/std.c, jctrans.c, jcmainct.c, jcprepct.c (M_CApi) | state machine, all call histories | - |
| C43 | Call-order protocol (decompressor) | T_DApi.v | jdapimin/std.c, jdtrans.c, jdmaster.c (M_DApi) | state machine, all call histories | jpeg_skip_scanlines/jpeg_crop_scanline not modelled |
| C44 | Sample range limiting | T_RangeLimit.v | prepare_range_limit_table (M_RangeLimit) | arithmetic | - |
| C45 | IDCT shortcuts agree with the full computation | T_Idct.v | jidctint.c, jidctred.c (M_Idct) | zero-column shortcut = full computation; range; DC-only | jidctfst.c, jidctflt.c not modelled |
| C46 | Upsampling/downsampling invariants | T_Sample.v | jdsample.c, jcsample.c (M_Sample) | arithmetic and index bounds | merged upsampling (jdmerge.c) not modelled |
| C47 | Context-row buffering | T_Context.v | jdmainct.c context and simple modes (M_DMain) | invariant over the funny-pointer buffer | - |
| C48 | Color quantizer | T_ColourQuant.v | jquant1.c, jquant2.c second pass (M_Quant1, M_Quant2) | correctness of the pruned nearest-colour search; error bounds | palette selection (median cut) and histogram pass not modelled |
| C49 | TurboJPEG buffer sizing | T_TJBound.v, T_TJBuf.v | turbojpeg.c size functions (M_TJBuf) | explicit wrap-around arithmetic | bound against the encoder worst case in T_TJBound |
| C50 | GIF LZW round trip | T_Gif.v | wrgif.c, rdgif.c (M_Gif) | LZW dictionary invariant | interlaced files: C63 |
| C51 | Comment insertion | T_Wrcom.v | wrjpgcom.c, rdjpgcom.c (M_Wrcom) | parsing of arbitrary files | option parsing not modelled |
| C52 | GIF reader safe on arbitrary input | T_GifSafe.v | rdgif.c on arbitrary bytes, interlaced files included | totality, no Undef | - |
| C53 | Skipping lines is the same as reading and discarding them | T_Skip.v | jdapistd.c jpeg_skip_scanlines, jpeg_read_scanlines on the main controller/upsampler model of M_DMain (M_Skip) | invariant over sessions of reads and skips | no merged upsampling, no two-pass quantizer; v > 2 with context rows and skips from inside a row group are refuted (five counterexamples) |
| C54 | Merged upsampling equals separate upsampling plus colour conversion | T_Merge.v | jdmerge.c/jdmrgext.c row functions and control, with the simple main controller and read/skip (M_Merge); the spare row aliases read_and_discard's output row | loop invariants over columns; session invariant | no RGB565, no cropping; skipping out of an iMCU row from an odd line, reading more lines than remain after a skip, and reading 0 lines are refuted |
| C55 | jpeg_write_scanlines: batching and suspension do not matter | T_Prep.v | jpeg_write_scanlines, process_data_simple_main, pre_process_data and pre_process_context, with the wraparound pointer array of the context buffer and the suspension protocol; colour-converted rows are represented by the image row they come from, downsampled rows by the image rows the downsampler can see | an invariant relating the circular colour buffer to the clamped image rows, by induction over the preprocessing loop, the main loop and the session | one component is modelled (the components are handled identically); pixel arithmetic is covered by C17/C24 and not repeated; the finding C55_zero_lines_refuted: a resuming call with no lines reports one accepted line |
| C56 | PPM/PGM reader is safe on any input and reads back what the writer writes | T_Pnm.v | start_input_ppm, read_pbm_integer, pbm_getc and all the row methods of rdppm.c; start_output_ppm and the non-quantized row methods of wrppm.c; cmyk.h | induction over the input bytes and over columns and rows; a separate grammar of the text format and of pixel layouts is the specification | cmyk.h uses doubles, modelled as exact rational arithmetic; colour-mapped output and write errors are not modelled; findings C56_one_digit_refuted and C56_over_maxval_refuted: some samples above maxval are accepted and become 0 |
| C57 | Interblock smoothing only fills in unknown coefficients, from the right neighbours | T_Smooth.v | smoothing_ok, start_output_pass and decompress_smooth_data of jdcoefct.c: selection, latching, access windows, row pointers with their edge rules, the 25 sliding registers, all fifteen kernels, estimation with narrowing | the registers are shown by induction over columns to hold the clamped neighbourhood; row pointers by case analysis on the position of the iMCU row; kernels against transposable weight matrices by ring; estimates by division bounds | the loop forcing input ahead of output and the inverse DCT are not in this model. Exactness of the vertical neighbourhood is proved except where it is false: four findings (crop edge, padding row, second row above, DC wrap) are shown by computed counterexamples. JLONG is taken as 64 bits |
| C58 | BMP input and output are memory safe, follow the file format, and round-trip | T_Bmp.v | M_Bmp.v: the whole reader and writer on byte lists, row buffers as lists of optional samples (rows that are copied as they are copy their padding too); 32-bit wrap of the row width; allocation limits | S_Bmp.v defines the file format by byte offsets; position-indexed slices of the file give every field; a case analysis shows each step is an error or has enough bytes; row loops by induction with a frame condition per pixel; the writer's file is shown to satisfy the format | RGB565 output, write errors, progress reports and the memory limit are not modelled; the over-read of padding in the writer's EXT_BGR copy is noted, not modelled |
| C59 | Two-pass colour quantization chooses a sound palette | T_Median.v | M_Median.v: the histogram pass with the saturating 16-bit count, boxes, shrinking, choice and splitting of boxes, the mean colours, the bounds on the number of colours; second pass from M_Quant2.v | S_Median.v defines cells, weights, groups and means; saturation by induction over the pixels; after shrinking every face of a box has an occupied cell, so a box of positive volume splits into two nonempty halves; loop invariant: the boxes partition the occupied cells (Permutation); single-cell boxes when no box can be split; T_ColourQuant's nearest-colour theorem for the second pass | the order of the searches inside update_box (early exits) is abstracted to the first or last occupied plane; which box is split first is modelled but not part of the claim; memory management is not modelled |
| C60 | Targa input follows the file format and is memory safe | T_Targa.v | M_Targa.v: the whole reader on byte lists, with the run-length state (tga_pixel, block_count, dup_pixel_count) carried from pixel to pixel | S_Targa.v defines the file as a concatenation (header, identification, map, packets) and the meaning of a pixel; invariant: the state feeds a list of pixels (the rest of a run, the rest of a raw packet, whole packets); rows by induction; sane-state invariant for arbitrary bytes | progress reports, trace messages and the memory manager are not modelled |
| C61 | djpeg -map takes exactly the colours of the GIF or PPM file | T_ColMap.v | M_ColMap.v: the whole of rdcolmap.c on byte lists (8-bit samples) | S_ColMap.v defines the file formats by concatenation, the text of a number, and `each colour once in order of first appearance'; the reader is shown to fold add_map_entry over the colours of the file, which is shown to compute the list of first appearances | finding C61_text_refuted: numbers of a text PPM above its maximum 255 are not refused; their low 8 bits are stored and the same colour can appear twice. The 12- and 16-bit builds of the file are not modelled |
| C62 | cjpeg's scan scripts and quantization-table files mean what they say | T_Switch.v | M_Switch.v: the two readers on byte lists, with the long overflow as undefined behaviour and the push-back of ungetc | S_Switch.v gives the two text formats as grammars on the text without comments; both directions are proved (every accepted file has a parse and every parse is what is read), by the uniqueness of the split into white space, digits and rest; the composition with C14 relates a script file to the validity rules of T.81 | findings: C62_overflow_refuted (a number of 19 digits can overflow the long), C62_wrap_refuted (4294967296 is taken for component 0). The command-line arguments parsed by sscanf (-quality, -qslots, -sample) are not modelled |
| C63 | Interlaced GIF files are read with their rows in the right order | T_GifInter.v | M_Gif.v: load_rows, interlaced_row, get_interlaced (rdgif.c load_interlaced_image and get_interlaced_row; the virtual array is a list of rows) | S_GifInter.v gives the pass order by filtering the row numbers; the offsets computed by the reader are proved to be the positions in that order; the rest is the LZW round trip of C50 | memory safety of the interlaced reader is part of C52 |
| C64 | cjpeg's -qslots and -sample arguments mean what they say | T_Slots.v | M_Slots.v: the two loops and sscanf's %d and %c as C11 defines them (an unrepresentable number is undefined behaviour), the state being the quant_tbl_no or (h_samp_factor, v_samp_factor) of the MAX_COMPONENTS components | S_Slots.v gives the arguments as a grammar; both directions by induction on the remaining components; memory safety by bounding the value of at most 9 digits | findings: C64_tail_refuted (text after the tenth item is ignored), C64_refused_changes_refuted (a refused argument has changed earlier components). -quality, which needs sscanf of a float, is not modelled |

Exact theorem names are in MANIFEST.json. Theorems ending in `_refuted` exhibit inputs for which a natural stronger claim is false of the code.

## Trusted base

* Coq 8.16.1's kernel (including its `vm_compute` conversion, used in finite
  checks and examples) and the standard library. No other library is used.
* `Print Assumptions` reports "Closed under the global context" for every theorem
  except `C34_pixels`, which is about the real-valued IDCT and uses the axioms of
  the standard library's real numbers: `ClassicalDedekindReals.sig_not_dec`,
  `ClassicalDedekindReals.sig_forall_dec`,
  `FunctionalExtensionality.functional_extensionality_dep`.
* The faithfulness of the `M_` files to the C text: this is by reading. The
  conventions that could be wrong silently are listed next.

## What the model takes for granted

* LP64: `int` 32 bits, `long`/`size_t`/`JLONG` 64 bits, two's complement,
  arithmetic right shift; BITS_IN_JSAMPLE 8 or 12 (16 for lossless);
  BIT_BUF_SIZE 64; no SIMD (the C paths only); JPEG_LIB_VERSION 62.
* `malloc` may fail whenever the model lets it (C39, C41); elsewhere memory that
  the code allocates is there, with the size the code asked for, and an access
  outside it is `Undef`.
* Errors: `ERREXIT` ends the call with `Error code` (longjmp back to the
  application); warnings are recorded where a property needs them.
* Floats occur only in trellis quantization (costs as arbitrary oracles) and in
  `C34_pixels` (real numbers); the float DCTs are not modelled.

## Not modelled

SIMD code; jfdct*/jidctfst/jidctflt; jdmerge; jquant2's palette selection;
jpeg_skip_scanlines, jpeg_crop_scanline; jdcoefct block smoothing; BMP/PPM/TGA/PNG
readers and writers; option parsing of the command-line programs; the TurboJPEG
API beyond its size functions, destination manager and plane layout; Java; quantize_trellis_arith;
crop extension, wipe and drop in transupp.c; backing store of the memory manager
(jmemnobs.c has none).
