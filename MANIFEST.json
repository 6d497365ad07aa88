{
 "claims": [
  {
   "property": "C01",
   "status": "proved",
   "theorems": [
    "C01_encoder_table",
    "C01_missing_table"
   ],
   "note": ""
  },
  {
   "property": "C02",
   "status": "proved",
   "theorems": [
    "C02_decoder_table",
    "C02_symbol"
   ],
   "note": ""
  },
  {
   "property": "C03",
   "status": "proved",
   "theorems": [
    "C03_scan_bytes",
    "C03_block"
   ],
   "note": ""
  },
  {
   "property": "C04",
   "status": "proved",
   "theorems": [
    "C04_round_trip",
    "C04_full_tables"
   ],
   "note": ""
  },
  {
   "property": "C05",
   "status": "proved",
   "theorems": [
    "C05_encoder_intervals",
    "C05_round_trip"
   ],
   "note": ""
  },
  {
   "property": "C06",
   "status": "proved",
   "theorems": [
    "C06_no_spurious_marker"
   ],
   "note": ""
  },
  {
   "property": "C07",
   "status": "proved",
   "theorems": [
    "C07_buffer_independence",
    "C07_suspension"
   ],
   "note": ""
  },
  {
   "property": "C08",
   "status": "proved",
   "theorems": [
    "C08_suspension",
    "C08_chunking",
    "C08_filled_zero_refuted",
    "C08_suspended_mcu"
   ],
   "note": ""
  },
  {
   "property": "C09",
   "status": "proved",
   "theorems": [
    "C09_fast_agrees",
    "C09_composite",
    "C09_filled_zero_refuted"
   ],
   "note": ""
  },
  {
   "property": "C10",
   "status": "proved",
   "theorems": [
    "C10_optimal_table",
    "C10_255_symbols_refuted",
    "C10_huge_counts_refuted"
   ],
   "note": ""
  },
  {
   "property": "C11",
   "status": "proved",
   "theorems": [
    "C11_counts",
    "C11_symbols_of_output",
    "C11_optimized_tables"
   ],
   "note": ""
  },
  {
   "property": "C12",
   "status": "proved",
   "theorems": [
    "C12_start",
    "C12_mcu_safe",
    "C12_scan_safe",
    "C12_exhausted",
    "C12_after_exhaustion"
   ],
   "note": ""
  },
  {
   "property": "C13",
   "status": "proved",
   "theorems": [
    "C13_zigzag"
   ],
   "note": ""
  },
  {
   "property": "C14",
   "status": "proved",
   "theorems": [
    "C14_validate_script",
    "C14_every_valid_script_is_encodable_refuted"
   ],
   "note": ""
  },
  {
   "property": "C15",
   "status": "proved",
   "theorems": [
    "C15_simple_progression"
   ],
   "note": ""
  },
  {
   "property": "C16",
   "status": "proved",
   "theorems": [
    "C16_optimized_file_valid_and_complete",
    "C16_zero_trellis_loops_refuted",
    "C16_mode_changed_after_script_refuted"
   ],
   "note": ""
  },
  {
   "property": "C17",
   "status": "proved",
   "theorems": [
    "C17_cheapest_candidate",
    "C17_candidates_are_complete"
   ],
   "note": ""
  },
  {
   "property": "C18",
   "status": "proved",
   "theorems": [
    "C18_roundtrip",
    "C18_gather_total",
    "C18_encoder_total",
    "C18_optimized"
   ],
   "note": "all four kinds of progressive Huffman scan with restarts, EOB runs and correction bits; encoder totality incl. optimised tables. SIMD preparation routines not modelled; suspension of the decoder inside a scan not covered."
  },
  {
   "property": "C19",
   "status": "proved",
   "theorems": [
    "C19_after_scans",
    "C19_arith_after_scans",
    "C19_roundtrip",
    "C19_arith_roundtrip",
    "C19_controllers"
   ],
   "note": "Whole progressive files over coefficient arrays, Huffman and arithmetic: after any prefix of a legal script each coefficient is known to exactly the precision of the last scan covering it (C19_after_scans, C19_arith_after_scans); a script accepted by validate_script that sends every bit gives back every block exactly (C19_roundtrip, C19_arith_roundtrip), for every geometry, any contents of edge dummy blocks, any tables and restart intervals; C19_controllers ties the MCUs to those of C38. Each scan is decoded from a source holding the bytes written for it, followed by a marker; the marker segments between scans are covered by C24/C25-style properties, not here."
  },
  {
   "property": "C20",
   "status": "proved",
   "theorems": [
    "C20_scaling_value",
    "C20_scaling_antitone",
    "C20_entry_range",
    "C20_entry_value",
    "C20_entry_antitone",
    "C20_set_quality"
   ],
   "note": ""
  },
  {
   "property": "C21",
   "status": "proved",
   "theorems": [
    "C21_reciprocal_is_rounded_division",
    "C21_islow_quantization",
    "C21_islow_quantization_16bit",
    "C21_division_12bit",
    "C21_large_steps_refuted"
   ],
   "note": ""
  },
  {
   "property": "C22",
   "status": "proved",
   "theorems": [
    "C22_trellis",
    "C22_toward_zero_meaning"
   ],
   "note": ""
  },
  {
   "property": "C23",
   "status": "proved",
   "theorems": [
    "C23_rgb_to_ycc",
    "C23_rgb_to_ycc_8bit",
    "C23_gray_is_exact",
    "C23_ycc_to_rgb",
    "C23_gray_stays_gray"
   ],
   "note": ""
  },
  {
   "property": "C24",
   "status": "proved",
   "theorems": [
    "C24_round_trip"
   ],
   "note": ""
  },
  {
   "property": "C25",
   "status": "proved",
   "theorems": [
    "C25_input_format_independent",
    "C25_input_gray_format_independent",
    "C25_input_rgb_exact",
    "C25_output_ycc",
    "C25_output_gray",
    "C25_null_convert_planes",
    "C25_null_convert_round_trip"
   ],
   "note": ""
  },
  {
   "property": "C26",
   "status": "proved",
   "theorems": [
    "C26_round_trip",
    "C26_exact",
    "C26_differences",
    "C26_bad_restart"
   ],
   "note": ""
  },
  {
   "property": "C27",
   "status": "proved",
   "theorems": [
    "C27_scan_bytes",
    "C27_decode",
    "C27_round_trip",
    "C27_representative",
    "C27_missing_code",
    "C27_image"
   ],
   "note": ""
  },
  {
   "property": "C28",
   "status": "proved",
   "theorems": [
    "C28_roundtrip",
    "C28_no_marker",
    "C28_registers"
   ],
   "note": ""
  },
  {
   "property": "C29",
   "status": "proved",
   "theorems": [
    "C29_scan_roundtrip",
    "C29_sequential_roundtrip"
   ],
   "note": ""
  },
  {
   "property": "C30",
   "status": "proved",
   "theorems": [
    "C30_first_scan",
    "C30_next_scan",
    "C30_between_scans",
    "C30_trailer",
    "C30_tables_only"
   ],
   "note": ""
  },
  {
   "property": "C31",
   "status": "proved",
   "theorems": [
    "C31_safe",
    "C31_tables",
    "C31_success",
    "C31_error"
   ],
   "note": ""
  },
  {
   "property": "C32",
   "status": "proved",
   "theorems": [
    "C32_read",
    "C32_write",
    "C32_round_trip",
    "C32_oversize_refuted",
    "C32_errors"
   ],
   "note": ""
  },
  {
   "property": "C33",
   "status": "proved",
   "theorems": [
    "C33_resync",
    "C33_rule_deterministic",
    "C33_keeps_other_markers",
    "C33_skips_forward",
    "C33_next_marker"
   ],
   "note": ""
  },
  {
   "property": "C34",
   "status": "proved",
   "theorems": [
    "C34_symmetry",
    "C34_perfect",
    "C34_trim",
    "C34_pixels",
    "C34_group",
    "C34_compose"
   ],
   "note": ""
  },
  {
   "property": "C35",
   "status": "proved",
   "theorems": [
    "C35_crop_transform",
    "C35_crop",
    "C35_region",
    "C35_bad_crop"
   ],
   "note": ""
  },
  {
   "property": "C36",
   "status": "proved",
   "theorems": [
    "C36_jdiv_round_up_is_ceiling",
    "C36_jround_up_is_least_multiple"
   ],
   "note": ""
  },
  {
   "property": "C37",
   "status": "proved",
   "theorems": [
    "C37_frame_agree",
    "C37_scan_agree",
    "C37_blocks_tile",
    "C37_mcu_tile",
    "C37_mcu_blocks"
   ],
   "note": ""
  },
  {
   "property": "C38",
   "status": "proved",
   "theorems": [
    "C38_encode_one_pass",
    "C38_encode_transcode",
    "C38_encode_first_pass",
    "C38_every_block_once",
    "C38_decode_buffered",
    "C38_decode_one_pass",
    "C38_round_trip",
    "C38_output_buffered"
   ],
   "note": ""
  },
  {
   "property": "C39",
   "status": "proved",
   "theorems": [
    "C39_mem_dest",
    "C39_tj_dest",
    "C39_tj_history",
    "C39_tj_fixed",
    "C39_tj_size_zero_refuted",
    "C39_tj_foreign_buffer_refuted",
    "C39_stdio"
   ],
   "note": ""
  },
  {
   "property": "C40",
   "status": "proved",
   "theorems": [
    "C40_mem_source",
    "C40_stdio_source",
    "C40_empty_input",
    "C40_series"
   ],
   "note": ""
  },
  {
   "property": "C41",
   "status": "proved",
   "theorems": [
    "C41_invariant",
    "C41_alloc",
    "C41_overflow",
    "C41_rows",
    "C41_free",
    "C41_destroy"
   ],
   "note": ""
  },
  {
   "property": "C42",
   "status": "proved",
   "theorems": [
    "C42_rejected",
    "C42_accepted",
    "C42_destroyed_refuted",
    "C42_late_marker_refuted",
    "C42_scanlines",
    "C42_finish"
   ],
   "note": ""
  },
  {
   "property": "C43",
   "status": "proved",
   "theorems": [
    "C43_rejected",
    "C43_accepted",
    "C43_destroyed_refuted",
    "C43_consume_input_refuted",
    "C43_scanlines",
    "C43_total",
    "C43_finish"
   ],
   "note": ""
  },
  {
   "property": "C44",
   "status": "proved",
   "theorems": [
    "C44_simple_table_clamps",
    "C44_idct_lookup",
    "C44_idct_lookup_in_range"
   ],
   "note": ""
  },
  {
   "property": "C45",
   "status": "proved",
   "theorems": [
    "C45_shortcuts",
    "C45_range",
    "C45_dc_constant"
   ],
   "note": ""
  },
  {
   "property": "C46",
   "status": "proved",
   "theorems": [
    "C46_upsample_exact",
    "C46_replicate",
    "C46_upsample_range",
    "C46_upsample_fractional",
    "C46_downsample_exact",
    "C46_downsample_range",
    "C46_downsample_fractional",
    "C46_constant"
   ],
   "note": ""
  },
  {
   "property": "C47",
   "status": "proved",
   "theorems": [
    "C47_context_rows",
    "C47_rows_complete"
   ],
   "note": ""
  },
  {
   "property": "C48",
   "status": "proved",
   "theorems": [
    "C48_two_pass",
    "C48_two_pass_fs",
    "C48_one_pass_levels",
    "C48_one_pass",
    "C48_one_pass_ordered",
    "C48_one_pass_fs"
   ],
   "note": ""
  },
  {
   "property": "C49",
   "status": "proved",
   "theorems": [
    "C49_jpeg_bound_refuted",
    "C49_plane_width",
    "C49_plane_height",
    "C49_yuv_bufsize",
    "C49_yuv_bufsize_invalid",
    "C49_yuv_bufsize_refuted",
    "C49_planes_tile",
    "C49_plane_size",
    "C49_jpeg_bufsize",
    "C49_jpeg_bufsize_refuted"
   ],
   "note": ""
  },
  {
   "property": "C50",
   "status": "proved",
   "theorems": [
    "C50_round_trip",
    "C50_indices"
   ],
   "note": ""
  },
  {
   "property": "C51",
   "status": "proved",
   "theorems": [
    "C51_insert",
    "C51_bytes",
    "C51_any_file",
    "C51_read_back",
    "C51_shown_raw",
    "C51_shown_text",
    "C51_shown"
   ],
   "note": ""
  },
  {
   "property": "C52",
   "status": "proved",
   "theorems": [
    "C52_gif_reader_safe"
   ],
   "note": ""
  },
  {
   "property": "C53",
   "status": "proved",
   "theorems": [
    "C53_read",
    "C53_skip",
    "C53_entropy_position",
    "C53_rows_used"
   ],
   "note": ""
  },
  {
   "property": "C54",
   "status": "proved",
   "theorems": [
    "C54_read",
    "C54_skip",
    "C54_pixels"
   ],
   "note": ""
  },
  {
   "property": "C55",
   "status": "proved",
   "theorems": [
    "C55_write",
    "C55_complete",
    "C55_not_early",
    "C55_batching",
    "C55_prefix",
    "C55_finish",
    "C55_rows_seen"
   ],
   "note": ""
  },
  {
   "property": "C56",
   "status": "proved",
   "theorems": [
    "C56_safe",
    "C56_read",
    "C56_roundtrip",
    "C56_scale",
    "C56_cmyk"
   ],
   "note": ""
  },
  {
   "property": "C57",
   "status": "proved",
   "theorems": [
    "C57_when",
    "C57_safe",
    "C57_exact",
    "C57_untouched",
    "C57_exactly_known",
    "C57_bounded",
    "C57_nearest",
    "C57_flat",
    "C57_transpose"
   ],
   "note": ""
  },
  {
   "property": "C58",
   "status": "proved",
   "theorems": [
    "C58_safe",
    "C58_read",
    "C58_no_conversion",
    "C58_write",
    "C58_roundtrip",
    "C58_bad_index",
    "C58_accepts"
   ],
   "note": ""
  },
  {
   "property": "C59",
   "status": "proved",
   "theorems": [
    "C59_palette",
    "C59_few_colours",
    "C59_two_passes",
    "C59_counts"
   ],
   "note": ""
  },
  {
   "property": "C60",
   "status": "proved",
   "theorems": [
    "C60_read",
    "C60_safe"
   ],
   "note": ""
  },
  {
   "property": "C61",
   "status": "proved",
   "theorems": [
    "C61_safe",
    "C61_gif",
    "C61_gif_only",
    "C61_ppm"
   ],
   "note": ""
  },
  {
   "property": "C62",
   "status": "proved",
   "theorems": [
    "C62_scans",
    "C62_scans_safe",
    "C62_scans_used",
    "C62_qtables",
    "C62_qtables_safe"
   ],
   "note": ""
  },
  {
   "property": "C63",
   "status": "proved",
   "theorems": [
    "C63_interlaced",
    "C63_passes"
   ],
   "note": ""
  },
  {
   "property": "C64",
   "status": "proved",
   "theorems": [
    "C64_qslots",
    "C64_sample",
    "C64_safe"
   ],
   "note": ""
  }
 ]
}