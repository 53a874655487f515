{
 "claims": [
  {
   "property": "C01",
   "status": "proved",
   "theorems": [
    "C01_lba_chs_lba",
    "C01_chs_lba_chs",
    "C01_out_of_range_rejected",
    "C01_lba_is_position",
    "C01_s_off_2_refuted"
   ],
   "note": "For first sector id 0 or 1 (all shipped layouts); C01_s_off_2_refuted shows the restriction is necessary."
  },
  {
   "property": "C02",
   "status": "proved",
   "theorems": [
    "C02_chs_iter",
    "C02_chsn_iter",
    "C02_all_sectors_exact",
    "C02_next_sector",
    "C02_offset_sectors",
    "C02_empty_layout_refuted"
   ],
   "note": "C02_empty_layout_refuted: with zero cylinders the iterator still yields one sector (outside the property's quantifier)."
  },
  {
   "property": "C03",
   "status": "proved",
   "theorems": [
    "C03_track_iter",
    "C03_all_tracks_exact",
    "C03_next_track",
    "C03_seek_next_track",
    "C03_next_track_unchecked"
   ],
   "note": ""
  },
  {
   "property": "C04",
   "status": "proved",
   "theorems": [
    "C04_accepted",
    "C04_offset_to_sector",
    "C04_sector_to_offset",
    "C04_offset_past_end",
    "C04_sector_zero_refuted"
   ],
   "note": "C04_accepted is the exact set of accepted addresses; the exception is C04_sector_zero_refuted."
  },
  {
   "property": "C05",
   "status": "proved",
   "theorems": [
    "C05_all_codes",
    "C05_n_roundtrip",
    "C05_capped",
    "C05_max",
    "C05_bytes_to_n",
    "C05_largest_n_refuted",
    "C05_cap_all_n_refuted"
   ],
   "note": "C05_all_codes covers every u8; exceptions C05_cap_all_n_refuted, C05_largest_n_refuted."
  },
  {
   "property": "C06",
   "status": "proved",
   "theorems": [
    "C06_query_matches",
    "C06_query_of_chsn",
    "C06_query_of_chs"
   ],
   "note": ""
  },
  {
   "property": "C07",
   "status": "proved",
   "theorems": [
    "C07_ring_refines_circular_array",
    "C07_constructors",
    "C07_iter_revolution",
    "C07_infinite_iter_refuted"
   ],
   "note": "Exception: C07_infinite_iter_refuted."
  },
  {
   "property": "C08",
   "status": "proved",
   "theorems": [
    "C08_write_then_read",
    "C08_fresh_codec",
    "C08_read_is_decode",
    "C08_read_u32_be",
    "C08_u32_vs_u8_refuted"
   ],
   "note": "All buffers, positions (with wrap), contents; positions in phase with the clock map (always true for a fresh codec, C08_fresh_codec). C08_u32_vs_u8_refuted concerns the separate 32-bit read helpers."
  },
  {
   "property": "C09",
   "status": "proved",
   "theorems": [
    "C09_length",
    "C09_cells",
    "C09_no_adjacent_ones",
    "C09_at_most_three_zeros",
    "C09_concat",
    "C09_address_mark_variant_refuted"
   ],
   "note": "C09_address_mark_variant_refuted: the AddressMark variant of encode (unused by the library) does not produce the missing-clock pattern."
  },
  {
   "property": "C10",
   "status": "proved",
   "theorems": [
    "C10_no_marker_in_data",
    "C10_find_marker_in_data",
    "C10_marker_needs_missing_clocks"
   ],
   "note": ""
  },
  {
   "property": "C11",
   "status": "proved",
   "theorems": [
    "C11_found",
    "C11_not_found",
    "C11_marker_at_zero_refuted"
   ],
   "note": "Exception: C11_marker_at_zero_refuted."
  },
  {
   "property": "C12",
   "status": "proved",
   "theorems": [
    "C12_crc_is_polynomial_remainder",
    "C12_default_start",
    "C12_incremental",
    "C12_bytewise",
    "C12_residue",
    "C12_intact_record_checks",
    "C12_burst_detected",
    "C12_odd_damage_detected",
    "C12_three_bits_detected"
   ],
   "note": ""
  },
  {
   "property": "C13",
   "status": "proved",
   "theorems": [
    "C13_decode_u8_pair",
    "C13_decode_u32_pair",
    "C13_decode_u32",
    "C13_decode_u8_buf",
    "C13_decode_u32_buf",
    "C13_mfm_u32",
    "C13_fm_u32",
    "C13_encode_u8_even",
    "C13_encode_u32_even",
    "C13_encode_u8_odd",
    "C13_encode_u32_odd",
    "C13_encode_roundtrip_refuted"
   ],
   "note": "Exception: C13_encode_roundtrip_refuted; C13_encode_* say exactly what is produced."
  },
  {
   "property": "C14",
   "status": "proved",
   "theorems": [
    "C14_contains",
    "C14_is_data",
    "C14_end_exclusive_refuted"
   ],
   "note": "Exception: C14_end_exclusive_refuted."
  },
  {
   "property": "C15",
   "status": "proved",
   "theorems": [
    "C15_read_last_write",
    "C15_write_outcome",
    "C15_short_sector_refuted",
    "C15_weak_read",
    "C15_no_dam_data_refuted"
   ],
   "note": "Exceptions: C15_short_sector_refuted, C15_no_dam_data_refuted."
  },
  {
   "property": "C16",
   "status": "proved",
   "theorems": [
    "C16_read_absent",
    "C16_scan_absent",
    "C16_scan_found",
    "C16_write_absent",
    "C16_write_not_found_refuted"
   ],
   "note": "Exception: C16_write_not_found_refuted."
  },
  {
   "property": "C17",
   "status": "proved",
   "theorems": [
    "C17_add_new",
    "C17_add_then_read",
    "C17_alternate",
    "C17_alternate_panics_refuted"
   ],
   "note": "Exception: C17_alternate (exact) and C17_alternate_panics_refuted."
  },
  {
   "property": "C18",
   "status": "proved",
   "theorems": [
    "C18_read_last_write",
    "C18_absent",
    "C18_write_frame",
    "C18_write_frame_formatted",
    "C18_loaded_write_read",
    "C18_deleted_crc_refuted"
   ],
   "note": "Exception: C18_deleted_crc_refuted (for every write)."
  },
  {
   "property": "C19",
   "status": "proved",
   "theorems": [
    "C19_layout_bytes",
    "C19_empty_pattern",
    "C19_cells",
    "C19_index_mark_refuted"
   ],
   "note": "Exception: C19_index_mark_refuted (for every IBM format)."
  },
  {
   "property": "C20",
   "status": "proved",
   "theorems": [
    "C20_format_then_scan",
    "C20_wide_cylinder_refuted",
    "C20_wide_cylinder_lost_refuted"
   ],
   "note": "Exceptions: C20_wide_cylinder_refuted, C20_wide_cylinder_lost_refuted."
  },
  {
   "property": "C21",
   "status": "proved",
   "theorems": [
    "C21_load",
    "C21_edit",
    "C21_round_trip",
    "C21_wrong_bpb_refuted",
    "C21_sizes",
    "C21_amiga_hd_refuted",
    "C21_amiga",
    "C21_blank_amiga_refuted"
   ],
   "note": "Full load (format detection, track building, normalisation, analysis, boot sector parsing) and save; SHA-1 is a parameter of the theorems. The exceptions are C21_wrong_bpb_refuted, C21_amiga_hd_refuted and C21_blank_amiga_refuted."
  },
  {
   "property": "C22",
   "status": "proved",
   "theorems": [
    "C22_reads",
    "C22_within",
    "C22_read_at",
    "C22_after_end_refuted"
   ],
   "note": "Any disk whose sectors read without error; the exception in the statement is C22_after_end_refuted."
  },
  {
   "property": "C23",
   "status": "proved",
   "theorems": [
    "C23_history",
    "C23_formatted",
    "C23_boundary_refuted",
    "C23_seek_track_refuted"
   ],
   "note": "Generic over every disk on which sector writes store exactly the sector (sector_store), instantiated for every disk formatted by fluxfox; the exceptions are C23_boundary_refuted and C23_seek_track_refuted."
  },
  {
   "property": "C24",
   "status": "proved",
   "theorems": [
    "C24_histories",
    "C24_iteration",
    "C24_sector_access",
    "C24_track_head_panics"
   ],
   "note": "Refinement of every call history to one list of tracks per head; no dangling or shared entries; iteration order."
  },
  {
   "property": "C25",
   "status": "proved",
   "theorems": [
    "C25_uniform",
    "C25_other_rejected",
    "C25_same_accepted",
    "C25_failed_add_refuted",
    "C25_empty_track_resolution_refuted"
   ],
   "note": "Exceptions: C25_failed_add_refuted, C25_empty_track_resolution_refuted."
  },
  {
   "property": "C26",
   "status": "proved",
   "theorems": [
    "C26_bitstream_analysis",
    "C26_bitstream_256_refuted",
    "C26_image_capabilities",
    "C26_mixed_sizes_refuted",
    "C26_size_128_refuted",
    "C26_weak_refuted",
    "C26_metasector_analysis",
    "C26_metasector_no_dam_refuted",
    "C26_metasector_256_refuted"
   ],
   "note": "Exceptions: C26_mixed_sizes_refuted, C26_size_128_refuted, C26_weak_refuted, C26_metasector_no_dam_refuted, C26_*_256_refuted."
  },
  {
   "property": "C27",
   "status": "proved",
   "theorems": [
    "C27_bitstream_absent",
    "C27_bitstream_next",
    "C27_bitstream_chain",
    "C27_metasector_next",
    "C27_metasector_chain",
    "C27_metasector_duplicate_refuted",
    "C27_metasector_absent"
   ],
   "note": "Exception: C27_metasector_duplicate_refuted."
  },
  {
   "property": "C28",
   "status": "proved",
   "theorems": [
    "C28_size_is_geometry",
    "C28_size_sound",
    "C28_chs_sound",
    "C28_roundtrip",
    "C28_roundtrip_1760_refuted"
   ],
   "note": "The exception in the statement is C28_roundtrip_1760_refuted."
  },
  {
   "property": "C29",
   "status": "proved",
   "theorems": [
    "C29_update",
    "C29_write",
    "C29_parse_write_identity",
    "C29_amiga",
    "C29_short_buffer"
   ],
   "note": ""
  },
  {
   "property": "C30",
   "status": "proved",
   "theorems": [
    "C30_load",
    "C30_only_valid_files",
    "C30_panics",
    "C30_unknown_marker",
    "C30_unavailable_refuted",
    "C30_cylinder_refuted",
    "C30_128_sectors_refuted"
   ],
   "note": "Whole-file exactness in both directions. Findings: C30_unavailable_refuted (a sector without data is not reported as such, and writing to it panics), C30_cylinder_refuted (a track is filed under its position in the file, not its cylinder number), C30_128_sectors_refuted (sector count * 2 overflows u8)."
  },
  {
   "property": "C31",
   "status": "proved",
   "theorems": [
    "C31_correct_date",
    "C31_out_of_range",
    "C31_before_epoch",
    "C31_unique_date",
    "C31_ordered",
    "C31_calendar_step"
   ],
   "note": ""
  },
  {
   "property": "C32",
   "status": "proved",
   "theorems": [
    "C32_traversal",
    "C32_order_unique",
    "C32_bad_parent",
    "C32_cursor_step",
    "C32_cursor_runs",
    "C32_accessors"
   ],
   "note": ""
  },
  {
   "property": "C33",
   "status": "proved",
   "theorems": [
    "C33_table_is_bitwise",
    "C33_one_shot_is_hasher",
    "C33_incremental_table",
    "C33_incremental_hasher",
    "C33_pce_is_remainder",
    "C33_crc32_is_remainder",
    "C33_pce_burst",
    "C33_crc32_burst",
    "C33_ipf_restart_refuted",
    "C33_ipf_restart"
   ],
   "note": "Incremental for the table CRC and the streaming hasher; C33_ipf_restart_refuted: the returned value of the one-shot IPF CRC is inverted and cannot be used as start value as it is (no caller does)."
  },
  {
   "property": "C34",
   "status": "proved",
   "theorems": [
    "C34_chunk_roundtrip",
    "C34_chunk_layer_roundtrip",
    "C34_too_large",
    "C34_damage_rejected"
   ],
   "note": "The size field itself is not protected by the theorem: a damaged size moves the CRC."
  },
  {
   "property": "C35",
   "status": "proved",
   "theorems": [
    "C35_not_pri",
    "C35_roundtrip",
    "C35_loaded_is_loadable",
    "C35_formatted_is_loadable",
    "C35_weak_mask_refuted",
    "C35_no_tracks_refuted",
    "C35_comment_refuted",
    "C35_other_resolutions"
   ],
   "note": "pri_load_image is the parser; the post-processing common to all formats is C45/C21. The exceptions in the statement are C35_weak_mask_refuted, C35_no_tracks_refuted and C35_comment_refuted; the u32 <-> TrackDataRate conversion (f64) is not modelled."
  },
  {
   "property": "C36",
   "status": "proved",
   "theorems": [
    "C36_weak_mask",
    "C36_region_count_positive",
    "C36_has_weak_bits_refuted",
    "C36_metasector_has_weak"
   ],
   "note": "Exception: C36_has_weak_bits_refuted."
  },
  {
   "property": "C37",
   "status": "proved",
   "theorems": [
    "C37_decode",
    "C37_write_read",
    "C37_find_marker",
    "C37_encode_is_mfm",
    "C37_clock_bits_refuted",
    "C37_blank_write_refuted",
    "C37_read_buf_refuted",
    "C37_write_raw_u8_refuted",
    "C37_seek_refuted",
    "C37_past_end_refuted",
    "C37_u32_refuted"
   ],
   "note": "Findings: C37_clock_bits_refuted (the encoder is the MFM encoder, so written data has no FM clock), C37_blank_write_refuted (on a fresh track written data is not read back), C37_read_buf_refuted (buffer reads advance one bit per byte), C37_write_raw_u8_refuted (raw byte writes panic except at cell 0), C37_seek_refuted (seek doubles the position, panics in the second half), C37_past_end_refuted, C37_u32_refuted."
  },
  {
   "property": "C38",
   "status": "proved",
   "theorems": [
    "C38_raw_read",
    "C38_raw_read_u8",
    "C38_raw_write_read",
    "C38_raw_write_u8"
   ],
   "note": ""
  },
  {
   "property": "C39",
   "status": "proved",
   "theorems": [
    "C39_data_follows_header",
    "C39_debug_header_refuted"
   ],
   "note": "Exception: C39_debug_header_refuted."
  },
  {
   "property": "C40",
   "status": "proved",
   "theorems": [
    "C40_header_status",
    "C40_header_kept",
    "C40_read_no_dam",
    "C40_sector_list_refuted",
    "C40_last_header_refuted"
   ],
   "note": "Exceptions: C40_sector_list_refuted, C40_last_header_refuted (and the second case of C40_header_status)."
  },
  {
   "property": "C41",
   "status": "proved",
   "theorems": [
    "C41_exact",
    "C41_derive_matches_sound",
    "C41_derive_matches_complete",
    "C41_single_sided_40_refuted"
   ],
   "note": "C41_exact is an equivalence; exception C41_single_sided_40_refuted."
  },
  {
   "property": "C42",
   "status": "proved",
   "theorems": [
    "C42_find_sync",
    "C42_sync_offset_refuted",
    "C42_phase",
    "C42_no_sync"
   ],
   "note": "C42_phase/C42_no_sync give the phase exactly; exception C42_sync_offset_refuted."
  },
  {
   "property": "C43",
   "status": "proved",
   "theorems": [
    "C43_bitstream_read_all",
    "C43_metasector_read_all"
   ],
   "note": "Exactly the two kinds of tracks named in the statement; arbitrary loaded bitstream tracks are not covered."
  },
  {
   "property": "C44",
   "status": "proved",
   "theorems": [
    "C44_best_revolution",
    "C44_delegation",
    "C44_no_positive_score_refuted",
    "C44_no_positive"
   ],
   "note": "Exception: C44_no_positive (exact) and C44_no_positive_score_refuted."
  },
  {
   "property": "C45",
   "status": "proved",
   "theorems": [
    "C45_normalize_effect",
    "C45_80_cylinders",
    "C45_short_image_refuted",
    "C45_head_1_refuted"
   ],
   "note": "Exceptions: C45_short_image_refuted, C45_head_1_refuted."
  },
  {
   "property": "C46",
   "status": "proved",
   "theorems": [
    "C46_format",
    "C46_creator_refused",
    "C46_fat16",
    "C46_failed_format_wipes_refuted",
    "C46_geometry_refuted"
   ],
   "note": "Findings beside the property: a failing format has already wiped the image (C46_failed_format_wipes_refuted), the image keeps its old geometry (C46_geometry_refuted)."
  },
  {
   "property": "C47",
   "status": "proved",
   "theorems": [
    "C47_volume",
    "C47_2880_refuted",
    "C47_media_refuted"
   ],
   "note": "The exception in the statement is C47_2880_refuted; C47_media_refuted: two media descriptors are not the standard ones."
  },
  {
   "property": "C48",
   "status": "proved",
   "theorems": [
    "C48_names",
    "C48_display_parse",
    "C48_list",
    "C48_list_complete_refuted",
    "C48_prefix_refuted"
   ],
   "note": "C48_list_complete_refuted: the list of formats omits one; C48_prefix_refuted: pc_amiga_880k is accepted."
  },
  {
   "property": "C49",
   "status": "proved",
   "theorems": [
    "C49_weak_cells_random",
    "C49_weak_mask_meaning",
    "C49_strong_cells_repeatable"
   ],
   "note": ""
  },
  {
   "property": "C50",
   "status": "proved",
   "theorems": [
    "C50_load",
    "C50_only_chunk_files",
    "C50_panics_only",
    "C50_returning_to_a_track_refuted",
    "C50_alternate_copy_refuted",
    "C50_no_sectors_refuted",
    "C50_short_offset_refuted",
    "C50_compressed_ibm_refuted"
   ],
   "note": "psi_load_image is the parser (post-processing: C45/C21). Findings: C50_returning_to_a_track_refuted, C50_alternate_copy_refuted, C50_no_sectors_refuted, C50_short_offset_refuted, C50_compressed_ibm_refuted. Data rate, encoding and comment are not modelled."
  },
  {
   "property": "C51",
   "status": "proved",
   "theorems": [
    "C51_roundtrip",
    "C51_no_weak",
    "C51_weak",
    "C51_unweak_loadable",
    "C51_one_sided_refuted",
    "C51_extended_density_refuted",
    "C51_offset_panics_refuted",
    "C51_no_cylinders_refuted",
    "C51_odd_track_refuted"
   ],
   "note": "f86_load_image is the parser (post-processing: C45/C21). Findings: C51_odd_track_refuted, C51_one_sided_refuted, C51_extended_density_refuted, C51_no_cylinders_refuted, C51_offset_panics_refuted; data under weak cells and the data rate: see `kept` and the descriptor in C51_roundtrip. FM/GCR tracks and files without absolute bit counts are in the model as parameters but not in the theorems."
  },
  {
   "property": "C52",
   "status": "proved",
   "theorems": [
    "C52_closest_format"
   ],
   "note": "Formatted or loaded standard images: C21/C46."
  },
  {
   "property": "C53",
   "status": "proved",
   "theorems": [
    "C53_load",
    "C53_accepted",
    "C53_panic",
    "C53_odd_one_sided_refuted"
   ],
   "note": "tc_load_image is the parser (post-processing: C45/C21). Finding: C53_odd_one_sided_refuted. Scanning of each track is a hypothesis (bt_new succeeds)."
  },
  {
   "property": "C54",
   "status": "proved",
   "theorems": [
    "C54_load",
    "C54_in_order",
    "C54_accepted",
    "C54_order_refuted",
    "C54_short_refuted"
   ],
   "note": "hxm_load_image is the parser. Findings: C54_order_refuted, C54_short_refuted."
  },
  {
   "property": "C55",
   "status": "proved",
   "theorems": [
    "C55_load",
    "C55_cells",
    "C55_accepted",
    "C55_descending_refuted",
    "C55_last_block_refuted"
   ],
   "note": "hfe_load_image is the parser. Findings: C55_last_block_refuted, C55_descending_refuted."
  },
  {
   "property": "C56",
   "status": "proved",
   "theorems": [
    "C56_load",
    "C56_only_valid_files",
    "C56_panics",
    "C56_lzhuf_files",
    "C56_lzhuf_files_long",
    "C56_lzw_files",
    "C56_checksum",
    "C56_header_burst",
    "C56_sector_check_refuted",
    "C56_pair_order_refuted",
    "C56_no_data_dropped_refuted",
    "C56_comment_refuted",
    "C56_comment_crc_ignored"
   ],
   "note": "td0_load_image is the parser, with the decompressors of C57 and C60. Findings: C56_sector_check_refuted, C56_pair_order_refuted, C56_no_data_dropped_refuted, C56_comment_refuted, C56_comment_crc_ignored."
  },
  {
   "property": "C57",
   "status": "proved",
   "theorems": [
    "C57_expand",
    "C57_expand_bytes",
    "C57_expand_short_refuted"
   ],
   "note": "lzhuf_expand with the TeleDisk options. Finding: C57_expand_short_refuted (unreachable from the loader)."
  },
  {
   "property": "C58",
   "status": "proved",
   "theorems": [
    "C58_round_trip",
    "C58_round_trip_long",
    "C58_expanded_starts"
   ],
   "note": "The coder's writing half; the match finder choosing the tokens is not modelled. Codes above 16 bits cannot be written: sequences that need one are excluded."
  },
  {
   "property": "C59",
   "status": "proved",
   "theorems": [
    "C59_adaptive_tree",
    "C59_code_length"
   ],
   "note": "Symbol counts, tree and decoder for any alphabet."
  },
  {
   "property": "C60",
   "status": "proved",
   "theorems": [
    "C60_chunked",
    "C60_expands",
    "C60_rejects",
    "C60_size",
    "C60_panics",
    "C60_no_panic_refuted"
   ],
   "note": "lzw_expand with the TeleDisk options. Finding: C60_no_panic_refuted; C60_panics says exactly when."
  },
  {
   "property": "C61",
   "status": "proved",
   "theorems": [
    "C61_mfm_decode",
    "C61_decode_direct",
    "C61_track",
    "C61_clock_range",
    "C61_clock_step"
   ],
   "note": "f64 arithmetic is exact rational arithmetic followed by an arbitrary rounding function with error at most eps on the numbers that occur; infinities and NaN do not occur for such inputs."
  },
  {
   "property": "C62",
   "status": "proved",
   "theorems": [
    "C62_cells",
    "C62_markers",
    "C62_fm_cells",
    "C62_fm_markers",
    "C62_choice",
    "C62_fm_clock_saturates",
    "C62_fm_refuted"
   ],
   "note": "Findings: C62_fm_refuted, C62_fm_clock_saturates."
  },
  {
   "property": "C63",
   "status": "proved",
   "theorems": [
    "C63_synthesize"
   ],
   "note": ""
  },
  {
   "property": "C64",
   "status": "proved",
   "theorems": [
    "C64_load",
    "C64_words",
    "C64_only",
    "C64_panics",
    "C64_rollover_refuted",
    "C64_missing_track_refuted",
    "C64_no_panic_refuted"
   ],
   "note": "Times are integer nanoseconds; decoding the revolutions of a track into cells is a parameter (C61-C63 are about it). Findings: C64_rollover_refuted, C64_missing_track_refuted, C64_no_panic_refuted."
  },
  {
   "property": "C65",
   "status": "proved",
   "theorems": [
    "C65_data",
    "C65_load",
    "C65_only",
    "C65_panics",
    "C65_recorded_position_refuted"
   ],
   "note": "Times are clock ticks; decoding the revolutions of a track into cells is a parameter that may depend on all earlier tracks. Finding: C65_recorded_position_refuted."
  },
  {
   "property": "C66",
   "status": "proved",
   "theorems": [
    "C66_stream",
    "C66_stream_exact",
    "C66_positions_refuted",
    "C66_incomplete",
    "C66_hardware_error",
    "C66_truncated",
    "C66_only",
    "C66_panics",
    "C66_no_index_refuted",
    "C66_load",
    "C66_failed_load"
   ],
   "note": "Times are clock ticks; decoding is a parameter (it gets the KfInfo strings, which can change the sample clock). Index positions are assumed at least 3 bytes apart. Findings: C66_positions_refuted, C66_no_index_refuted."
  },
  {
   "property": "C67",
   "status": "proved",
   "theorems": [
    "C67_names",
    "C67_base",
    "C67_expand",
    "C67_total",
    "C67_load_files",
    "C67_unreadable",
    "C67_complete_set",
    "C67_case_refuted",
    "C67_missing_refuted"
   ],
   "note": "File names are lists of ASCII characters; the file system is a parameter (which names can be read, with which contents). Findings: C67_case_refuted, C67_missing_refuted."
  },
  {
   "property": "C68",
   "status": "proved",
   "theorems": [
    "C68_base_time",
    "C68_refined",
    "C68_clock_bounds",
    "C68_no_panic",
    "C68_hint_refuted",
    "C68_refine_refuted"
   ],
   "note": "Floating point operations are the exact ones followed by any rounding with a relative error of at most 2^-53 (f64 without overflow and underflow); the histogram crate is modelled from its documentation. Findings: C68_hint_refuted, C68_refine_refuted."
  },
  {
   "property": "C69",
   "status": "proved",
   "theorems": [
    "C69_double_density",
    "C69_high_density",
    "C69_other_counts",
    "C69_hint",
    "C69_track",
    "C69_scp"
   ],
   "note": "As C68; FM tracks and tracks at 360 RPM without a standard clock are not covered. C69_scp is about the cells shown if the file loads; C72_scp proves that it loads."
  },
  {
   "property": "C70",
   "status": "proved",
   "theorems": [
    "C70_load",
    "C70_only",
    "C70_panics",
    "C70_no_panic_refuted",
    "C70_geometry_refuted"
   ],
   "note": "zlib (flate2) is a parameter: compressed bytes and size to a buffer or an error; decoding is a parameter. Findings: C70_no_panic_refuted (a flux word of a type above 3 reaches unreachable!), C70_geometry_refuted (cylinders are taken modulo 65536, heads modulo 256)."
  },
  {
   "property": "C71",
   "status": "proved",
   "theorems": [
    "C71_kept",
    "C71_scaled",
    "C71_seconds",
    "C71_double_density",
    "C71_high_density",
    "C71_360",
    "C71_image"
   ],
   "note": "As C68 and C69. The speed carried over from the first track is a parameter, arbitrary for high density. C71_image is about the cells shown if the file loads; C72_mfi proves that it loads. C71_seconds: the words are nanoseconds."
  },
  {
   "property": "C72",
   "status": "proved",
   "theorems": [
    "C72_new",
    "C72_errors",
    "C72_hfe",
    "C72_hxm",
    "C72_tc",
    "C72_tc_panic",
    "C72_scp",
    "C72_mfi",
    "C72_any_cells_refuted"
   ],
   "note": "Found: a mark at the first cell underflows `bit_index - 64` (C72_any_cells_refuted: panic in builds with overflow checks, which the model assumes throughout). The clock map of such a track in a wrapping build is not modelled."
  },
  {
   "property": "C73",
   "status": "proved",
   "theorems": [
    "C73_recalc",
    "C73_session",
    "C73_read",
    "C73_reads_keep",
    "C73_entire_refuted",
    "C73_analysis"
   ],
   "note": "Reads with scope EntireElement are excluded: C73_entire_refuted shows that data() of their result panics for every sector found. Formatting is not among the requests (C19, C46)."
  },
  {
   "property": "C74",
   "status": "proved",
   "theorems": [
    "C74_ranges",
    "C74_last_refuted",
    "C74_default",
    "C74_any",
    "C74_load",
    "C74_read",
    "C74_no_data",
    "C74_checksum",
    "C74_elsewhere",
    "C74_scan",
    "C74_next",
    "C74_analysis"
   ],
   "note": "C74_load, C74_read, C74_no_data, C74_checksum, C74_scan and C74_analysis are for sectors with an empty label, without a weak mask from the file and with read requests without an offset (finding with labels: C75_label_refuted). Rescanning and formatting of Amiga tracks are not modelled. Finding: C74_last_refuted."
  },
  {
   "property": "C75",
   "status": "proved",
   "theorems": [
    "C75_crc_refuted",
    "C75_label_refuted",
    "C75_write_refuted",
    "C75_count_refuted",
    "C75_numbering_refuted",
    "C75_size_refuted"
   ],
   "note": "Every part is a finding (C75_*_refuted), proved for all Amiga tracks, for the label of one sector with any data around it."
  },
  {
   "property": "C76",
   "status": "proved",
   "theorems": [
    "C76_load",
    "C76_amiga",
    "C76_damage"
   ],
   "note": "Raw and fuzzy elements and samples counted in bits are outside the format described (C76_load excludes them; C77_bits_refuted). C76_load assumes that no track has a System 34 mark at its first cell (C72); C76_amiga shows that Amiga tracks do not. Nothing depends on the CRC of the extra data blocks: the code never checks it."
  },
  {
   "property": "C77",
   "status": "proved",
   "theorems": [
    "C77_unreadable_refuted",
    "C77_order_refuted",
    "C77_missing_refuted",
    "C77_clock_refuted",
    "C77_gap_refuted",
    "C77_bits_refuted",
    "C77_gap_panic_refuted",
    "C77_bits_mixed_refuted"
   ],
   "note": "Every part is a finding (C77_*_refuted). C77_gap_panic_refuted is for builds with overflow checks; without them the product wraps."
  },
  {
   "property": "C78",
   "status": "proved",
   "theorems": [
    "C78_formatted",
    "C78_creator_tag",
    "C78_blank",
    "C78_blank_then_format",
    "C78_refused",
    "C78_metasector_refuted",
    "C78_no_panic",
    "C78_settings"
   ],
   "note": "For 80-cylinder formats SHA-1 is assumed to tell the tracks of one pair of the formatted disk apart (as in C21; 40-cylinder formats need no assumption, C78_formatted_ex). The files injected by with_filesystem_from_path are not modelled. C78_metasector_refuted is a finding."
  },
  {
   "property": "C79",
   "status": "proved",
   "theorems": [
    "C79_exclusive",
    "C79_exact",
    "C79_panic_only_mid_drop",
    "C79_sequential",
    "C79_race_refuted",
    "C79_race_read_refuted",
    "C79_broken_refuted",
    "C79_unwind_refuted",
    "C79_foreign_refuted",
    "C79_nontracking",
    "C79_reflock_refuted"
   ],
   "note": "std::sync::RwLock and Mutex are modelled from their documentation (poisoning included; the order of waiting threads plays no part, as only try_read and try_write are used). Findings: C79_*_refuted."
  },
  {
   "property": "C80",
   "status": "proved",
   "theorems": [
    "C80_node",
    "C80_files",
    "C80_ext",
    "C80_dir_root",
    "C80_dir_refuted",
    "C80_file_refuted",
    "C80_flat_refuted"
   ],
   "note": "Strings are lists of bytes; dates and Display are dropped. In a directory with two directories of one name the first is taken (C80_node asks that there are none). Building the tree from a FAT volume (the fatfs crate) is not modelled. Findings: C80_dir_refuted, C80_file_refuted, C80_flat_refuted."
  },
  {
   "property": "C81",
   "status": "proved",
   "theorems": [
    "C81_segments",
    "C81_zero",
    "C81_fused",
    "C81_overflow_refuted"
   ],
   "note": "usize has 64 bits and sums are checked. The bound on the divisor is needed: C81_overflow_refuted."
  },
  {
   "property": "C82",
   "status": "proved",
   "theorems": [
    "C82_detect",
    "C82_never_refuted",
    "C82_worn_refuted"
   ],
   "note": "C82_detect is for images of sector tracks; bit tracks are in the model and in C82_never_refuted. Findings: C82_never_refuted, C82_worn_refuted."
  }
 ]
}