STATUS = {
"C01": ("proved", "For first sector id 0 or 1 (all shipped layouts); C01_s_off_2_refuted shows the restriction is necessary."),
"C02": ("proved", "C02_empty_layout_refuted: with zero cylinders the iterator still yields one sector (outside the property's quantifier)."),
"C03": ("proved", ""),
"C04": ("proved", "C04_accepted is the exact set of accepted addresses; the exception is C04_sector_zero_refuted."),
"C05": ("proved", "C05_all_codes covers every u8; exceptions C05_cap_all_n_refuted, C05_largest_n_refuted."),
"C06": ("proved", ""),
"C41": ("proved", "C41_exact is an equivalence; exception C41_single_sided_40_refuted."),
"C07": ("proved", "Exception: C07_infinite_iter_refuted."),
"C08": ("proved", "All buffers, positions (with wrap), contents; positions in phase with the clock map (always true for a fresh codec, C08_fresh_codec). C08_u32_vs_u8_refuted concerns the separate 32-bit read helpers."),
"C09": ("proved", "C09_address_mark_variant_refuted: the AddressMark variant of encode (unused by the library) does not produce the missing-clock pattern."),
"C10": ("proved", ""),
"C11": ("proved", "Exception: C11_marker_at_zero_refuted."),
"C12": ("proved", ""),
"C14": ("proved", "Exception: C14_end_exclusive_refuted."),
"C36": ("proved", "Exception: C36_has_weak_bits_refuted."),
"C38": ("proved", ""),
"C42": ("proved", "C42_phase/C42_no_sync give the phase exactly; exception C42_sync_offset_refuted."),
"C13": ("proved", "Exception: C13_encode_roundtrip_refuted; C13_encode_* say exactly what is produced."),
"C15": ("proved", "Exceptions: C15_short_sector_refuted, C15_no_dam_data_refuted."),
"C16": ("proved", "Exception: C16_write_not_found_refuted."),
"C17": ("proved", "Exception: C17_alternate (exact) and C17_alternate_panics_refuted."),
"C31": ("proved", ""),
"C32": ("proved", ""),
"C18": ("proved", "Exception: C18_deleted_crc_refuted (for every write)."),
"C19": ("proved", "Exception: C19_index_mark_refuted (for every IBM format)."),
"C20": ("proved", "Exceptions: C20_wide_cylinder_refuted, C20_wide_cylinder_lost_refuted."),
"C39": ("proved", "Exception: C39_debug_header_refuted."),
"C40": ("proved", "Exceptions: C40_sector_list_refuted, C40_last_header_refuted (and the second case of C40_header_status)."),
"C43": ("proved", "Exactly the two kinds of tracks named in the statement; arbitrary loaded bitstream tracks are not covered."),
"C24": ("proved", "Refinement of every call history to one list of tracks per head; no dangling or shared entries; iteration order."),
"C25": ("proved", "Exceptions: C25_failed_add_refuted, C25_empty_track_resolution_refuted."),
"C26": ("proved", "Exceptions: C26_mixed_sizes_refuted, C26_size_128_refuted, C26_weak_refuted, C26_metasector_no_dam_refuted, C26_*_256_refuted."),
"C44": ("proved", "Exception: C44_no_positive (exact) and C44_no_positive_score_refuted."),
"C45": ("proved", "Exceptions: C45_short_image_refuted, C45_head_1_refuted."),
"C28": ("proved", "The exception in the statement is C28_roundtrip_1760_refuted."),
"C29": ("proved", ""),
"C46": ("proved", "Findings beside the property: a failing format has already wiped the image (C46_failed_format_wipes_refuted), the image keeps its old geometry (C46_geometry_refuted)."),
"C47": ("proved", "The exception in the statement is C47_2880_refuted; C47_media_refuted: two media descriptors are not the standard ones."),
"C48": ("proved", "C48_list_complete_refuted: the list of formats omits one; C48_prefix_refuted: pc_amiga_880k is accepted."),
"C22": ("proved", "Any disk whose sectors read without error; the exception in the statement is C22_after_end_refuted."),
"C23": ("proved", "Generic over every disk on which sector writes store exactly the sector (sector_store), instantiated for every disk formatted by fluxfox; the exceptions are C23_boundary_refuted and C23_seek_track_refuted."),
"C21": ("proved", "Full load (format detection, track building, normalisation, analysis, boot sector parsing) and save; SHA-1 is a parameter of the theorems. The exceptions are C21_wrong_bpb_refuted, C21_amiga_hd_refuted and C21_blank_amiga_refuted."),
"C33": ("proved", "Incremental for the table CRC and the streaming hasher; C33_ipf_restart_refuted: the returned value of the one-shot IPF CRC is inverted and cannot be used as start value as it is (no caller does)."),
"C49": ("proved", ""),
"C34": ("proved", "The size field itself is not protected by the theorem: a damaged size moves the CRC."),
"C35": ("proved", "pri_load_image is the parser; the post-processing common to all formats is C45/C21. The exceptions in the statement are C35_weak_mask_refuted, C35_no_tracks_refuted and C35_comment_refuted; the u32 <-> TrackDataRate conversion (f64) is not modelled."),
"C30": ("proved", "Whole-file exactness in both directions. Findings: C30_unavailable_refuted (a sector without data is not reported as such, and writing to it panics), C30_cylinder_refuted (a track is filed under its position in the file, not its cylinder number), C30_128_sectors_refuted (sector count * 2 overflows u8)."),
"C37": ("proved", "Findings: C37_clock_bits_refuted (the encoder is the MFM encoder, so written data has no FM clock), C37_blank_write_refuted (on a fresh track written data is not read back), C37_read_buf_refuted (buffer reads advance one bit per byte), C37_write_raw_u8_refuted (raw byte writes panic except at cell 0), C37_seek_refuted (seek doubles the position, panics in the second half), C37_past_end_refuted, C37_u32_refuted."),
"C50": ("proved", "psi_load_image is the parser (post-processing: C45/C21). Findings: C50_returning_to_a_track_refuted, C50_alternate_copy_refuted, C50_no_sectors_refuted, C50_short_offset_refuted, C50_compressed_ibm_refuted. Data rate, encoding and comment are not modelled."),
"C51": ("proved", "f86_load_image is the parser (post-processing: C45/C21). Findings: C51_odd_track_refuted, C51_one_sided_refuted, C51_extended_density_refuted, C51_no_cylinders_refuted, C51_offset_panics_refuted; data under weak cells and the data rate: see `kept` and the descriptor in C51_roundtrip. FM/GCR tracks and files without absolute bit counts are in the model as parameters but not in the theorems."),
"C27": ("proved", "Exception: C27_metasector_duplicate_refuted."),
"C52": ("proved", "Formatted or loaded standard images: C21/C46."),
"C53": ("proved", "tc_load_image is the parser (post-processing: C45/C21). Finding: C53_odd_one_sided_refuted. Scanning of each track is a hypothesis (bt_new succeeds)."),
"C54": ("proved", "hxm_load_image is the parser. Findings: C54_order_refuted, C54_short_refuted."),
"C55": ("proved", "hfe_load_image is the parser. Findings: C55_last_block_refuted, C55_descending_refuted."),
"C56": ("proved", "td0_load_image is the parser, with the decompressors of C57 and C60. Findings: C56_sector_check_refuted, C56_pair_order_refuted, C56_no_data_dropped_refuted, C56_comment_refuted, C56_comment_crc_ignored."),
"C57": ("proved", "lzhuf_expand with the TeleDisk options. Finding: C57_expand_short_refuted (unreachable from the loader)."),
"C58": ("proved", "The coder's writing half; the match finder choosing the tokens is not modelled. Codes above 16 bits cannot be written: sequences that need one are excluded."),
"C59": ("proved", "Symbol counts, tree and decoder for any alphabet."),
"C60": ("proved", "lzw_expand with the TeleDisk options. Finding: C60_no_panic_refuted; C60_panics says exactly when."),
"C61": ("proved", "f64 arithmetic is exact rational arithmetic followed by an arbitrary rounding function with error at most eps on the numbers that occur; infinities and NaN do not occur for such inputs."),
"C62": ("proved", "Findings: C62_fm_refuted, C62_fm_clock_saturates."),
"C63": ("proved", ""),
"C64": ("proved", "Times are integer nanoseconds; decoding the revolutions of a track into cells is a parameter (C61-C63 are about it). Findings: C64_rollover_refuted, C64_missing_track_refuted, C64_no_panic_refuted."),
"C65": ("proved", "Times are clock ticks; decoding the revolutions of a track into cells is a parameter that may depend on all earlier tracks. Finding: C65_recorded_position_refuted."),
"C66": ("proved", "Times are clock ticks; decoding is a parameter (it gets the KfInfo strings, which can change the sample clock). Index positions are assumed at least 3 bytes apart. Findings: C66_positions_refuted, C66_no_index_refuted."),
"C67": ("proved", "File names are lists of ASCII characters; the file system is a parameter (which names can be read, with which contents). Findings: C67_case_refuted, C67_missing_refuted."),
"C68": ("proved", "Floating point operations are the exact ones followed by any rounding with a relative error of at most 2^-53 (f64 without overflow and underflow); the histogram crate is modelled from its documentation. Findings: C68_hint_refuted, C68_refine_refuted."),
"C69": ("proved", "As C68; FM tracks and tracks at 360 RPM without a standard clock are not covered. C69_scp is about the cells shown if the file loads; C72_scp proves that it loads."),
"C70": ("proved", "zlib (flate2) is a parameter: compressed bytes and size to a buffer or an error; decoding is a parameter. Findings: C70_no_panic_refuted (a flux word of a type above 3 reaches unreachable!), C70_geometry_refuted (cylinders are taken modulo 65536, heads modulo 256)."),
"C71": ("proved", "As C68 and C69. The speed carried over from the first track is a parameter, arbitrary for high density. C71_image is about the cells shown if the file loads; C72_mfi proves that it loads. C71_seconds: the words are nanoseconds."),
"C72": ("proved", "Found: a mark at the first cell underflows `bit_index - 64` (C72_any_cells_refuted: panic in builds with overflow checks, which the model assumes throughout). The clock map of such a track in a wrapping build is not modelled."),
"C73": ("proved", "Reads with scope EntireElement are excluded: C73_entire_refuted shows that data() of their result panics for every sector found. Formatting is not among the requests (C19, C46)."),
"C74": ("proved", "C74_load, C74_read, C74_no_data, C74_checksum, C74_scan and C74_analysis are for sectors with an empty label, without a weak mask from the file and with read requests without an offset (finding with labels: C75_label_refuted). Rescanning and formatting of Amiga tracks are not modelled. Finding: C74_last_refuted."),
"C75": ("proved", "Every part is a finding (C75_*_refuted), proved for all Amiga tracks, for the label of one sector with any data around it."),
"C76": ("proved", "Raw and fuzzy elements and samples counted in bits are outside the format described (C76_load excludes them; C77_bits_refuted). C76_load assumes that no track has a System 34 mark at its first cell (C72); C76_amiga shows that Amiga tracks do not. Nothing depends on the CRC of the extra data blocks: the code never checks it."),
"C77": ("proved", "Every part is a finding (C77_*_refuted). C77_gap_panic_refuted is for builds with overflow checks; without them the product wraps."),
"C78": ("proved", "For 80-cylinder formats SHA-1 is assumed to tell the tracks of one pair of the formatted disk apart (as in C21; 40-cylinder formats need no assumption, C78_formatted_ex). The files injected by with_filesystem_from_path are not modelled. C78_metasector_refuted is a finding."),
"C79": ("proved", "std::sync::RwLock and Mutex are modelled from their documentation (poisoning included; the order of waiting threads plays no part, as only try_read and try_write are used). Findings: C79_*_refuted."),
"C80": ("proved", "Strings are lists of bytes; dates and Display are dropped. In a directory with two directories of one name the first is taken (C80_node asks that there are none). Building the tree from a FAT volume (the fatfs crate) is not modelled. Findings: C80_dir_refuted, C80_file_refuted, C80_flat_refuted."),
"C81": ("proved", "usize has 64 bits and sums are checked. The bound on the divisor is needed: C81_overflow_refuted."),
"C82": ("proved", "C82_detect is for images of sector tracks; bit tracks are in the model and in C82_never_refuted. Findings: C82_never_refuted, C82_worn_refuted."),
}
