{
 "claims": [
  {
   "property": "C01",
   "status": "proved",
   "theorems": [
    "C01_round_trip",
    "C01_round_trip_image"
   ],
   "note": "The decoder is T81.v. Standard tables; all sampling factors, formats, restart intervals, baseline and progressive up to 33 scans."
  },
  {
   "property": "C02",
   "status": "proved",
   "theorems": [
    "C02_round_trip",
    "C02_round_trip_image"
   ],
   "note": "Hypothesis few_blocks bounds the histogram below the Fibonacci limit of C20; no_restarts: no restart inside a scan (see C03)."
  },
  {
   "property": "C03",
   "status": "proved",
   "theorems": [
    "C03_outcome",
    "C03_outcome_image",
    "C03_round_trip",
    "C03_no_restarts_covered",
    "C03_uncovered_case",
    "C03_debug_panics",
    "C03_release_undecodable",
    "C03_undecodable",
    "C03_alone"
   ],
   "note": "restart_covered (SRestart.v) is the exact condition; the round trip part needs 8-bit quantizers and at most 33 scans as C02 does."
  },
  {
   "property": "C04",
   "status": "proved",
   "theorems": [
    "C04_same_coefficients",
    "C04_optimized",
    "C04_every_representable"
   ],
   "note": ""
  },
  {
   "property": "C05",
   "status": "proved",
   "theorems": [
    "C05_no_stray_markers",
    "C05_fast_path",
    "C05_every_configuration"
   ],
   "note": "C05_every_configuration: any number of scans, tables, restart interval, standard and optimized Huffman tables (up to 68,174,084 data units)."
  },
  {
   "property": "C06",
   "status": "proved",
   "theorems": [
    "C06_restart_markers",
    "C06_numbering",
    "C06_every_configuration"
   ],
   "note": ""
  },
  {
   "property": "C07",
   "status": "proved",
   "theorems": [
    "C07_write_failures",
    "C07_write_failures_image",
    "C07_limited"
   ],
   "note": ""
  },
  {
   "property": "C08",
   "status": "proved",
   "theorems": [
    "C08_bad_data",
    "C08_zero_dimension",
    "C08_otherwise"
   ],
   "note": ""
  },
  {
   "property": "C09",
   "status": "proved",
   "theorems": [
    "C09_contract",
    "C09_in_file",
    "C09_in_file_simd",
    "C09_in_file_image"
   ],
   "note": "C09_contract: return value and state; C09_in_file: the bytes of the output; app_bytes (ThmMeta.v) is the layout of a segment; case C09_in_file_case."
  },
  {
   "property": "C10",
   "status": "proved",
   "theorems": [
    "C10_round_trip",
    "C10_segments_fit",
    "C10_too_large"
   ],
   "note": ""
  },
  {
   "property": "C11",
   "status": "proved",
   "theorems": [
    "C11_violated",
    "C11_actual_limit"
   ],
   "note": "The documented limit is refuted; the actual limit is proved."
  },
  {
   "property": "C12",
   "status": "proved",
   "theorems": [
    "C12_file_tables",
    "C12_violated",
    "C12_truncated_undecodable",
    "C12_zero_entry_invalid",
    "C12_every_representable"
   ],
   "note": "Proved for entries up to 255 (all built-in tables) and, exactly, for every representable configuration; refuted for custom entries 256..2048."
  },
  {
   "property": "C13",
   "status": "proved",
   "theorems": [
    "C13_formula",
    "C13_monotone",
    "C13_best",
    "C13_base"
   ],
   "note": ""
  },
  {
   "property": "C14",
   "status": "proved",
   "theorems": [
    "C14_clamped",
    "C14_clamped_image"
   ],
   "note": ""
  },
  {
   "property": "C15",
   "status": "proved",
   "theorems": [
    "C15_odd",
    "C15_zero",
    "C15_sign",
    "C15_monotone",
    "C15_error",
    "C15_nearest_or_next",
    "C15_exact_powers",
    "C15_violated",
    "C15_code"
   ],
   "note": "Exact rounding for every divisor is refuted (C15_violated)."
  },
  {
   "property": "C16",
   "status": "proved",
   "theorems": [
    "C16_no_overflow",
    "C16_codable"
   ],
   "note": ""
  },
  {
   "property": "C17",
   "status": "proved",
   "theorems": [
    "C17_dct",
    "C17_dct_avx2"
   ],
   "note": "over the standard library real numbers; 2.52 for the scalar transform (1/2 when both frequencies are 0 or 4), 3.12 for AVX2"
  },
  {
   "property": "C18",
   "status": "proved",
   "theorems": [
    "C18_flat_transform",
    "C18_flat"
   ],
   "note": ""
  },
  {
   "property": "C19",
   "status": "proved",
   "theorems": [
    "C19_luma_dc",
    "C19_luma_ac",
    "C19_chroma_dc",
    "C19_chroma_ac"
   ],
   "note": ""
  },
  {
   "property": "C20",
   "status": "proved",
   "theorems": [
    "C20_optimized_tables"
   ],
   "note": "For every histogram within both bounds, on every platform. C20_example: a histogram where lengths are limited to 16."
  },
  {
   "property": "C21",
   "status": "proved",
   "theorems": [
    "C21_too_skewed",
    "C21_too_many"
   ],
   "note": "The panics are real; the totals and symbol counts are exactly the bounds of C20."
  },
  {
   "property": "C22",
   "status": "proved",
   "theorems": [
    "C22_rgb_to_ycbcr",
    "C22_no_overflow",
    "C22_grey",
    "C22_cmyk_to_ycck"
   ],
   "note": ""
  },
  {
   "property": "C23",
   "status": "proved",
   "theorems": [
    "C23_rgba",
    "C23_bgra",
    "C23_bgr",
    "C23_ycbcr",
    "C23_ycck"
   ],
   "note": ""
  },
  {
   "property": "C24",
   "status": "proved",
   "theorems": [
    "C24_surplus",
    "C24_appended"
   ],
   "note": ""
  },
  {
   "property": "C25",
   "status": "proved",
   "theorems": [
    "C25_geometry",
    "C01_round_trip_image",
    "C25_every_representable"
   ],
   "note": ""
  },
  {
   "property": "C26",
   "status": "proved",
   "theorems": [
    "C26_calls",
    "C26_order",
    "C26_room",
    "C26_no_panic"
   ],
   "note": "which rows are requested holds for every buffer whatever it does; C26_no_panic is stated for standard tables, C40_exact_bytes_image_optimized gives the same for optimized tables within the limits of C02"
  },
  {
   "property": "C27",
   "status": "proved",
   "theorems": [
    "C27_file",
    "C27_bands",
    "C27_every_configuration"
   ],
   "note": "C27_every_configuration: the scan headers of the file for every accepted number of scans; C27_file: the decoded scans (2..33 scans)."
  },
  {
   "property": "C28",
   "status": "proved",
   "theorems": [
    "C28_valid",
    "C28_violated",
    "C28_headers",
    "C28_never_valid",
    "C28_reports_success"
   ],
   "note": "Valid up to 33 scans; refuted for every number from 34 to 64."
  },
  {
   "property": "C29",
   "status": "proved",
   "theorems": [
    "C29_getters",
    "C29_file",
    "C29_file_image"
   ],
   "note": ""
  },
  {
   "property": "C30",
   "status": "proved",
   "theorems": [
    "C30_aliases",
    "C30_aliases_image",
    "C30_from_factors",
    "C30_factors"
   ],
   "note": ""
  },
  {
   "property": "C31",
   "status": "proved",
   "theorems": [
    "C31_platform_independent",
    "C31_platform_independent_optimized",
    "C31_every_configuration",
    "C31_generated"
   ],
   "note": "Same bytes on every pair of platforms on which the call is valid (standard tables: every configuration; optimized tables: limits of C02). Invalid calls and calls that panic in checked builds: see C39."
  },
  {
   "property": "C32",
   "status": "proved",
   "theorems": [
    "C32_same_row",
    "C32_row_bytes",
    "C32_same_run",
    "C32_no_undefined",
    "C32_undefined_on_32_bit"
   ],
   "note": "the last theorem exhibits undefined behaviour reachable from the safe API on 32-bit release builds"
  },
  {
   "property": "C33",
   "status": "proved",
   "theorems": [
    "C33_coefficients",
    "C33_files_differ",
    "C33_simd_exact_bytes",
    "C33_simd_round_trip",
    "C33_simd_round_trip_image",
    "C33_simd_round_trip_optimized",
    "C33_decoded_difference"
   ],
   "note": "equality with the scalar build is false (C33_files_differ); the exact difference is proved"
  },
  {
   "property": "C34",
   "status": "proved",
   "theorems": [
    "C34_violated",
    "C34_debug"
   ],
   "note": "Refuted on 32-bit release builds; holds with overflow checks."
  },
  {
   "property": "C35",
   "status": "proved",
   "theorems": [
    "C35_start",
    "C35_start_image",
    "C35_end"
   ],
   "note": ""
  },
  {
   "property": "C36",
   "status": "proved",
   "theorems": [
    "C36_no_panic",
    "C36_no_panic_image",
    "C36_no_panic_optimized",
    "C36_every_configuration",
    "C36_no_other_outcome"
   ],
   "note": ""
  },
  {
   "property": "C37",
   "status": "proved",
   "theorems": [
    "C37_scans_accepted",
    "C37_scans_rejected"
   ],
   "note": ""
  },
  {
   "property": "C38",
   "status": "proved",
   "theorems": [
    "C38_same_samples",
    "C38_encode_is_encode_image"
   ],
   "note": ""
  },
  {
   "property": "C39",
   "status": "proved",
   "theorems": [
    "C39_release_refines_debug",
    "C39_release_refines_debug_image"
   ],
   "note": ""
  },
  {
   "property": "C40",
   "status": "proved",
   "theorems": [
    "C40_exact_bytes",
    "C40_exact_bytes_image",
    "C40_exact_bytes_optimized",
    "C40_exact_bytes_image_optimized"
   ],
   "note": ""
  },
  {
   "property": "C41",
   "status": "proved",
   "theorems": [
    "C41_encode",
    "C41_encode_optimized",
    "C41_encode_simd",
    "C41_encode_image",
    "C41_best_quality",
    "C41_every_representable",
    "C41_every_representable_simd",
    "C41_every_representable_image"
   ],
   "note": ""
  },
  {
   "property": "C43",
   "status": "proved",
   "theorems": [
    "C43_tables",
    "C43_success_decodes",
    "C43_success_or_index_panic",
    "C43_outcome",
    "C43_outcome_image"
   ],
   "note": "extends C02 beyond its size limit; C21_too_skewed shows that the panic does occur"
  },
  {
   "property": "C42",
   "status": "proved",
   "theorems": [
    "C42_complete",
    "C42_prefix",
    "C42_violated",
    "C42_detected",
    "C42_image"
   ],
   "note": "Positive parts and the exact violated boundary; BufWriter modelled from std source."
  },
  {
   "property": "C44",
   "status": "proved",
   "theorems": [
    "C44_optimal_tables",
    "C44_not_exact"
   ],
   "note": "The exact optimum over tables with longer codes is not always reached (C44_not_exact): the reserved symbol takes part with weight 1. Nothing is claimed about tables cut to 16 bits."
  },
  {
   "property": "C45",
   "status": "proved",
   "theorems": [
    "C45_smallest",
    "C45_smallest_image",
    "C45_against_default",
    "C45_smallest_simd",
    "C45_smallest_image_simd",
    "C45_against_default_simd"
   ],
   "note": "Bits before padding and byte stuffing. The exception (a 16-bit code in one of the tables of a larger image) can be read off the file."
  },
  {
   "property": "C46",
   "status": "proved",
   "theorems": [
    "C46_decodes_iff",
    "C46_decodes_iff_image",
    "C46_decodes_iff_simd",
    "C46_representable"
   ],
   "note": "representable (SDecide.v) is the condition; gives = success and the decoded file is the image. With optimized tables up to 68,174,084 data units (countable), for the direction from representable to a file under tables_generated: at most 146,467 data units, or the call does not end in the index panic of C43."
  },
  {
   "property": "C47",
   "status": "proved",
   "theorems": [
    "C47_panics",
    "C47_panics_release",
    "C47_panics_image",
    "C47_panics_image_simd",
    "C47_tables",
    "C47_every_call"
   ],
   "note": "The model marks an exhausted loop bound with PFuel, so its absence is termination of the loops. Setter histories: accepted calls (set_progressive_scans outside 2..=64 panics, C37). Allocation is assumed not to fail. The SIMD fill of encode() on 32-bit targets can be undefined behaviour (C32)."
  },
  {
   "property": "C48",
   "status": "proved",
   "theorems": [
    "C48_preview",
    "C48_preview_image",
    "C48_preview_simd",
    "C48_low_frequencies_first",
    "C48_dc_first"
   ],
   "note": "previews: success, the file is header ++ scans ++ EOI, and header ++ first n scans ++ EOI decodes to preview_with (exact values for coefficients in the first n scans, none for the others)."
  },
  {
   "property": "C49",
   "status": "proved",
   "theorems": [
    "C49_any_writer",
    "C49_any_writer_image",
    "C49_short_writes",
    "C49_vec",
    "C49_reference",
    "C49_slice"
   ],
   "note": "std Write::write_all is modelled from its source as a relation; honest = never claims more bytes than given (otherwise write_all itself panics: rule wa_lied)."
  },
  {
   "property": "C50",
   "status": "proved",
   "theorems": [
    "C50_size",
    "C50_size_image",
    "C50_size_simd",
    "C50_simple",
    "C50_slice"
   ],
   "note": "max_size (SMax.v) does not mention samples, quality or quantizers; C50_simple gives a closed form; C50_slice combines it with C49: a slice of that length always suffices."
  },
  {
   "property": "C51",
   "status": "proved",
   "theorems": [
    "C51_message",
    "C51_readable",
    "C51_source",
    "C51_app_segment",
    "C51_icc",
    "C51_encode"
   ],
   "note": "SError.v states the texts with numbers as decimal strings (relation by reading back); C51_readable is about the texts only, C51_message about Display."
  },
  {
   "property": "C52",
   "status": "proved",
   "theorems": [
    "C52_tables",
    "C52_tables_image",
    "C52_tables_simd"
   ],
   "note": "symbols_exact (SUsed.v); the DC statement without restart markers uses the categories as written, in general those of successive differences (C03 is the difference)."
  },
  {
   "property": "C53",
   "status": "proved",
   "theorems": [
    "C53_blocks",
    "C53_blocks_simd",
    "C53_local",
    "C53_local_simd",
    "C53_crop",
    "C53_crop_simd"
   ],
   "note": "same_blocks / same_area (SLocal.v); C53_case, C53_case_edge: a part of a 24 x 20 image, with a block where the restriction is needed."
  },
  {
   "property": "C54",
   "status": "proved",
   "theorems": [
    "C54_colour",
    "C54_pixels",
    "C54_pixels_simd",
    "C54_best_quality",
    "C54_nearest"
   ],
   "note": "shows / pixel_error (SPixels.v); the decoder computes the IDCT exactly (no particular integer IDCT is modelled); table_error is the root mean square of quantizer_error of C41."
  },
  {
   "property": "C55",
   "status": "proved",
   "theorems": [
    "C55_outcome",
    "C55_outcome_image",
    "C55_invalid",
    "C55_write_failures",
    "C55_write_failures_image",
    "C55_any_writer",
    "C55_settings",
    "C55_same_samples",
    "C55_same_samples_image",
    "C55_release_refines_debug",
    "C55_structure"
   ],
   "note": "cases C55_case, C55_case_invalid, C55_case_writer, C55_case_panic; panics and termination of the SIMD build are in C47, decodability in C46, size in C50."
  },
  {
   "property": "C56",
   "status": "proved",
   "theorems": [
    "C56_damage",
    "C56_damage_image",
    "C56_damage_simd"
   ],
   "note": "survives / lenient_decode (SDamage.v); cases C56_case_hypotheses, C56_case. Damage that creates or destroys a marker (other than inside the bytes of an interval, which are stuffed) is outside the statement."
  },
  {
   "property": "C57",
   "status": "proved",
   "theorems": [
    "C57_blocks",
    "C57_blocks_simd",
    "C57_same_file",
    "C57_same_file_simd",
    "C57_generations",
    "C57_grey",
    "C57_default_tables"
   ],
   "note": "rounded / coarse / whole_mcus (SGen.v); case C57_case (a flat image whose reconstruction lies between two bytes). The decoder computes the IDCT exactly; the proof does not cover steps below 11 (for 10 the reciprocal is off by too much)."
  },
  {
   "property": "C58",
   "status": "proved",
   "theorems": [
    "C58_components",
    "C58_components_simd",
    "C58_components_image",
    "C58_grey",
    "C58_grey_simd",
    "C58_shown"
   ],
   "note": "same_samples / grey_image / same_grey / shows_grey (SGrey.v); case C58_case (RGBA with 2x2 subsampling against a progressive greyscale file)."
  },
  {
   "property": "C59",
   "status": "proved",
   "theorems": [
    "C59_samples",
    "C59_samples_simd",
    "C59_samples_image",
    "C59_pixels",
    "C59_pixels_simd",
    "C59_best_quality",
    "C59_decoders"
   ],
   "note": "decodes_within / samples_within / shows_within (SDecoder.v); generalizes C41 and C54 (d = 0, g = 1/2); case C59_case. With chroma subsampling there is no bound for the pixels, only for the samples (the skipped chroma samples are not in the file)."
  },
  {
   "property": "C60",
   "status": "proved",
   "theorems": [
    "C60_stateless",
    "C60_stateless_simd",
    "C60_panics",
    "C60_panics_simd",
    "C60_write_failures",
    "C60_write_failures_simd",
    "C60_streaming",
    "C60_streaming_simd",
    "C60_streaming_pixels",
    "C60_reader"
   ],
   "note": "quiet_source / own_panic / serves / reader (SSource.v); C60_case: a reader against the raw pixels, a reader that runs out of rows, a buffer whose width grows from call to call."
  },
  {
   "property": "C61",
   "status": "proved",
   "theorems": [
    "C61_end",
    "C61_end_image",
    "C61_end_simd",
    "C61_truncated",
    "C61_truncated_simd",
    "C61_stream"
   ],
   "note": "read_file / files_of / run_jobs / reads_as (SStream.v); case C61_case: two files in one stream, the first with a segment that contains EOI and SOI."
  },
  {
   "property": "C62",
   "status": "proved",
   "theorems": [
    "C62_metadata",
    "C62_metadata_simd",
    "C62_metadata_image",
    "C62_metadata_image_simd"
   ],
   "note": "same_but_metadata / differ_in_metadata (SMeta.v); case C62_case."
  },
  {
   "property": "C63",
   "status": "proved",
   "theorems": [
    "C63_blocks",
    "C63_blocks_simd",
    "C63_blocks_image",
    "C63_brightness",
    "C63_brightness_simd"
   ],
   "note": "shifted_samples / shifted_block / brighter_image / brighter_file (SBright.v); case C63_case: 9 x 17 RGB pixels darker by 37."
  },
  {
   "property": "C64",
   "status": "proved",
   "theorems": [
    "C64_same_file",
    "C64_same_file_simd",
    "C64_same_file_image",
    "C64_whole",
    "C64_iff"
   ],
   "note": "same_quantized / same_coefficients (SCoef.v); case C64_case: flat images 160 and 161 at quality 40."
  },
  {
   "property": "C65",
   "status": "proved",
   "theorems": [
    "C65_separate",
    "C65_separate_simd",
    "C65_separate_image"
   ],
   "note": "separate (ThmLuma.v), same_luminance / same_chrominance (SLuma.v); case C65_case."
  },
  {
   "property": "C66",
   "status": "proved",
   "theorems": [
    "C66_same_request",
    "C66_same_request_image",
    "C66_same_request_simd",
    "C66_same_request_image_simd",
    "C66_grey",
    "C66_grey_simd",
    "C66_grey_image"
   ],
   "note": "same_request (SEffect.v); cases C66_case, C66_case_grey."
  },
  {
   "property": "C67",
   "status": "proved",
   "theorems": [
    "C67_padding",
    "C67_padding_simd",
    "C67_padding_image"
   ],
   "note": "fills_up / continues_bytes / same_but_dimensions (SPad.v); case C67_case (optimized, progressive)."
  },
  {
   "property": "C68",
   "status": "proved",
   "theorems": [
    "C68_finer",
    "C68_finer_simd",
    "C68_finer_image",
    "C68_quality",
    "C68_default_tables",
    "C68_lost_at_higher_quality"
   ],
   "note": "finer / keeps / runs_keep (SFiner.v); C68_lost_at_higher_quality shows the limit is needed (a defect: the quantizer is not monotone from 70 on); case C68_case."
  },
  {
   "property": "C69",
   "status": "proved",
   "theorems": [
    "C69_strips",
    "C69_strips_simd",
    "C69_strips_image"
   ],
   "note": "stacked / runs_stack / can_cut / cut_planes (SStrip.v); case C69_case (subsampled colour)."
  },
  {
   "property": "C70",
   "status": "proved",
   "theorems": [
    "C70_tables",
    "C70_bytes",
    "C70_bytes_image",
    "C70_bytes_simd",
    "C70_bytes_optimized"
   ],
   "note": "annexK2_table / optimized_tables / file_tables (SAnnexK2.v); cases C70_case, C70_case_limited, C70_case_file."
  },
  {
   "property": "C71",
   "status": "proved",
   "theorems": [
    "C71_at_least",
    "C71_at_least_image",
    "C71_at_least_simd",
    "C71_mid_grey",
    "C71_mid_grey_image",
    "C71_mid_grey_simd",
    "C71_smallest"
   ],
   "note": "Standard Huffman tables. The bound holds for all modes; equality for sequential scans and up to 22 progressive scans (with more, a scan of a single luma AC coefficient may be cheaper when the coefficient is not zero). C71_case: a 20 x 9 image, 4:2:0, restart interval 1: 641 bytes."
  },
  {
   "property": "C72",
   "status": "proved",
   "theorems": [
    "C72_patterns",
    "C72_patterns_image",
    "C72_patterns_simd",
    "C72_blocks",
    "C72_blocks_image",
    "C72_blocks_simd",
    "C72_moved",
    "C72_moved_simd"
   ],
   "note": "As in C46, calls with the defects C03, C12 or C28 are excluded (`representable`). C72_case: a 9 x 16 RGB picture rotated to the right, other mode; C72_case_stripes."
  },
  {
   "property": "C73",
   "status": "proved",
   "theorems": [
    "C73_blocks",
    "C73_blocks_image",
    "C73_blocks_simd",
    "C73_image",
    "C73_image_simd"
   ],
   "note": "As in C46, calls with the defects C03, C12 or C28 are excluded (`representable`). C73_case: a 9 x 17 RGB picture with noise of amplitude 2."
  },
  {
   "property": "C74",
   "status": "proved",
   "theorems": [
    "C74_restart",
    "C74_restart_image",
    "C74_restart_simd"
   ],
   "note": "C74_case: 9 x 17 with two MCUs, interval 2 against none. With a shorter interval the scans do differ: C06, C69."
  },
  {
   "property": "C75",
   "status": "proved",
   "theorems": [
    "C75_channels",
    "C75_channels_simd"
   ],
   "note": "C75_case: 3 x 2 CMYK pixels that differ in the black channel, one file baseline and the other progressive with a restart interval. Representable: C46."
  },
  {
   "property": "C76",
   "status": "proved",
   "theorems": [
    "C76_blocks",
    "C76_blocks_image",
    "C76_blocks_simd",
    "C76_image",
    "C76_image_simd"
   ],
   "note": "C76_case: 9 x 17 RGB pixels and their negative, 4:2:0, baseline and progressive. Representable: C46."
  },
  {
   "property": "C77",
   "status": "proved",
   "theorems": [
    "C77_start",
    "C77_start_simd",
    "C77_start_image",
    "C77_whole_rows"
   ],
   "note": "C77_case: 9 x 17 RGB with 2 x 2 subsampling, the last row differs, the first of two MCUs is settled. With optimized tables the tables themselves may differ."
  },
  {
   "property": "C78",
   "status": "proved",
   "theorems": [
    "C78_heights",
    "C78_heights_simd",
    "C78_heights_image",
    "C78_whole_rows",
    "C78_every_scan",
    "C78_every_scan_image"
   ],
   "note": "C78_case: 9 x 17 and 9 x 20 RGB with 2 x 2 subsampling, the rows from the 17th on differ, the first MCU is settled. C78_every_scan: the same for the data of every scan of the file (progressive, or one scan per component), not only the first one. With optimized tables the tables themselves may differ."
  }
 ]
}