{
 "claims": [
  {
   "property": "C01",
   "status": "proved",
   "theorems": [
    "C01_next_power_of_two"
   ],
   "note": ""
  },
  {
   "property": "C02",
   "status": "proved",
   "theorems": [
    "C02_highest_bit_set"
   ],
   "note": ""
  },
  {
   "property": "C03",
   "status": "proved",
   "theorems": [
    "C03_bit_interleave",
    "C03_wide_indices_collide_refuted"
   ],
   "note": ""
  },
  {
   "property": "C04",
   "status": "proved",
   "theorems": [
    "C04_pick_block_size"
   ],
   "note": ""
  },
  {
   "property": "C05",
   "status": "proved",
   "theorems": [
    "C05_picked_size_divides_by_zero_refuted",
    "C05_otherwise_blocking"
   ],
   "note": ""
  },
  {
   "property": "C06",
   "status": "proved",
   "theorems": [
    "C06_index_to_blockindex"
   ],
   "note": ""
  },
  {
   "property": "C07",
   "status": "proved",
   "theorems": [
    "C07_size_to_offset",
    "C07_blocking"
   ],
   "note": ""
  },
  {
   "property": "C08",
   "status": "proved",
   "theorems": [
    "C08_constant_blocking"
   ],
   "note": ""
  },
  {
   "property": "C09",
   "status": "proved",
   "theorems": [
    "C09_parallel_stable_sort",
    "C09_cut_offs_and_fallback_agree"
   ],
   "note": ""
  },
  {
   "property": "C10",
   "status": "proved",
   "theorems": [
    "C10_parallel_sort_schedules"
   ],
   "note": ""
  },
  {
   "property": "C11",
   "status": "proved",
   "theorems": [
    "C11_sort_triplets",
    "C11_sort_morton",
    "C11_sort_widerows",
    "C11_sort_elements_blocks"
   ],
   "note": ""
  },
  {
   "property": "C12",
   "status": "proved",
   "theorems": [
    "C12_sort_triplets_blocks_refuted"
   ],
   "note": ""
  },
  {
   "property": "C13",
   "status": "proved",
   "theorems": [
    "C13_count_blocks",
    "C13_count_nnz_rows",
    "C13_empty_refuted"
   ],
   "note": ""
  },
  {
   "property": "C14",
   "status": "proved",
   "theorems": [
    "C14_const",
    "C14_const_zero",
    "C14_block_ids",
    "C14_overflow_refuted"
   ],
   "note": ""
  },
  {
   "property": "C15",
   "status": "proved",
   "theorems": [
    "C15_coo_spmv",
    "C15_coo_spmv_exact",
    "C15_order_independent",
    "C15_coo_three_arrays"
   ],
   "note": ""
  },
  {
   "property": "C16",
   "status": "proved",
   "theorems": [
    "C16_coo_to_coo",
    "C16_truncation_refuted"
   ],
   "note": ""
  },
  {
   "property": "C17",
   "status": "proved",
   "theorems": [
    "C17_coo_to_csr"
   ],
   "note": ""
  },
  {
   "property": "C18",
   "status": "proved",
   "theorems": [
    "C18_csr_spmv"
   ],
   "note": ""
  },
  {
   "property": "C19",
   "status": "proved",
   "theorems": [
    "C19_csr_kernels_agree"
   ],
   "note": ""
  },
  {
   "property": "C20",
   "status": "proved",
   "theorems": [
    "C20_cswr_spmv",
    "C20_cswr_spmv_exact"
   ],
   "note": ""
  },
  {
   "property": "C21",
   "status": "proved",
   "theorems": [
    "C21_any_width",
    "C21_too_wide_refuted",
    "C21_width_zero_refuted"
   ],
   "note": ""
  },
  {
   "property": "C22",
   "status": "proved",
   "theorems": [
    "C22_compressed_rows_refuted"
   ],
   "note": ""
  },
  {
   "property": "C23",
   "status": "proved",
   "theorems": [
    "C23_zeroed_pipeline",
    "C23_compressed_rows_spmv"
   ],
   "note": ""
  },
  {
   "property": "C24",
   "status": "proved",
   "theorems": [
    "C24_dense_cells",
    "C24_dense_spmv",
    "C24_overflow_refuted",
    "C24_no_columns"
   ],
   "note": ""
  },
  {
   "property": "C25",
   "status": "proved",
   "theorems": [
    "C25_dense_spmv_last_wins",
    "C25_dense_duplicates_refuted"
   ],
   "note": ""
  },
  {
   "property": "C26",
   "status": "proved",
   "theorems": [
    "C26_block_coo"
   ],
   "note": ""
  },
  {
   "property": "C27",
   "status": "proved",
   "theorems": [
    "C27_block_csr",
    "C27_truncation_refuted"
   ],
   "note": ""
  },
  {
   "property": "C28",
   "status": "proved",
   "theorems": [
    "C28_csbr_spmv",
    "C28_csbr_spmv_any",
    "C28_csbr_const_spmv",
    "C28_csbr_structure"
   ],
   "note": ""
  },
  {
   "property": "C29",
   "status": "proved",
   "theorems": [
    "C29_csbr2_spmv_any",
    "C29_csbr2_spmv",
    "C29_csbr2_const_spmv",
    "C29_csbr2_structure"
   ],
   "note": ""
  },
  {
   "property": "C30",
   "status": "proved",
   "theorems": [
    "C30_csbr3_construction",
    "C30_csbr3_balanced_spmv"
   ],
   "note": ""
  },
  {
   "property": "C31",
   "status": "proved",
   "theorems": [
    "C31_csbr3_chunk_full_row",
    "C31_csbr3_ragged_refuted"
   ],
   "note": ""
  },
  {
   "property": "C32",
   "status": "proved",
   "theorems": [
    "C32_bcsr_refuted",
    "C32_bcsr_any_value_refuted",
    "C32_bcsr_construction"
   ],
   "note": ""
  },
  {
   "property": "C33",
   "status": "proved",
   "theorems": [
    "C33_cgbr_spmv",
    "C33_cgbr_deterministic",
    "C33_cgbr_const_spmv",
    "C33_cgbr_balance"
   ],
   "note": ""
  },
  {
   "property": "C34",
   "status": "proved",
   "theorems": [
    "C34_cgbr2_spmv",
    "C34_cgbr2_deterministic",
    "C34_cgbr2_const_spmv"
   ],
   "note": ""
  },
  {
   "property": "C35",
   "status": "proved",
   "theorems": [
    "C35_partition_tiles",
    "C35_whole_matrix",
    "C35_cgbr2_whole_matrix"
   ],
   "note": ""
  },
  {
   "property": "C36",
   "status": "proved",
   "theorems": [
    "C36_partition_load",
    "C36_number_of_chunks",
    "C36_whole_matrix"
   ],
   "note": ""
  },
  {
   "property": "C37",
   "status": "proved",
   "theorems": [
    "C37_partition_return_refuted"
   ],
   "note": ""
  },
  {
   "property": "C38",
   "status": "proved",
   "theorems": [
    "C38_chunk_kernel"
   ],
   "note": ""
  },
  {
   "property": "C39",
   "status": "proved",
   "theorems": [
    "C39_balanced_deterministic"
   ],
   "note": ""
  },
  {
   "property": "C40",
   "status": "proved",
   "theorems": [
    "C40_formats_agree"
   ],
   "note": ""
  },
  {
   "property": "C41",
   "status": "proved",
   "theorems": [
    "C41_conversion_sequences"
   ],
   "note": ""
  },
  {
   "property": "C42",
   "status": "proved",
   "theorems": [
    "C42_cgbr_source",
    "C42_cgbr2_source"
   ],
   "note": ""
  },
  {
   "property": "C43",
   "status": "proved",
   "theorems": [
    "C43_cgbr_statistics",
    "C43_cgbr2_statistics"
   ],
   "note": ""
  },
  {
   "property": "C44",
   "status": "proved",
   "theorems": [
    "C44_repeated_spmv"
   ],
   "note": ""
  },
  {
   "property": "C45",
   "status": "proved",
   "theorems": [
    "C45_cgbr_empty_refuted",
    "C45_empty_matrix_refuted"
   ],
   "note": ""
  },
  {
   "property": "C46",
   "status": "proved",
   "theorems": [
    "C46_invert_permutation",
    "C46_not_a_permutation"
   ],
   "note": ""
  },
  {
   "property": "C47",
   "status": "proved",
   "theorems": [
    "C47_permute_commutes",
    "C47_permute_commutes_exact"
   ],
   "note": ""
  },
  {
   "property": "C48",
   "status": "proved",
   "theorems": [
    "C48_permute_back",
    "C48_permute_array_back",
    "C48_array_is_matrix"
   ],
   "note": ""
  },
  {
   "property": "C49",
   "status": "proved",
   "theorems": [
    "C49_expand_block_size",
    "C49_expand_block_size_zero"
   ],
   "note": ""
  },
  {
   "property": "C50",
   "status": "proved",
   "theorems": [
    "C50_expand"
   ],
   "note": ""
  },
  {
   "property": "C51",
   "status": "proved",
   "theorems": [
    "C51_bin_roundtrip"
   ],
   "note": ""
  },
  {
   "property": "C52",
   "status": "proved",
   "theorems": [
    "C52_truncated_rejected",
    "C52_truncated_rejected_refuted"
   ],
   "note": ""
  },
  {
   "property": "C53",
   "status": "proved",
   "theorems": [
    "C53_csr_from_sorted",
    "C53_csr_from_row_sorted",
    "C53_csr_from_unsorted_mixes",
    "C53_unsorted_refuted",
    "C53_truncated_refuted"
   ],
   "note": ""
  },
  {
   "property": "C54",
   "status": "proved",
   "theorems": [
    "C54_three_files",
    "C54_large_refuted",
    "C54_generic_refuted"
   ],
   "note": ""
  },
  {
   "property": "C55",
   "status": "proved",
   "theorems": [
    "C55_closed_twice_refuted",
    "C55_written_files_refuted"
   ],
   "note": ""
  },
  {
   "property": "C56",
   "status": "proved",
   "theorems": [
    "C56_csbr_roundtrip",
    "C56_csbr2_roundtrip",
    "C56_roundtrip_exact",
    "C56_other_blocking",
    "C56_wide_index_refuted",
    "C56_narrow_index_refuted"
   ],
   "note": ""
  },
  {
   "property": "C57",
   "status": "proved",
   "theorems": [
    "C57_first_element_lost_refuted",
    "C57_single_refuted"
   ],
   "note": ""
  },
  {
   "property": "C58",
   "status": "proved",
   "theorems": [
    "C58_array_roundtrip",
    "C58_any_file",
    "C58_missing_file"
   ],
   "note": ""
  },
  {
   "property": "C59",
   "status": "proved",
   "theorems": [
    "C59_reads",
    "C59_roundtrip",
    "C59_validity",
    "C59_invalid_accepted_refuted",
    "C59_white_space"
   ],
   "note": ""
  },
  {
   "property": "C60",
   "status": "proved",
   "theorems": [
    "C60_defined",
    "C60_overflow_refuted"
   ],
   "note": ""
  },
  {
   "property": "C61",
   "status": "proved",
   "theorems": [
    "C61_size",
    "C61_decided",
    "C61_endless_refuted",
    "C61_returns"
   ],
   "note": ""
  },
  {
   "property": "C62",
   "status": "proved",
   "theorems": [
    "C62_general",
    "C62_symmetric",
    "C62_is_symmetric",
    "C62_safe",
    "C62_skew_refuted",
    "C62_pattern_refuted"
   ],
   "note": ""
  },
  {
   "property": "C63",
   "status": "proved",
   "theorems": [
    "C63_roundtrip",
    "C63_lossy_refuted"
   ],
   "note": ""
  },
  {
   "property": "C64",
   "status": "proved",
   "theorems": [
    "C64_banner_refuted",
    "C64_size_refuted"
   ],
   "note": ""
  },
  {
   "property": "C65",
   "status": "proved",
   "theorems": [
    "C65_suffix",
    "C65_dispatch"
   ],
   "note": ""
  },
  {
   "property": "C66",
   "status": "proved",
   "theorems": [
    "C66_long_name_refuted",
    "C66_all_or_none",
    "C66_large_refuted"
   ],
   "note": ""
  },
  {
   "property": "C67",
   "status": "proved",
   "theorems": [
    "C67_check_results"
   ],
   "note": ""
  },
  {
   "property": "C68",
   "status": "proved",
   "theorems": [
    "C68_plain",
    "C68_coo_released_twice_refuted",
    "C68_csbr2",
    "C68_csbr2_constant_size_refuted",
    "C68_csbr_refuted",
    "C68_bcsr_refuted",
    "C68_cgbr",
    "C68_cgbr_constant_size_refuted",
    "C68_cgbr_read_refuted",
    "C68_cgbr2_refuted"
   ],
   "note": ""
  },
  {
   "property": "C69",
   "status": "proved",
   "theorems": [
    "C69_as_written_refuted",
    "C69_pipeline",
    "C69_pipeline_exact",
    "C69_dimensions_refuted"
   ],
   "note": ""
  },
  {
   "property": "C70",
   "status": "proved",
   "theorems": [
    "C70_double2float"
   ],
   "note": ""
  },
  {
   "property": "C71",
   "status": "proved",
   "theorems": [
    "C71_permute",
    "C71_inverse",
    "C71_long_name_refuted"
   ],
   "note": ""
  },
  {
   "property": "C72",
   "status": "proved",
   "theorems": [
    "C72_as_written_refuted",
    "C72_unknown_mode",
    "C72_convert"
   ],
   "note": ""
  },
  {
   "property": "C73",
   "status": "proved",
   "theorems": [
    "C73_text",
    "C73_three_files",
    "C73_two_files_refuted",
    "C73_as_written_refuted",
    "C73_block_sizes_refuted"
   ],
   "note": ""
  },
  {
   "property": "C74",
   "status": "proved",
   "theorems": [
    "C74_expanded",
    "C74_prepare",
    "C74_prepare_exact"
   ],
   "note": ""
  },
  {
   "property": "C75",
   "status": "proved",
   "theorems": [
    "C75_coo2_csbr_refuted"
   ],
   "note": ""
  },
  {
   "property": "C76",
   "status": "proved",
   "theorems": [
    "C76_blocks_without_rows_refuted",
    "C76_reads_files"
   ],
   "note": ""
  },
  {
   "property": "C77",
   "status": "proved",
   "theorems": [
    "C77_constraints",
    "C77_largest"
   ],
   "note": ""
  },
  {
   "property": "C78",
   "status": "proved",
   "theorems": [
    "C78_summary",
    "C78_no_measurement",
    "C78_median",
    "C78_median_empty"
   ],
   "note": ""
  },
  {
   "property": "C79",
   "status": "proved",
   "theorems": [
    "C79_benchmark",
    "C79_no_iterations_refuted",
    "C79_passes"
   ],
   "note": ""
  },
  {
   "property": "C80",
   "status": "proved",
   "theorems": [
    "C80_reads_bin",
    "C80_reads_mtx",
    "C80_csr_driver",
    "C80_csr_errors",
    "C80_cswr_driver",
    "C80_cswr_width_zero_refuted",
    "C80_cswr_errors"
   ],
   "note": ""
  },
  {
   "property": "C81",
   "status": "proved",
   "theorems": [
    "C81_picks",
    "C81_blocked_drivers",
    "C81_short_indices_suffice",
    "C81_small_matrix_refuted",
    "C81_errors"
   ],
   "note": ""
  },
  {
   "property": "C82",
   "status": "proved",
   "theorems": [
    "C82_block_size_files_ignored_refuted"
   ],
   "note": ""
  },
  {
   "property": "C83",
   "status": "proved",
   "theorems": [
    "C83_bench_driver",
    "C83_pbench_driver",
    "C83_errors"
   ],
   "note": ""
  },
  {
   "property": "C84",
   "status": "proved",
   "theorems": [
    "C84_rounding",
    "C84_rounding_ties",
    "C84_always_coo",
    "C84_same_width",
    "C84_cgbr_spmv",
    "C84_cgbr_const_spmv",
    "C84_choice_exact"
   ],
   "note": ""
  },
  {
   "property": "C85",
   "status": "proved",
   "theorems": [
    "C85_factory",
    "C85_factory_exact",
    "C85_density_overflow_refuted",
    "C85_built",
    "C85_cgbr2_spmv",
    "C85_rounding_refuted"
   ],
   "note": ""
  },
  {
   "property": "C86",
   "status": "proved",
   "theorems": [
    "C86_balanced"
   ],
   "note": ""
  },
  {
   "property": "C87",
   "status": "proved",
   "theorems": [
    "C87_cgbr_duplicates",
    "C87_cgbr2_duplicates",
    "C87_duplicates_lost_refuted"
   ],
   "note": ""
  },
  {
   "property": "C88",
   "status": "proved",
   "theorems": [
    "C88_coo",
    "C88_csr",
    "C88_cswr",
    "C88_csbr",
    "C88_csbr2",
    "C88_csbr3",
    "C88_cgbr",
    "C88_cgbr2",
    "C88_cgbr_float",
    "C88_formats_agree",
    "C88_growth"
   ],
   "note": ""
  },
  {
   "property": "C89",
   "status": "proved",
   "theorems": [
    "C89_float_rounding",
    "C89_double_rounding",
    "C89_float_integers",
    "C89_double_integers",
    "C89_float_row",
    "C89_float_integer_row",
    "C89_double_integer_row",
    "C89_formats_identical_refuted"
   ],
   "note": ""
  },
  {
   "property": "C90",
   "status": "proved",
   "theorems": [
    "C90_cgbr_fits",
    "C90_cgbr_aborts",
    "C90_cgbr2_stored",
    "C90_cgbr_default",
    "C90_cgbr2_silent_refuted",
    "C90_csbr3_stored",
    "C90_csbr3_silent_refuted"
   ],
   "note": ""
  },
  {
   "property": "C91",
   "status": "proved",
   "theorems": [
    "C91_coo_inside",
    "C91_coo_outside",
    "C91_coo_defined_iff",
    "C91_arrays",
    "C91_bin_unchecked",
    "C91_mm_unchecked"
   ],
   "note": ""
  },
  {
   "property": "C92",
   "status": "proved",
   "theorems": [
    "C92_csr_columns",
    "C92_csr_rows",
    "C92_csr_last_index",
    "C92_silent_refuted"
   ],
   "note": ""
  },
  {
   "property": "C93",
   "status": "proved",
   "theorems": [
    "C93_triples",
    "C93_triples_cut_silent",
    "C93_triples_cut_undefined",
    "C93_blocks",
    "C93_blocks_cut_silent",
    "C93_blocks_cut_undefined",
    "C93_vector",
    "C93_numbers_readable",
    "C93_missing",
    "C93_never_refuses"
   ],
   "note": ""
  },
  {
   "property": "C94",
   "status": "proved",
   "theorems": [
    "C94_frame",
    "C94_concurrent",
    "C94_shared_matrix",
    "C94_same_vector_refuted"
   ],
   "note": ""
  },
  {
   "property": "C95",
   "status": "proved",
   "theorems": [
    "C95_as_written_refuted",
    "C95_repaired",
    "C95_exact",
    "C95_small_matrix_refuted",
    "C95_errors"
   ],
   "note": ""
  },
  {
   "property": "C96",
   "status": "proved",
   "theorems": [
    "C96_csbr",
    "C96_csbr2",
    "C96_cgbr",
    "C96_cgbr2",
    "C96_csbr_const",
    "C96_csbr2_const",
    "C96_cgbr_const",
    "C96_cgbr2_const",
    "C96_drivers"
   ],
   "note": ""
  },
  {
   "property": "C97",
   "status": "proved",
   "theorems": [
    "C97_all_files",
    "C97_refused_later",
    "C97_no_arguments_refuted",
    "C97_first_refused_refuted",
    "C97_large_index",
    "C97_unlabelled_first_refuted",
    "C97_unlabelled_stale_refuted"
   ],
   "note": ""
  },
  {
   "property": "C98",
   "status": "proved",
   "theorems": [
    "C98_put_into_inside",
    "C98_numbered_means",
    "C98_cases",
    "C98_csbr",
    "C98_csbr2",
    "C98_csbr_last_number_refuted",
    "C98_cgbr",
    "C98_cgbr2",
    "C98_const"
   ],
   "note": ""
  },
  {
   "property": "C99",
   "status": "proved",
   "theorems": [
    "C99_mm_codes",
    "C99_mm_missing",
    "C99_mm_banner",
    "C99_mm_kind",
    "C99_mm_no_size",
    "C99_bin_codes",
    "C99_bin_refused",
    "C99_three_files",
    "C99_name",
    "C99_one2zero",
    "C99_double2float",
    "C99_no_arguments",
    "C99_permute",
    "C99_convert_blocked",
    "C99_convert",
    "C99_convert_mode",
    "C99_sort",
    "C99_sort_arguments",
    "C99_sort_refused",
    "C99_expanded",
    "C99_prepare"
   ],
   "note": ""
  },
  {
   "property": "C100",
   "status": "proved",
   "theorems": [
    "C100_construct",
    "C100_rejects",
    "C100_spmv",
    "C100_low_bits",
    "C100_morton",
    "C100_unsorted_refuted",
    "C100_uint16_refuted"
   ],
   "note": ""
  },
  {
   "property": "C101",
   "status": "proved",
   "theorems": [
    "C101_show_coo",
    "C101_show_coo_big",
    "C101_show_coo_faithful",
    "C101_show_csr",
    "C101_show_csr_big",
    "C101_show_csr_faithful",
    "C101_show_csr_canonical",
    "C101_show_vector",
    "C101_partition_dump_csbr",
    "C101_partition_dump_cgbr2"
   ],
   "note": ""
  },
  {
   "property": "C102",
   "status": "proved",
   "theorems": [
    "C102_cut_general",
    "C102_cut_symmetric",
    "C102_cut_first_refuted",
    "C102_word_general",
    "C102_word_symmetric",
    "C102_threes",
    "C102_pattern_refuted"
   ],
   "note": ""
  },
  {
   "property": "C103",
   "status": "proved",
   "theorems": [
    "C103_rows_outside",
    "C103_last_index",
    "C103_rows_cut",
    "C103_rows_broken"
   ],
   "note": ""
  }
 ]
}