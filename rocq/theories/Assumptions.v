(** Assumptions.v: what the claimed theorems rest on (generated from MANIFEST.json): all of
    them in two tuples, so that one traversal covers each.  The first command prints "Closed
    under the global context"; the theorems of the second are about IEEE numbers as Flocq
    defines them, with the standard library's real numbers (DESIGN.md, section 4). *)
From Verif Require Import Properties_Bcsr Properties_Bcsr2 Properties_BlockCoo2 Properties_BlockIo Properties_BlockTest Properties_Blocked Properties_Cgbr Properties_Choice Properties_Compressed Properties_Conc Properties_Csrfile Properties_Drivers Properties_Expand Properties_Ieee Properties_Io Properties_Ledger Properties_Mm Properties_Mm2 Properties_Mm3 Properties_Number Properties_Outside Properties_Permute Properties_Pprint Properties_Range Properties_Refuse Properties_Result Properties_Reuse Properties_Rounding Properties_Show Properties_Simple Properties_Structure Properties_Tools Properties_Tools2 Properties_Tools3 Properties_Tools4 Properties_Utils Properties_Wide.

Definition claimed_theorems :=
  (@C01_next_power_of_two,
   @C02_highest_bit_set,
   @C03_bit_interleave,
   @C03_wide_indices_collide_refuted,
   @C04_pick_block_size,
   @C05_picked_size_divides_by_zero_refuted,
   @C05_otherwise_blocking,
   @C06_index_to_blockindex,
   @C07_size_to_offset,
   @C07_blocking,
   @C08_constant_blocking,
   @C09_parallel_stable_sort,
   @C09_cut_offs_and_fallback_agree,
   @C10_parallel_sort_schedules,
   @C11_sort_triplets,
   @C11_sort_morton,
   @C11_sort_widerows,
   @C11_sort_elements_blocks,
   @C12_sort_triplets_blocks_refuted,
   @C13_count_blocks,
   @C13_count_nnz_rows,
   @C13_empty_refuted,
   @C14_const,
   @C14_const_zero,
   @C14_block_ids,
   @C14_overflow_refuted,
   @C15_coo_spmv,
   @C15_coo_spmv_exact,
   @C15_order_independent,
   @C15_coo_three_arrays,
   @C16_coo_to_coo,
   @C16_truncation_refuted,
   @C17_coo_to_csr,
   @C18_csr_spmv,
   @C19_csr_kernels_agree,
   @C20_cswr_spmv,
   @C20_cswr_spmv_exact,
   @C21_any_width,
   @C21_too_wide_refuted,
   @C21_width_zero_refuted,
   @C22_compressed_rows_refuted,
   @C23_zeroed_pipeline,
   @C23_compressed_rows_spmv,
   @C24_dense_cells,
   @C24_dense_spmv,
   @C24_overflow_refuted,
   @C24_no_columns,
   @C25_dense_spmv_last_wins,
   @C25_dense_duplicates_refuted,
   @C26_block_coo,
   @C27_block_csr,
   @C27_truncation_refuted,
   @C28_csbr_spmv,
   @C28_csbr_spmv_any,
   @C28_csbr_const_spmv,
   @C28_csbr_structure,
   @C29_csbr2_spmv_any,
   @C29_csbr2_spmv,
   @C29_csbr2_const_spmv,
   @C29_csbr2_structure,
   @C30_csbr3_construction,
   @C30_csbr3_balanced_spmv,
   @C31_csbr3_chunk_full_row,
   @C31_csbr3_ragged_refuted,
   @C32_bcsr_refuted,
   @C32_bcsr_any_value_refuted,
   @C32_bcsr_construction,
   @C33_cgbr_spmv,
   @C33_cgbr_deterministic,
   @C33_cgbr_const_spmv,
   @C33_cgbr_balance,
   @C34_cgbr2_spmv,
   @C34_cgbr2_deterministic,
   @C34_cgbr2_const_spmv,
   @C35_partition_tiles,
   @C35_whole_matrix,
   @C35_cgbr2_whole_matrix,
   @C36_partition_load,
   @C36_number_of_chunks,
   @C36_whole_matrix,
   @C37_partition_return_refuted,
   @C38_chunk_kernel,
   @C39_balanced_deterministic,
   @C40_formats_agree,
   @C41_conversion_sequences,
   @C42_cgbr_source,
   @C42_cgbr2_source,
   @C43_cgbr_statistics,
   @C43_cgbr2_statistics,
   @C44_repeated_spmv,
   @C45_cgbr_empty_refuted,
   @C45_empty_matrix_refuted,
   @C46_invert_permutation,
   @C46_not_a_permutation,
   @C47_permute_commutes,
   @C47_permute_commutes_exact,
   @C48_permute_back,
   @C48_permute_array_back,
   @C48_array_is_matrix,
   @C49_expand_block_size,
   @C49_expand_block_size_zero,
   @C50_expand,
   @C51_bin_roundtrip,
   @C52_truncated_rejected,
   @C52_truncated_rejected_refuted,
   @C53_csr_from_sorted,
   @C53_csr_from_row_sorted,
   @C53_csr_from_unsorted_mixes,
   @C53_unsorted_refuted,
   @C53_truncated_refuted,
   @C54_three_files,
   @C54_large_refuted,
   @C54_generic_refuted,
   @C55_closed_twice_refuted,
   @C55_written_files_refuted,
   @C56_csbr_roundtrip,
   @C56_csbr2_roundtrip,
   @C56_roundtrip_exact,
   @C56_other_blocking,
   @C56_wide_index_refuted,
   @C56_narrow_index_refuted,
   @C57_first_element_lost_refuted,
   @C57_single_refuted,
   @C58_array_roundtrip,
   @C58_any_file,
   @C58_missing_file,
   @C59_reads,
   @C59_roundtrip,
   @C59_validity,
   @C59_invalid_accepted_refuted,
   @C59_white_space,
   @C60_defined,
   @C60_overflow_refuted,
   @C61_size,
   @C61_decided,
   @C61_endless_refuted,
   @C61_returns,
   @C62_general,
   @C62_symmetric,
   @C62_is_symmetric,
   @C62_safe,
   @C62_skew_refuted,
   @C62_pattern_refuted,
   @C63_roundtrip,
   @C63_lossy_refuted,
   @C64_banner_refuted,
   @C64_size_refuted,
   @C65_suffix,
   @C65_dispatch,
   @C66_long_name_refuted,
   @C66_all_or_none,
   @C66_large_refuted,
   @C67_check_results,
   @C68_plain,
   @C68_coo_released_twice_refuted,
   @C68_csbr2,
   @C68_csbr2_constant_size_refuted,
   @C68_csbr_refuted,
   @C68_bcsr_refuted,
   @C68_cgbr,
   @C68_cgbr_constant_size_refuted,
   @C68_cgbr_read_refuted,
   @C68_cgbr2_refuted,
   @C69_as_written_refuted,
   @C69_pipeline,
   @C69_pipeline_exact,
   @C69_dimensions_refuted,
   @C70_double2float,
   @C71_permute,
   @C71_inverse,
   @C71_long_name_refuted,
   @C72_as_written_refuted,
   @C72_unknown_mode,
   @C72_convert,
   @C73_text,
   @C73_three_files,
   @C73_two_files_refuted,
   @C73_as_written_refuted,
   @C73_block_sizes_refuted,
   @C74_expanded,
   @C74_prepare,
   @C74_prepare_exact,
   @C75_coo2_csbr_refuted,
   @C76_blocks_without_rows_refuted,
   @C76_reads_files,
   @C77_constraints,
   @C77_largest,
   @C78_summary,
   @C78_no_measurement,
   @C78_median,
   @C78_median_empty,
   @C79_benchmark,
   @C79_no_iterations_refuted,
   @C79_passes,
   @C80_reads_bin,
   @C80_reads_mtx,
   @C80_csr_driver,
   @C80_csr_errors,
   @C80_cswr_driver,
   @C80_cswr_width_zero_refuted,
   @C80_cswr_errors,
   @C81_picks,
   @C81_blocked_drivers,
   @C81_short_indices_suffice,
   @C81_small_matrix_refuted,
   @C81_errors,
   @C82_block_size_files_ignored_refuted,
   @C83_bench_driver,
   @C83_pbench_driver,
   @C83_errors,
   @C84_rounding,
   @C84_rounding_ties,
   @C84_always_coo,
   @C84_same_width,
   @C84_cgbr_spmv,
   @C84_cgbr_const_spmv,
   @C84_choice_exact,
   @C85_factory,
   @C85_factory_exact,
   @C85_density_overflow_refuted,
   @C85_built,
   @C85_cgbr2_spmv,
   @C85_rounding_refuted,
   @C86_balanced,
   @C87_cgbr_duplicates,
   @C87_cgbr2_duplicates,
   @C87_duplicates_lost_refuted,
   @C88_coo,
   @C88_csr,
   @C88_cswr,
   @C88_csbr,
   @C88_csbr2,
   @C88_csbr3,
   @C88_cgbr,
   @C88_cgbr2,
   @C88_cgbr_float,
   @C88_formats_agree,
   @C88_growth,
   @C90_cgbr_fits,
   @C90_cgbr_aborts,
   @C90_cgbr2_stored,
   @C90_cgbr_default,
   @C90_cgbr2_silent_refuted,
   @C90_csbr3_stored,
   @C90_csbr3_silent_refuted,
   @C91_coo_inside,
   @C91_coo_outside,
   @C91_coo_defined_iff,
   @C91_arrays,
   @C91_bin_unchecked,
   @C91_mm_unchecked,
   @C92_csr_columns,
   @C92_csr_rows,
   @C92_csr_last_index,
   @C92_silent_refuted,
   @C93_triples,
   @C93_triples_cut_silent,
   @C93_triples_cut_undefined,
   @C93_blocks,
   @C93_blocks_cut_silent,
   @C93_blocks_cut_undefined,
   @C93_vector,
   @C93_numbers_readable,
   @C93_missing,
   @C93_never_refuses,
   @C94_frame,
   @C94_concurrent,
   @C94_shared_matrix,
   @C94_same_vector_refuted,
   @C95_as_written_refuted,
   @C95_repaired,
   @C95_exact,
   @C95_small_matrix_refuted,
   @C95_errors,
   @C96_csbr,
   @C96_csbr2,
   @C96_cgbr,
   @C96_cgbr2,
   @C96_csbr_const,
   @C96_csbr2_const,
   @C96_cgbr_const,
   @C96_cgbr2_const,
   @C96_drivers,
   @C97_all_files,
   @C97_refused_later,
   @C97_no_arguments_refuted,
   @C97_first_refused_refuted,
   @C97_large_index,
   @C97_unlabelled_first_refuted,
   @C97_unlabelled_stale_refuted,
   @C98_put_into_inside,
   @C98_numbered_means,
   @C98_cases,
   @C98_csbr,
   @C98_csbr2,
   @C98_csbr_last_number_refuted,
   @C98_cgbr,
   @C98_cgbr2,
   @C98_const,
   @C99_mm_codes,
   @C99_mm_missing,
   @C99_mm_banner,
   @C99_mm_kind,
   @C99_mm_no_size,
   @C99_bin_codes,
   @C99_bin_refused,
   @C99_three_files,
   @C99_name,
   @C99_one2zero,
   @C99_double2float,
   @C99_no_arguments,
   @C99_permute,
   @C99_convert_blocked,
   @C99_convert,
   @C99_convert_mode,
   @C99_sort,
   @C99_sort_arguments,
   @C99_sort_refused,
   @C99_expanded,
   @C99_prepare,
   @C100_construct,
   @C100_rejects,
   @C100_spmv,
   @C100_low_bits,
   @C100_morton,
   @C100_unsorted_refuted,
   @C100_uint16_refuted,
   @C101_show_coo,
   @C101_show_coo_big,
   @C101_show_coo_faithful,
   @C101_show_csr,
   @C101_show_csr_big,
   @C101_show_csr_faithful,
   @C101_show_csr_canonical,
   @C101_show_vector,
   @C101_partition_dump_csbr,
   @C101_partition_dump_cgbr2,
   @C102_cut_general,
   @C102_cut_symmetric,
   @C102_cut_first_refuted,
   @C102_word_general,
   @C102_word_symmetric,
   @C102_threes,
   @C102_pattern_refuted,
   @C103_rows_outside,
   @C103_last_index,
   @C103_rows_cut,
   @C103_rows_broken).
Print Assumptions claimed_theorems.

Definition claimed_theorems_with_reals :=
  (@C89_float_rounding,
   @C89_double_rounding,
   @C89_float_integers,
   @C89_double_integers,
   @C89_float_row,
   @C89_float_integer_row,
   @C89_double_integer_row,
   @C89_formats_identical_refuted).
Print Assumptions claimed_theorems_with_reals.
