{
 "claims": [
  {
   "property": "C01",
   "status": "proved",
   "theorems": [
    "C01_sw842_round_trip"
   ],
   "note": "For ilen <= UINT_MAX; longer inputs are C46."
  },
  {
   "property": "C02",
   "status": "proved",
   "theorems": [
    "C02_sw842_compress_contract"
   ],
   "note": ""
  },
  {
   "property": "C03",
   "status": "proved",
   "theorems": [
    "C03_sw842_compress_in_bounds"
   ],
   "note": ""
  },
  {
   "property": "C04",
   "status": "proved",
   "theorems": [
    "C04_sw842_compress_size",
    "C04_sw842_compress_capacity_suffices"
   ],
   "note": ""
  },
  {
   "property": "C05",
   "status": "proved",
   "theorems": [
    "C05_sw842_decompress_exact",
    "C05_sw842_decompress_success_memory"
   ],
   "note": ""
  },
  {
   "property": "C06",
   "status": "partial",
   "theorems": [
    "C06_sw842_decompress_in_bounds_refuted",
    "C06_sw842_decompress_in_bounds_partial",
    "C06_sw842_decompress_writes"
   ],
   "note": "False of the code: a repeat template after 1..7 bytes of short data reads before the output buffer. The partial theorem proves this is the only out-of-bounds access, as an equivalence."
  },
  {
   "property": "C07",
   "status": "proved",
   "theorems": [
    "C07_sw842_decompress_errors"
   ],
   "note": ""
  },
  {
   "property": "C08",
   "status": "proved",
   "theorems": [
    "C08_sw842_decompress_terminates"
   ],
   "note": ""
  },
  {
   "property": "C09",
   "status": "proved",
   "theorems": [
    "C09_sw842_truncated_rejected"
   ],
   "note": ""
  },
  {
   "property": "C10",
   "status": "proved",
   "theorems": [
    "C10_sw842_trailing_bytes_ignored"
   ],
   "note": "Stronger: holds for every result other than -EOVERFLOW."
  },
  {
   "property": "C11",
   "status": "proved",
   "theorems": [
    "C11_sw842_crc_enforced"
   ],
   "note": ""
  },
  {
   "property": "C12",
   "status": "proved",
   "theorems": [
    "C12_crc32_be_is_bitwise_crc"
   ],
   "note": ""
  },
  {
   "property": "C13",
   "status": "proved",
   "theorems": [
    "C13_table_is_generated",
    "C13_table_shape",
    "C13_table_entries"
   ],
   "note": ""
  },
  {
   "property": "C14",
   "status": "proved",
   "theorems": [
    "C14_crc_detects_bursts"
   ],
   "note": ""
  },
  {
   "property": "C15",
   "status": "proved",
   "theorems": [
    "C15_sw842_too_small"
   ],
   "note": ""
  },
  {
   "property": "C16",
   "status": "proved",
   "theorems": [
    "C16_optsw842_round_trip"
   ],
   "note": "Limit UINT_MAX only when the decompressing call falls back to sw842_decompress (C46)."
  },
  {
   "property": "C17",
   "status": "proved",
   "theorems": [
    "C17_optsw842_compress_contract"
   ],
   "note": ""
  },
  {
   "property": "C18",
   "status": "partial",
   "theorems": [
    "C18_optsw842_compress_in_bounds_refuted",
    "C18_optsw842_compress_in_bounds_partial"
   ],
   "note": "False of the code: an empty input with aligned pointers reads 8 bytes. The partial theorem shows this is the only case."
  },
  {
   "property": "C19",
   "status": "partial",
   "theorems": [
    "C19_optsw842_compress_error_contract_refuted",
    "C19_optsw842_compress_error_contract_partial"
   ],
   "note": "False of the code: -EINVAL for a length that is not a multiple of 8 leaves *olen unchanged. The partial theorem covers every other error."
  },
  {
   "property": "C20",
   "status": "proved",
   "theorems": [
    "C20_optsw842_decompress_exact",
    "C20_optsw842_decompress_too_small",
    "C20_optsw842_decompress_crc_enforced"
   ],
   "note": ""
  },
  {
   "property": "C21",
   "status": "proved",
   "theorems": [
    "C21_optsw842_decompress_in_bounds",
    "C21_optsw842_decompress_terminates"
   ],
   "note": ""
  },
  {
   "property": "C22",
   "status": "proved",
   "theorems": [
    "C22_cross_compatible"
   ],
   "note": ""
  },
  {
   "property": "C23",
   "status": "partial",
   "theorems": [
    "C23_compress_alignment_refuted",
    "C23_decompress_alignment_refuted",
    "C23_decompress_alignment_partial",
    "C23_decompress_same_data",
    "C23_aligned_success"
   ],
   "note": "False of the code, for both functions. The partial theorem covers well-formed hardware streams of whole words. For every input: two successful calls never deliver different data (C23_decompress_same_data), and what is accepted in aligned buffers is accepted in all others (C23_aligned_success)."
  },
  {
   "property": "C24",
   "status": "proved",
   "theorems": [
    "C24_sw842_compress_portable",
    "C24_sw842_decompress_portable",
    "C24_optsw842_compress_portable",
    "C24_optsw842_decompress_portable"
   ],
   "note": ""
  },
  {
   "property": "C25",
   "status": "proved",
   "theorems": [
    "C25_references_in_window"
   ],
   "note": ""
  },
  {
   "property": "C26",
   "status": "proved",
   "theorems": [
    "C26_sw842_hardware_compatible"
   ],
   "note": ""
  },
  {
   "property": "C27",
   "status": "proved",
   "theorems": [
    "C27_sw842_runs"
   ],
   "note": ""
  },
  {
   "property": "C46",
   "status": "partial",
   "theorems": [
    "C46_huge_input_round_trip_refuted",
    "C46_never_restored_refuted"
   ],
   "note": "False of the code: no input of more than UINT_MAX bytes is ever restored."
  },
  {
   "property": "C47",
   "status": "proved",
   "theorems": [
    "C47_format_unambiguous"
   ],
   "note": ""
  },
  {
   "property": "C48",
   "status": "proved",
   "theorems": [
    "C48_optsw842_truncated_rejected"
   ],
   "note": ""
  },
  {
   "property": "C49",
   "status": "proved",
   "theorems": [
    "C49_optsw842_trailing_bytes_ignored"
   ],
   "note": ""
  },
  {
   "property": "C28",
   "status": "partial",
   "theorems": [
    "C28_chunked_as_single_calls_partial",
    "C28_input_offsets_wrap_partial",
    "C28_large_offsets_refuted"
   ],
   "note": "Proved for the four chunked functions while (numchunks-1)*stride < 2^32. With any input stride chunk j is proved to be read at j*istride mod 2^32. Refuted beyond: the offsets are unsigned int (trivial_chunked.h:16) and wrap. Chunks for which the single call is undefined (C06, C18) are excluded."
  },
  {
   "property": "C29",
   "status": "partial",
   "theorems": [
    "C29_errors_reported_refuted",
    "C29_return_value_always_zero"
   ],
   "note": "Refuted: the computed error is dropped, trivial_chunked.h:28 returns 0 always; rets[] is right (C28)."
  },
  {
   "property": "C30",
   "status": "partial",
   "theorems": [
    "C30_chunks_independent_partial",
    "C30_skipped_chunks_untouched_partial",
    "C30_large_offsets_refuted"
   ],
   "note": "Proved while the offsets fit 32 bits and every processed chunk's single call is defined. Refuted beyond: a chunk at 4 GiB overwrites a skipped one."
  },
  {
   "property": "C50",
   "status": "partial",
   "theorems": [
    "C50_chunked_terminates_partial",
    "C50_chunked_terminates_refuted",
    "C50_never_returns_refuted"
   ],
   "note": "Proved for numchunks <= UINT_MAX. Refuted for numchunks > UINT_MAX (32-bit loop counter): it never returns, whatever the arguments."
  },
  {
   "property": "C35",
   "status": "partial",
   "theorems": [
    "C35_block_round_trip_partial",
    "C35_raw_chunk_aborts_refuted"
   ],
   "note": "Proved for every mix of the four implementations with NDEBUG, and with assertions for blocks without raw chunks. Refuted with assertions enabled (the default build): block.h:53 asserts source == nullptr where it must not be null."
  },
  {
   "property": "C39",
   "status": "partial",
   "theorems": [
    "C39_corrupted_chunk_refuted",
    "C39_handle_block_never_reports"
   ],
   "note": "Refuted: handle_block looks only at the value returned by the chunked call, which is always 0 (C29); with assertions enabled the program aborts instead."
  },
  {
   "property": "C51",
   "status": "proved",
   "theorems": [
    "C51_size_bound_attained",
    "C51_every_length"
   ],
   "note": ""
  },
  {
   "property": "C40",
   "status": "proved",
   "theorems": [
    "C40_no_early_return",
    "C40_released",
    "C40_blocked_only_by_missing_call",
    "C40_interrupt"
   ],
   "note": ""
  },
  {
   "property": "C41",
   "status": "proved",
   "theorems": [
    "C41_wait_returns_late_enough",
    "C41_then_never_blocks",
    "C41_count_down_assertion"
   ],
   "note": ""
  },
  {
   "property": "C31",
   "status": "proved",
   "theorems": [
    "C31_exactly_once",
    "C31_at_most_once"
   ],
   "note": "For 1 <= num_threads < 2^32 (the type of num_threads)."
  },
  {
   "property": "C32",
   "status": "proved",
   "theorems": [
    "C32_history",
    "C32_status"
   ],
   "note": ""
  },
  {
   "property": "C33",
   "status": "proved",
   "theorems": [
    "C33_no_deadlock",
    "C33_bounded",
    "C33_completes",
    "C33_running",
    "C33_zero_threads_hang"
   ],
   "note": "For num_threads >= 1; with 0 threads the finalize callback never comes (C33_zero_threads_hang)."
  },
  {
   "property": "C34",
   "status": "proved",
   "theorems": [
    "C34_epochs"
   ],
   "note": "Also for failed and cancelled operations; not claimed once the destructor has started."
  },
  {
   "property": "C52",
   "status": "proved",
   "theorems": [
    "C52_destructor_callbacks",
    "C52_destructor_terminates"
   ],
   "note": ""
  },
  {
   "property": "C36",
   "status": "proved",
   "theorems": [
    "C36_exactly_once",
    "C36_at_most_once"
   ],
   "note": ""
  },
  {
   "property": "C37",
   "status": "proved",
   "theorems": [
    "C37_history",
    "C37_status",
    "C37_push_result"
   ],
   "note": ""
  },
  {
   "property": "C38",
   "status": "proved",
   "theorems": [
    "C38_no_deadlock",
    "C38_bounded",
    "C38_completes",
    "C38_running",
    "C38_zero_threads_hang"
   ],
   "note": "For num_threads >= 1; with 0 threads the finalize callback never comes (C38_zero_threads_hang)."
  },
  {
   "property": "C53",
   "status": "proved",
   "theorems": [
    "C53_destructor_callbacks",
    "C53_destructor_terminates"
   ],
   "note": ""
  },
  {
   "property": "C54",
   "status": "proved",
   "theorems": [
    "C54_no_lost_wakeup"
   ],
   "note": ""
  },
  {
   "property": "C55",
   "status": "proved",
   "theorems": [
    "C55_order"
   ],
   "note": ""
  },
  {
   "property": "C42",
   "status": "proved",
   "theorems": [
    "C42_ocl_decodes_like_software",
    "C42_ocl_core_exact",
    "C42_ocl_core_too_small",
    "C42_ocl_kernel_decodes_every_chunk"
   ],
   "note": "For separate buffers with compressed sizes and capacities supplied; each work item runs without interruption here, C84 has the interleavings."
  },
  {
   "property": "C43",
   "status": "partial",
   "theorems": [
    "C43_ocl_in_bounds_refuted",
    "C43_ocl_ragged_input_refuted",
    "C43_ocl_in_bounds_partial",
    "C43_overread_only_when_full"
   ],
   "note": "False of the code in two cases: an index to the last two bytes of a full output chunk reads two bytes behind it, and a compressed size that is not a multiple of 8 makes the kernel read up to 7 bytes behind the input. The partial theorem shows that nothing else is accessed. C43_overread_only_when_full: the first case occurs only when the output is full, and never on the way to a success."
  },
  {
   "property": "C44",
   "status": "partial",
   "theorems": [
    "C44_ocl_maybe_compressed_partial",
    "C44_ocl_packed_exact",
    "C44_ocl_raw_marker_chunk_refuted",
    "C44_ocl_marked_chunks_dropped_refuted"
   ],
   "note": "Proved for raw chunks that do not start with the marker and, exactly (success, size and errors), for packed chunks. Refuted for raw chunks that start with the marker; those with eight zero bytes after it are all reported as decompressed while the output keeps its old content."
  },
  {
   "property": "C56",
   "status": "proved",
   "theorems": [
    "C56_ocl_schedule_independent"
   ],
   "note": "Each work item runs without interruption here; C84 has the interleavings."
  },
  {
   "property": "C57",
   "status": "partial",
   "theorems": [
    "C57_ocl_crc_enforced_refuted",
    "C57_crc_ignored_refuted"
   ],
   "note": "False of the code: the comparison is disabled; every stream with a wrong CRC is accepted."
  },
  {
   "property": "C58",
   "status": "partial",
   "theorems": [
    "C58_cl842_decompress_exact_partial",
    "C58_cl842_decompress_large_input_refuted"
   ],
   "note": "Proved for 1 to 99999 bytes of input in whole words. Above that the function is undefined; an empty input gives -ENOMEM (C58_case)."
  },
  {
   "property": "C45",
   "status": "proved",
   "theorems": [
    "C45_all_decompressors_agree"
   ],
   "note": "Streams denoting up to UINT_MAX bytes (the limit of sw842_decompress). The OpenCL and CUDA decoders ignore the CRC (C57)."
  },
  {
   "property": "C59",
   "status": "partial",
   "theorems": [
    "C59_cuda_decodes_every_chunk_partial",
    "C59_cuda_round_trip_partial",
    "C59_cuda_many_chunks_refuted"
   ],
   "note": "Proved for up to 2^24 chunks. Refuted beyond: the products of the thread number are 32-bit."
  },
  {
   "property": "C60",
   "status": "partial",
   "theorems": [
    "C60_cuda_malformed_in_bounds_refuted",
    "C60_cuda_chunk_confined_refuted",
    "C60_every_long_chunk_overruns_refuted"
   ],
   "note": "False of the code: the kernel checks nothing; every stream for more than 1024 bytes overwrites the next chunk."
  },
  {
   "property": "C61",
   "status": "proved",
   "theorems": [
    "C61_sw842_shortest",
    "C61_sw842_vs_optsw842",
    "C61_sw842_fits_where_optsw842_fits",
    "C61_zero_pairs_cost"
   ],
   "note": "The exception for zero blocks is needed (C61_zero_pairs_cost)."
  },
  {
   "property": "C62",
   "status": "proved",
   "theorems": [
    "C62_optsw842_cheapest_template"
   ],
   "note": ""
  },
  {
   "property": "C65",
   "status": "partial",
   "theorems": [
    "C65_optsw842_shortest_partial",
    "C65_optsw842_shortest_refuted"
   ],
   "note": "Proved for data without zero blocks whose pieces do not share slots of the hash tables. False in general: a value that was entered later in the same slot hides an earlier one."
  },
  {
   "property": "C63",
   "status": "proved",
   "theorems": [
    "C63_hls_tokens",
    "C63_tokens_unique",
    "C63_hls_stream"
   ],
   "note": "A truncated transfer is not reported: it ends with a supplied end token."
  },
  {
   "property": "C64",
   "status": "partial",
   "theorems": [
    "C64_hls_consumes_transfer_partial",
    "C64_unread_elements",
    "C64_missing_last",
    "C64_hls_long_padding_refuted"
   ],
   "note": "Proved for less than 16 bytes of padding. C64_missing_last: without the flag last, the front end waits for ever exactly if fewer than 133 bits follow the end of the stream. C64_unread_elements gives the exact number of elements left for any padding: none exactly up to 228 bits behind the CRC."
  },
  {
   "property": "C66",
   "status": "proved",
   "theorems": [
    "C66_branch_free_decompress_same",
    "C66_branch_free_decompress_in_bounds",
    "C66_branch_free_compress_same"
   ],
   "note": "For every result of a 64-bit shift by 64 (C67)."
  },
  {
   "property": "C67",
   "status": "partial",
   "theorems": [
    "C67_zeros_partial",
    "C67_branch_free_defined_refuted",
    "C67_non_zero_start_refuted"
   ],
   "note": "False of the code: absent fields are read with a shift by 64, and the literal template shifts by 64. The compressor is undefined on every input that starts with a non-zero block; proved for inputs of zeros."
  },
  {
   "property": "C68",
   "status": "partial",
   "theorems": [
    "C68_inplace_decompresses_partial",
    "C68_inplace_small_chunks",
    "C68_inplace_core_partial",
    "C68_inplace_catches_up_refuted",
    "C68_gaps_refuted"
   ],
   "note": "Proved for chunks whose output does not overtake the input, which includes all chunks of up to 560 bytes. Refuted in general: silent corruption; with room between the chunks also a dependence on the order of the work items."
  },
  {
   "property": "C69",
   "status": "partial",
   "theorems": [
    "C69_inplace_ends_in_bounds",
    "C69_inplace_header_refuted"
   ],
   "note": "Proved for the decoding of a chunk with any content; refuted for a size field larger than the chunk."
  },
  {
   "property": "C70",
   "status": "partial",
   "theorems": [
    "C70_optional_arrays_partial",
    "C70_well_formed_chunks",
    "C70_sizes_left_out_refuted"
   ],
   "note": "Proved for chunks with 48 more bytes of buffer behind their compressed data when its size is left out. Refuted without: the kernel reads ahead behind the buffer."
  },
  {
   "property": "C71",
   "status": "partial",
   "theorems": [
    "C71_sample_round_trip",
    "C71_marked_chunk_refuted",
    "C71_short_file"
   ],
   "note": "Proved for the two formats ALWAYS and MAYBE, chunks of at least 72 bytes that in the mixed format do not start with the marker; refuted for such a chunk. In-place format: see C68."
  },
  {
   "property": "C72",
   "status": "partial",
   "theorems": [
    "C72_return_values_refuted",
    "C72_shuffle_map_refuted",
    "C72_declared_partial",
    "C72_definition_order_partial",
    "C72_definition_order_any_partial"
   ],
   "note": "False of the code: declaration and definition have the two parameters in different order. Proved for calls without both, and for calls in the order of the definition."
  },
  {
   "property": "C73",
   "status": "proved",
   "theorems": [
    "C73_chunked",
    "C73_chunked_limits",
    "C73_driver_error",
    "C73_single",
    "C73_single_limits",
    "C73_entry_points",
    "C73_library_as_driver"
   ],
   "note": "The driver is a parameter; C73_library_as_driver shows that the software functions meet what is assumed of it."
  },
  {
   "property": "C74",
   "status": "partial",
   "theorems": [
    "C74_contexts_partial",
    "C74_nothing_left_partial",
    "C74_context_kept",
    "C74_setup_failure_reported",
    "C74_key_failure_refuted",
    "C74_no_session_info_refuted"
   ],
   "note": "Proved when the thread-specific key can be created. Refuted otherwise: the error is overwritten by 0 and the key is used. Without CIOCGSESSINFO the alignment is read uninitialised."
  },
  {
   "property": "C75",
   "status": "partial",
   "theorems": [
    "C75_right_program_partial",
    "C75_run_ends",
    "C75_second_run_uses_cache",
    "C75_unwritable_refuted",
    "C75_damaged_file_refuted",
    "C75_two_processes_refuted",
    "C75_same_configuration_refuted",
    "C75_checksum_refuted"
   ],
   "note": "Proved for runs one after the other, with crashes at any point, for sources with different checksums. Refuted for processes at the same time, for a file that cannot be written or is damaged, and for equal checksums."
  },
  {
   "property": "C76",
   "status": "partial",
   "theorems": [
    "C76_literal_denotes_text",
    "C76_c_string_is_text",
    "C76_trigraphs_refuted",
    "C76_missing_input_refuted"
   ],
   "note": "Proved for every text (as a C string: without zero bytes; with trigraphs: without ??). Refuted: a missing input file gives an empty kernel and success."
  },
  {
   "property": "C77",
   "status": "partial",
   "theorems": [
    "C77_sample_succeeds",
    "C77_sample_size",
    "C77_padding",
    "C77_empty_file_refuted"
   ],
   "note": "Proved for every file that is not empty (chunk size any power of two from 8 on). Refuted for the empty file: failure with sw842, a read outside the buffer with optsw842."
  },
  {
   "property": "C78",
   "status": "partial",
   "theorems": [
    "C78_spread_partial",
    "C78_balanced_partial",
    "C78_gap_refuted",
    "C78_failure_stops"
   ],
   "note": "Proved for machines whose CPUs are numbered below the number of online CPUs and whose usable nodes all have one. Refuted otherwise: with a gap in the numbers a node's CPU set can be empty, and the first failure leaves all later threads unbound."
  },
  {
   "property": "C79",
   "status": "partial",
   "theorems": [
    "C79_static_log2_partial",
    "C79_small_refuted",
    "C79_exact"
   ],
   "note": "Proved for 4 <= n < 2^32. Refuted for 1 (-1), 2 and 3 (0). C79_exact: it holds for exactly those numbers."
  },
  {
   "property": "C80",
   "status": "partial",
   "theorems": [
    "C80_streams_restore",
    "C80_never_stuck",
    "C80_bounded",
    "C80_can_return",
    "C80_program",
    "C80_size",
    "C80_assertions_refuted",
    "C80_assertions_always_abort_refuted",
    "C80_empty_file_refuted"
   ],
   "note": "Proved for every input if assertions are off, and with assertions for inputs all of whose chunks are compressed. With assertions and a chunk that cannot be compressed the program always aborts (C35). An empty file makes the program fail."
  },
  {
   "property": "C81",
   "status": "partial",
   "theorems": [
    "C81_software_alignment",
    "C81_hw_descriptor_stable",
    "C81_hw_buffers_accepted",
    "C81_hw_alignment_partial",
    "C81_hw_alignment_exact",
    "C81_hw_first_failure_refuted",
    "C81_aix_refuted"
   ],
   "note": "Holds for the software implementations, and for the hardware one if the first request for the descriptor could open the device. After a first failure the required alignment stays 65536. The AIX descriptor requires 4096 but prefers 128."
  },
  {
   "property": "C82",
   "status": "partial",
   "theorems": [
    "C82_aix_chunked_partial",
    "C82_large_offsets_refuted"
   ],
   "note": "Proved for offsets below 2^32; beyond them the offsets wrap as in C28."
  },
  {
   "property": "C83",
   "status": "partial",
   "theorems": [
    "C83_cuda_any_interleaving_partial",
    "C83_cuda_more_chunks"
   ],
   "note": "Proved for up to 2^24 chunks; for up to 2^25 chunks it is proved that thread c decompresses input chunk c mod 2^24 (so the property fails there, C59)."
  },
  {
   "property": "C84",
   "status": "proved",
   "theorems": [
    "C84_ocl_any_interleaving"
   ],
   "note": "With two bytes of memory behind the last chunk (C43)."
  },
  {
   "property": "C85",
   "status": "partial",
   "theorems": [
    "C85_ocl_no_race_partial",
    "C85_ocl_race_refuted"
   ],
   "note": "There is no race if every chunk decompresses, and no two work items ever write the same byte. Refuted otherwise: after an output that fills its chunk, an index to its last two bytes makes the work item read the first two bytes of the next chunk (the value is not used: C84)."
  },
  {
   "property": "C86",
   "status": "partial",
   "theorems": [
    "C86_compression_races_partial",
    "C86_decompression_races_partial",
    "C86_compression_race_refuted",
    "C86_decompression_race_refuted",
    "C86_accesses_of_threads",
    "C86_accesses_of_calls"
   ],
   "note": "The only race is on the flag by which the destructor stops the threads: they read it in the condition of their loop without the mutex under which the destructor writes it (refuted; genuine). All other accesses of threads and user are ordered, for the destination of decompression provided that no block is pushed twice."
  },
  {
   "property": "C87",
   "status": "proved",
   "theorems": [
    "C87_optional_arrays",
    "C87_optional_interleaved"
   ],
   "note": ""
  },
  {
   "property": "C88",
   "status": "partial",
   "theorems": [
    "C88_any_content_partial",
    "C88_without_sizes_refuted",
    "C88_other_chunk_refuted",
    "C88_every_long_chunk_overruns_refuted"
   ],
   "note": "With the output sizes (return values or not) it holds for every content and interleaving. Without output sizes the kernel uses SIZE_MAX as bound: a chunk that decompresses to more than its size writes behind the buffer, or over a neighbouring good chunk with all return values 0 (refuted; genuine). C88_every_long_chunk_overruns_refuted: this is so for every chunk that denotes more than its size and every memory: all of it is written, over what follows, and the return value is 0."
  },
  {
   "property": "C89",
   "status": "partial",
   "theorems": [
    "C89_numa_sample_succeeds",
    "C89_whole_file",
    "C89_empty_file_refuted",
    "C89_different_nodes_refuted",
    "C89_unequal_nodes_refuted",
    "C89_large_file_refuted"
   ],
   "note": "Proved as stated. Beyond the stated domain it fails: an empty file and nodes with different numbers of threads lead to accesses outside the buffers (C89_unequal_nodes_refuted: on every such machine); of a file of 4 GiB and n bytes only about n bytes are handled although the program reports success (refuted; genuine)."
  },
  {
   "property": "C90",
   "status": "proved",
   "theorems": [
    "C90_workspace",
    "C90_next_pow2_wraps"
   ],
   "note": ""
  },
  {
   "property": "C91",
   "status": "partial",
   "theorems": [
    "C91_unified_succeeds",
    "C91_succeeds_partial",
    "C91_fixed_string",
    "C91_large_file_refuted",
    "C91_empty_file_refuted"
   ],
   "note": "Proved as stated. Beyond: without unified memory a file of more than 16 GiB is not restored, an empty file is undefined behaviour (refuted; genuine)."
  },
  {
   "property": "C92",
   "status": "proved",
   "theorems": [
    "C92_cpu_sample",
    "C92_streams_sample",
    "C92_streams_program",
    "C92_numa_sample"
   ],
   "note": "The input is the file padded with zeros; for the NUMA samples the handled part of the file (C89)."
  },
  {
   "property": "C93",
   "status": "proved",
   "theorems": [
    "C93_sw842_compress_memory",
    "C93_optsw842_compress_memory"
   ],
   "note": "The bound is on the number of blocks; the hash table of uthash with its buckets counts as one. For an empty input at aligned pointers optsw842_compress has undefined behaviour, see C18."
  },
  {
   "property": "C94",
   "status": "partial",
   "theorems": [
    "C94_out_of_memory_is_reported_refuted",
    "C94_out_of_memory_is_reported_partial",
    "C94_optsw842_out_of_memory_partial"
   ],
   "note": "Refuted: the results of malloc are not checked, a null pointer is written through (uthash ends the program). Proved: never a wrong result or a leak."
  },
  {
   "property": "C95",
   "status": "proved",
   "theorems": [
    "C95_devices",
    "C95_devices_any"
   ],
   "note": "The OpenCL runtime is an arbitrary function from queries to answers."
  },
  {
   "property": "C96",
   "status": "partial",
   "theorems": [
    "C96_single_chunks",
    "C96_condensed_partial",
    "C96_condensed_refuted",
    "C96_condensed_batches_refuted",
    "C96_honest"
   ],
   "note": "Proved for CHUNKS_PER_BATCH = 1, with CONDENSE if all chunks can be compressed. Refuted: with CONDENSE a chunk that cannot be compressed makes the program copy SIZE_MAX bytes; with CONDENSE and batches the library looks for the chunks at multiples of the chunk size, where they no longer are."
  },
  {
   "property": "C97",
   "status": "partial",
   "theorems": [
    "C97_program_succeeds",
    "C97_other_formats_partial",
    "C97_inplace_small_chunks",
    "C97_marked_chunk_refuted",
    "C97_inplace_refuted",
    "C97_size",
    "C97_program_honest",
    "C97_empty_file_refuted"
   ],
   "note": "Proved for the default format, and for the other two if no chunk that is stored as it is starts with the marker and, in place, the output does not catch up with the input. Refuted: witnesses for both conditions; the empty file is undefined behaviour; the size is wrong from 2 GiB on (C97_size is an equivalence)."
  },
  {
   "property": "C98",
   "status": "partial",
   "theorems": [
    "C98_default",
    "C98_output",
    "C98_input",
    "C98_checked",
    "C98_unchecked",
    "C98_unchecked_same",
    "C98_without_crc_same",
    "C98_round_trip",
    "C98_missing_crc",
    "C98_unaligned_without_crc_refuted",
    "C98_unchecked_refuted",
    "C98_unchecked_size_refuted"
   ],
   "note": "Proved for all settings with the CRC written wherever it is checked. Refuted: with DISABLE_CRC on both sides the round trip fails if only the decompression uses unaligned buffers, as the software codec that stands in ignores the switch; without the error checks, invalid inputs are undefined behaviour and *olen is ignored."
  },
  {
   "property": "C99",
   "status": "partial",
   "theorems": [
    "C99_default",
    "C99_lookahead",
    "C99_exact",
    "C99_bounds",
    "C99_unchecked_same",
    "C99_unchecked",
    "C99_without_crc_same",
    "C99_round_trip",
    "C99_lookahead_refuted",
    "C99_unchecked_refuted",
    "C99_missing_crc_refuted"
   ],
   "note": "Proved for all settings that compile. Refuted: with the lookahead (the setting of the repository) a chunk whose size is no multiple of 8, or is absent, is read behind the end of its buffer; without the error checks invalid chunks are read and written outside their buffers or yield old memory; a kernel that reads a CRC rejects some chunks written without."
  },
  {
   "property": "C100",
   "status": "partial",
   "theorems": [
    "C100_decodes",
    "C100_launch",
    "C100_strict_kernel",
    "C100_wrong_output_refuted",
    "C100_out_of_bounds_refuted"
   ],
   "note": "Proved: the non-strict kernel decodes its own format; the strict kernel decodes the output of every build of the compressor. Refuted: the non-strict kernel does not decode what the compressor writes with either setting; it yields wrong bytes without an error, or reads or writes outside its buffers. Nothing in the repository writes the format it reads."
  },
  {
   "property": "C101",
   "status": "proved",
   "theorems": [
    "C101_contract",
    "C101_strict_output",
    "C101_strict_round_trip",
    "C101_not_strict_output"
   ],
   "note": ""
  },
  {
   "property": "C102",
   "status": "proved",
   "theorems": [
    "C102_size"
   ],
   "note": ""
  },
  {
   "property": "C103",
   "status": "partial",
   "theorems": [
    "C103_recurring_partial",
    "C103_periodic_partial",
    "C103_zeros_between_refuted"
   ],
   "note": "Proved for every data without zero blocks (C103_recurring_partial), with periodic data as a closed form (C103_periodic_partial). The property does not hold of the code with zero blocks between: C103_zeros_between_refuted, for every such data."
  },
  {
   "property": "C104",
   "status": "proved",
   "theorems": [
    "C104_program_prints_tokens",
    "C104_lines_determine_tokens"
   ],
   "note": ""
  },
  {
   "property": "C105",
   "status": "partial",
   "theorems": [
    "C105_compress_tests",
    "C105_three_bytes_refuted",
    "C105_empty_pattern_refuted",
    "C105_ragged_test",
    "C105_decompress_tests",
    "C105_crc_test",
    "C105_invalid_test",
    "C105_bounds_test",
    "C105_diffuse_test",
    "C105_diffuse_converges",
    "C105_diffuse_not_sooner",
    "C105_fuzz_test_optsw",
    "C105_fuzz_test_sw",
    "C105_fuzz_program_refuted"
   ],
   "note": "false in three cases, each stated exactly: a pattern of three bytes does not fit into the buffer of the programs; with optsw the test of the empty pattern has undefined behaviour (C18); with sw the fuzz test has undefined behaviour for streams that repeat after less than 8 bytes (C06), among them one of the program's own"
  },
  {
   "property": "C106",
   "status": "proved",
   "theorems": [
    "C106_sw842_larger_buffer",
    "C106_sw842_enough",
    "C106_optsw842_larger_buffer",
    "C106_optsw842_enough",
    "C106_ocl_larger_buffer",
    "C106_ocl_enough"
   ],
   "note": "For both software decompressors and one chunk on the OpenCL device. An input that is undefined behaviour (C06) with one capacity is so with every larger one."
  },
  {
   "property": "C107",
   "status": "proved",
   "theorems": [
    "C107_sw842_decompress_bound",
    "C107_optsw842_decompress_bound",
    "C107_ocl_bound",
    "C107_sw842_compress_bound",
    "C107_optsw842_compress_bound",
    "C107_attained"
   ],
   "note": "For both software implementations and one chunk on the OpenCL device. optsw842 in aligned buffers; in others it is sw842 (C23). C107_attained shows that the factor cannot be smaller; it is about outputs up to UINT_MAX because of C46."
  },
  {
   "property": "C108",
   "status": "proved",
   "theorems": [
    "C108_sw842_append",
    "C108_sw842_append_no_space",
    "C108_optsw842_append",
    "C108_whole_blocks_needed"
   ],
   "note": "optsw842_compress in aligned buffers, whole blocks (it refuses others). C108_whole_blocks_needed: without the condition that the first part consists of whole blocks the claim fails."
  },
  {
   "property": "C109",
   "status": "proved",
   "theorems": [
    "C109_sw842_chunked_round_trip",
    "C109_mixed_chunked_round_trip",
    "C109_aix_chunked_round_trip",
    "C109_hw_chunked_round_trip"
   ],
   "note": "The AIX and cryptodev theorems take the functions of the operating system and the device as parameters. The property is stated for offsets below 2^32, because C28 is false above; round_trip and chunk_of in SpecChunkedTrip.v spell out both calls."
  }
 ]
}