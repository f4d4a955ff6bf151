{
 "claims": [
  {
   "property": "C01",
   "status": "proved",
   "theorems": [
    "C01_varint_round_trip",
    "C01_varint_prefix_code"
   ],
   "note": ""
  },
  {
   "property": "C02",
   "status": "proved",
   "theorems": [
    "C02_signed_varint_round_trip"
   ],
   "note": ""
  },
  {
   "property": "C03",
   "status": "proved",
   "theorems": [
    "C03_reader_decodes_writer_varints"
   ],
   "note": ""
  },
  {
   "property": "C04",
   "status": "proved",
   "theorems": [
    "C04_varint_decoding_total"
   ],
   "note": ""
  },
  {
   "property": "C05",
   "status": "proved",
   "theorems": [
    "C05_delta_round_trip"
   ],
   "note": ""
  },
  {
   "property": "C06",
   "status": "proved",
   "theorems": [
    "C06_stat_conversion",
    "C06_stat_conversion_refuted"
   ],
   "note": "true for every value but the minimum int64, for which it is refuted by a concrete case"
  },
  {
   "property": "C07",
   "status": "proved",
   "theorems": [
    "C07_blocks_read_back",
    "C07_no_faults_no_errors"
   ],
   "note": ""
  },
  {
   "property": "C08",
   "status": "proved",
   "theorems": [
    "C08_single_delta_reads_back_coded",
    "C08_varint_id_reads_back_summed",
    "C08_varint_value_reads_back_values",
    "C08_half_varint_refuses_small",
    "C08_every_encoding_reads_back_refuted"
   ],
   "note": "the claim is false of the code for encodings 1,2,5,6 (concrete counterexamples); for 1,2,5,6 exactly what is stored and what is read back instead, and that 5,6 refuse every block of ordinary magnitude with the size-mismatch error; C07 covers the other four"
  },
  {
   "property": "C09",
   "status": "proved",
   "theorems": [
    "C09_metadata"
   ],
   "note": ""
  },
  {
   "property": "C10",
   "status": "proved",
   "theorems": [
    "C10_layout"
   ],
   "note": ""
  },
  {
   "property": "C11",
   "status": "proved",
   "theorems": [
    "C11_estimate_exact"
   ],
   "note": ""
  },
  {
   "property": "C12",
   "status": "proved",
   "theorems": [
    "C12_target_respected"
   ],
   "note": ""
  },
  {
   "property": "C13",
   "status": "proved",
   "theorems": [
    "C13_partial_writes_exact"
   ],
   "note": ""
  },
  {
   "property": "C14",
   "status": "proved",
   "theorems": [
    "C14_bad_blocks_refused"
   ],
   "note": ""
  },
  {
   "property": "C15",
   "status": "proved",
   "theorems": [
    "C15_simple_writer_read_back",
    "C15_simple_writer_no_errors"
   ],
   "note": "Sorting (sort.Slice) is an argument constrained only to return an ordered permutation."
  },
  {
   "property": "C16",
   "status": "proved",
   "theorems": [
    "C16_accounting"
   ],
   "note": ""
  },
  {
   "property": "C17",
   "status": "proved",
   "theorems": [
    "C17_close_closes",
    "C17_closed_is_inert"
   ],
   "note": ""
  },
  {
   "property": "C18",
   "status": "proved",
   "theorems": [
    "C18_target_independent"
   ],
   "note": ""
  },
  {
   "property": "C19",
   "status": "proved",
   "theorems": [
    "C19_footer_exact"
   ],
   "note": "Every encoding; hypothesis no_min_stat is the condition in the property."
  },
  {
   "property": "C20",
   "status": "proved",
   "theorems": [
    "C20_footer_scan_agree",
    "C20_min_value_refuted",
    "C20_delta_id_refuted"
   ],
   "note": "Agreement proved for the four faithful encodings without a minimum-int64 statistic; the unconditional claim is refuted by machine-checked counterexamples."
  },
  {
   "property": "C21",
   "status": "proved",
   "theorems": [
    "C21_filtered_exact"
   ],
   "note": "Sequential path; C24 extends it to every worker count and schedule."
  },
  {
   "property": "C22",
   "status": "proved",
   "theorems": [
    "C22_pruning"
   ],
   "note": ""
  },
  {
   "property": "C23",
   "status": "proved",
   "theorems": [
    "C23_filter_algebra",
    "C23_partition",
    "C23_complement",
    "C23_own_bitmap"
   ],
   "note": ""
  },
  {
   "property": "C24",
   "status": "proved",
   "theorems": [
    "C24_parallel_is_sequential"
   ],
   "note": "All eight encodings, every option set, worker count, GOMAXPROCS and schedule."
  },
  {
   "property": "C25",
   "status": "proved",
   "theorems": [
    "C25_parallel_terminates"
   ],
   "note": ""
  },
  {
   "property": "C26",
   "status": "proved",
   "theorems": [
    "C26_empty_results",
    "C26_min_max_refuted"
   ],
   "note": "Count, Sum, Avg proved zero; Min/Max proved to be one of two conventions, and the claim that they agree is refuted."
  },
  {
   "property": "C27",
   "status": "proved",
   "theorems": [
    "C27_newest_file_wins",
    "C27_torn_file_refuted"
   ],
   "note": "Proved for files without half-written blocks and for every cache state; a file with a block that failed half way hides older values without replacing them (refuted)."
  },
  {
   "property": "C28",
   "status": "proved",
   "theorems": [
    "C28_global_ids"
   ],
   "note": ""
  },
  {
   "property": "C29",
   "status": "proved",
   "theorems": [
    "C29_caching_invisible",
    "C29_always_the_stored_ids",
    "C29_changed_bitmap_refuted"
   ],
   "note": "Holds as long as the caller does not change a returned bitmap; with caching on a caller's change leaks into later answers (refuted)."
  },
  {
   "property": "C30",
   "status": "proved",
   "theorems": [
    "C30_foreign_files_rejected"
   ],
   "note": "All byte strings."
  },
  {
   "property": "C31",
   "status": "proved",
   "theorems": [
    "C31_unfinalized_rejected"
   ],
   "note": "The exception is characterised and shown to occur (C31_exception)."
  },
  {
   "property": "C32",
   "status": "proved",
   "theorems": [
    "C32_torn_rejected_refuted",
    "C32_torn_rejected"
   ],
   "note": "The property as stated is false of the code (C32_torn_rejected_refuted); C32_torn_rejected proves it for files whose data does not spell the magic number. C58 says what a crash anywhere leaves."
  },
  {
   "property": "C33",
   "status": "proved",
   "theorems": [
    "C33_no_panic",
    "C33_getpairs_refuted",
    "C33_parallel_refuted",
    "C33_deny_refuted"
   ],
   "note": "No panic under the stated conditions; counterexamples without them."
  },
  {
   "property": "C34",
   "status": "proved",
   "theorems": [
    "C34_pairs",
    "C34_varint_refuted"
   ],
   "note": ""
  },
  {
   "property": "C35",
   "status": "proved",
   "theorems": [
    "C35_raw_data_is_from_file",
    "C35_invented_ids_refuted",
    "C35_past_end_refuted"
   ],
   "note": ""
  },
  {
   "property": "C36",
   "status": "proved",
   "theorems": [
    "C36_changes_detected_refuted",
    "C36_detected"
   ],
   "note": "Changes of stored values are never noticed (C36_changes_detected_refuted, for every value of every raw file). C36_detected says what is noticed: the 12 first and 8 last bytes, and up to 7 bytes lost or added at the end. C79 says how far other damage reaches."
  },
  {
   "property": "C37",
   "status": "proved",
   "theorems": [
    "C37_finalize_after_failures"
   ],
   "note": ""
  },
  {
   "property": "C38",
   "status": "proved",
   "theorems": [
    "C38_retry_reads_back",
    "C38_offset_after_failure",
    "C38_retry_refuted",
    "C38_retry_ids_refuted"
   ],
   "note": "The claim is false when the failure hits the rewriting of the header (two refutations); proved for every other failure point, and the histories of all other theorems include such failures."
  },
  {
   "property": "C39",
   "status": "proved",
   "theorems": [
    "C39_nothing_lost",
    "C39_duplicates_refuted"
   ],
   "note": "The property is false as first stated (counterexample proved); the half that holds, no pair is ever lost, is proved for all fault patterns in Writes."
  },
  {
   "property": "C40",
   "status": "proved",
   "theorems": [
    "C40_closed_writer_inert"
   ],
   "note": ""
  },
  {
   "property": "C41",
   "status": "proved",
   "theorems": [
    "C41_finalize_again",
    "C07_blocks_read_back"
   ],
   "note": ""
  },
  {
   "property": "C42",
   "status": "proved",
   "theorems": [
    "C42_out_of_range_is_error"
   ],
   "note": ""
  },
  {
   "property": "C43",
   "status": "proved",
   "theorems": [
    "C43_average_nearest",
    "C43_multi_average_nearest",
    "C43_average_general",
    "C43_large_refuted"
   ],
   "note": "Avg is the binary64 number nearest (ties to even) to Sum/Count as reported, for every reader, option set, worker count and schedule, and for multi-file aggregation, when |Sum| and Count are at most 2^53; beyond that each of the two conversions rounds too, and the result need not be nearest (refuted with a witness). Uses Flocq's theorems and the standard library's Reals axioms."
  },
  {
   "property": "C44",
   "status": "proved",
   "theorems": [
    "C44_reproducible",
    "C44_simple_reproducible",
    "C44_reads_back"
   ],
   "note": "Any two runs of the same calls at different times, under any common fault sequence: same outcomes, files equal outside bytes 36-43 (no other hypothesis); and any change of these bytes leaves every reader answer (pairs, aggregates under every schedule, global IDs, metadata) unchanged."
  },
  {
   "property": "C45",
   "status": "proved",
   "theorems": [
    "C45_statistics_true"
   ],
   "note": ""
  },
  {
   "property": "C46",
   "status": "proved",
   "theorems": [
    "C46_write_reads_back",
    "C46_write_succeeds",
    "C46_bad_arguments",
    "C46_dump",
    "C46_statistics",
    "C46_no_crash",
    "C46_crash_refuted",
    "C46_notation"
   ],
   "note": "Model of cmd/vibecol/main.go runWrite and runRead, over the writer and reader models. Proved for every argument text, clock, I/O failure (write) and file (read). Not modelled: flag parsing, the wording of error messages, TrimSpace beyond ASCII, the %.2f format (a parameter). Refuted part: a crafted file with an index entry under 80 bytes crashes read -dump."
  },
  {
   "property": "C47",
   "status": "proved",
   "theorems": [
    "C47_close_closes_all",
    "C47_closed_aggregate_fails",
    "C47_cached_refuted"
   ],
   "note": "Readers as opened; false with a cached bitmap (refuted)."
  },
  {
   "property": "C48",
   "status": "proved",
   "theorems": [
    "C48_closed_reader_answers",
    "C48_errors_reported_refuted"
   ],
   "note": ""
  },
  {
   "property": "C49",
   "status": "proved",
   "theorems": [
    "C49_scan_takes_readable_blocks"
   ],
   "note": ""
  },
  {
   "property": "C50",
   "status": "proved",
   "theorems": [
    "C50_torn_block_poisons"
   ],
   "note": "stated as the fact that holds (every history); the hoped-for recovery is false; C50_case shows a run that meets the hypotheses"
  },
  {
   "property": "C51",
   "status": "proved",
   "theorems": [
    "C51_shared_reader",
    "C51_wait_free",
    "C51_in_order",
    "C51_close_and_disable",
    "C51_read_back",
    "C51_global_ids",
    "C51_nil_bitmap_refuted",
    "C51_close_refuted"
   ],
   "note": "sequential consistency of single-word accesses assumed (the code has no synchronisation there); parallel aggregations as in C24"
  },
  {
   "property": "C52",
   "status": "proved",
   "theorems": [
    "C52_torn_header_keeps_data",
    "C52_lost_header_hides_ids",
    "C52_torn_footer_refuted"
   ],
   "note": "The refuted part is the claim that a file torn by a power failure during Finalize is rejected."
  },
  {
   "property": "C53",
   "status": "proved",
   "theorems": [
    "C53_index_size",
    "C53_bounded_memory_refuted"
   ],
   "note": "Holds for written files; refuted for arbitrary accepted files."
  },
  {
   "property": "C54",
   "status": "proved",
   "theorems": [
    "C54_import_complete",
    "C54_import_succeeds",
    "C54_value_bounds",
    "C54_generator",
    "C54_no_ids_crash",
    "C54_max_value_refuted",
    "C54_small_max_refuted"
   ],
   "note": "math/rand is an arbitrary sequence of numbers; flag parsing and timing output are not modelled"
  },
  {
   "property": "C55",
   "status": "proved",
   "theorems": [
    "C55_example_round_trip",
    "C55_formats_disjoint",
    "C55_accepted_files",
    "C55_dump_complete_refuted",
    "C55_footer_size_refuted",
    "C55_write_errors_refuted"
   ],
   "note": "CRC-64 is an arbitrary function; text layout and flag parsing are not modelled"
  },
  {
   "property": "C56",
   "status": "proved",
   "theorems": [
    "C56_debug_info",
    "C56_any_file",
    "C56_hexadecimal",
    "C56_min_refuted"
   ],
   "note": "Full for blocks without a minimum-int64 statistic; the exception is refuted."
  },
  {
   "property": "C57",
   "status": "proved",
   "theorems": [
    "C57_two_decimals",
    "C57_printed_average",
    "C57_read_average",
    "C57_tie_refuted"
   ],
   "note": "strconv's formatting is modelled as exact half-even rounding of the double's value; correct rounding of the exact quotient is refuted."
  },
  {
   "property": "C58",
   "status": "proved",
   "theorems": [
    "C58_crash_anywhere",
    "C58_atomic",
    "C58_crash_in_create",
    "C58_resume_refuted"
   ],
   "note": "Crashes of the process (completed writes survive); power failures are C52. The clause on resuming after Finalize is refuted. Atomicity holds when the magic number does not occur inside the file; the exact exception is stated."
  },
  {
   "property": "C59",
   "status": "proved",
   "theorems": [
    "C59_crash_anywhere",
    "C59_all_or_nothing"
   ],
   "note": "Runs whose undisturbed version has no failing call (guaranteed by C15_simple_writer_no_errors)."
  },
  {
   "property": "C60",
   "status": "proved",
   "theorems": [
    "C60_open_while_writing",
    "C60_open_simple",
    "C60_resume_refuted"
   ],
   "note": "NewReader racing with a Writer or SimpleWriter, every interleaving down to bytes; starts after NewWriter has returned. C60_resume_refuted: a writer that goes on after Finalize lets a concurrent NewReader mix the new header with the old footer."
  },
  {
   "property": "C61",
   "status": "proved",
   "theorems": [
    "C61_reads_right_or_error",
    "C61_aggregate_of_what_was_read",
    "C61_unaffected",
    "C61_no_outdated_values",
    "C61_errors_reported_refuted"
   ],
   "note": "Which reads fail is a function of offset and size, arbitrary in each call. The claim that an aggregation reports unreadable blocks is refuted."
  },
  {
   "property": "C62",
   "status": "proved",
   "theorems": [
    "C62_snapshot",
    "C62_blocks",
    "C62_multi",
    "C62_frame",
    "C62_header_fault_refuted",
    "C62_replaced_refuted"
   ],
   "note": "snapshot under any later use of the writer (failures, interruptions, mixed moments); data form; several files; frame; refutations: header fault in a later Finalize, file recreated in place"
  },
  {
   "property": "C63",
   "status": "proved",
   "theorems": [
    "C63_write_then_read",
    "C63_write_succeeds",
    "C63_only_the_output",
    "C63_other_arguments",
    "C63_statistics",
    "C63_no_crash",
    "C63_file_argument_refuted"
   ],
   "note": "main of vibecol with flag parsing; spellings as a relation; refutation: a positional file name is ignored"
  },
  {
   "property": "C64",
   "status": "proved",
   "theorems": [
    "C64_example_output",
    "C64_example_succeeds"
   ],
   "note": "The text is a literal in FilterSpec.v."
  },
  {
   "property": "C65",
   "status": "proved",
   "theorems": [
    "C65_writer_never_panics",
    "C65_simple_never_panics",
    "C65_items_written"
   ],
   "note": "No hypothesis on arguments or failures. Out of memory is not modelled."
  },
  {
   "property": "C66",
   "status": "proved",
   "theorems": [
    "C66_interchangeable",
    "C66_compaction",
    "C66_last_put_wins"
   ],
   "note": "Min and Max of a result with Count 0 are not compared."
  },
  {
   "property": "C67",
   "status": "proved",
   "theorems": [
    "C67_unreadable_block",
    "C67_simple_unreadable"
   ],
   "note": "Finding: a wrap-around. The positive properties assume blocks of at most 200,000,000 items."
  },
  {
   "property": "C68",
   "status": "proved",
   "theorems": [
    "C68_blocks_are_filled",
    "C68_default_target",
    "C68_set_target"
   ],
   "note": "Runs without faults; targets that are multiples of 4096 (the default is 16384); C68_set_target covers clients that change the target with SetTargetBlockSize at any time. The code comment '128KB default block size' does not hold: no block exceeds 16 KiB by default."
  },
  {
   "property": "C69",
   "status": "proved",
   "theorems": [
    "C69_simple_writer_is_a_writer",
    "C69_simple_layout",
    "C69_end_to_end"
   ],
   "note": "(a) without SetTargetBlockSize, which a Writer has no counterpart of; (b) for any target changes. Covers sequential aggregation; for parallel aggregation combine (a) with C24/C25."
  },
  {
   "property": "C70",
   "status": "proved",
   "theorems": [
    "C70_import_then_aggregate",
    "C70_same_seed",
    "C70_import_succeeds",
    "C70_other_arguments",
    "C70_skip_cache_refuted",
    "C70_octal_refuted",
    "C70_numbers",
    "C70_example_programs",
    "C70_read_example_no_crash",
    "C70_read_example_status"
   ],
   "note": "for 56*n < 2^32 and n IDs whose bitmap serialises to less than 4 GiB. Directories, times and text layout are not modelled; different names are different files."
  },
  {
   "property": "C71",
   "status": "proved",
   "theorems": [
    "C71_files_follow_the_format",
    "C71_single_delta_shows",
    "C71_single_delta_refuted",
    "C71_simple_writer"
   ],
   "note": "For the four encodings under which blocks read back. The document's CRC-64 checksums are not implemented (proved: the fields are zero). Delta-ID and delta-value files do not follow the document: C71_single_delta_shows says exactly when that shows. By C69 the theorem also covers SimpleWriter's files."
  },
  {
   "property": "C72",
   "status": "proved",
   "theorems": [
    "C72_reads_every_conforming_file",
    "C72_half_varint_refuted"
   ],
   "note": "Encodings 0-4 and 7; false for varint-ID and varint-value, for which the Reader treats both sections as varints of differences. How the document's silences and contradictions are read is listed at the top of FormatSpec.v."
  },
  {
   "property": "C73",
   "status": "proved",
   "theorems": [
    "C73_any_file",
    "C73_terminates",
    "C73_exact",
    "C73_index_believed",
    "C73_index_parallel",
    "C73_exact_refuted",
    "C73_parallel_deterministic_refuted"
   ],
   "note": "Any accepted bytes; generalises C49 to filters, workers and schedules. Two tempting claims are refuted on crafted files."
  },
  {
   "property": "C74",
   "status": "proved",
   "theorems": [
    "C74_new_failure_releases",
    "C74_close_releases",
    "C74_finalize_and_close",
    "C74_simple_release",
    "C74_torn_never_closes",
    "C74_unknown_encoding_never_closes",
    "C74_varint_id_never_closes"
   ],
   "note": "Sizes: submitted items below 2^63 (torn), 2^64 (unknown encoding), 200 million (EncodingVarIntID). os.Create's own failure (no file at all) is outside the model."
  },
  {
   "property": "C75",
   "status": "proved",
   "theorems": [
    "C75_any_files",
    "C75_exact",
    "C75_needs_every_bitmap",
    "C75_mixed_files",
    "C75_newest_wins_refuted"
   ],
   "note": "Sizes as in C73: index entries of at least 80 bytes, at most 2^42 announced blocks, fewer than 2^63 pairs. C75_newest_wins_refuted is the refutation of the unconditional claim."
  },
  {
   "property": "C76",
   "status": "proved",
   "theorems": [
    "C76_shared_readers",
    "C76_wait_free",
    "C76_in_order",
    "C76_racing_close",
    "C76_close_and_disable",
    "C76_disable",
    "C76_newest_wins",
    "C76_newest_wins_or_error",
    "C76_racing_close_refuted"
   ],
   "note": "One step is one access to a shared field or one ReadAt, as in C51; the code has no synchronisation there, so this assumes that Go reads and writes single words at once. Aggregations of single Readers have Parallel = 0. C76_racing_close_refuted shows that the claim about racing Close needs caching to be off."
  },
  {
   "property": "C77",
   "status": "proved",
   "theorems": [
    "C77_any_moment",
    "C77_nothing_lost",
    "C77_closed_before",
    "C77_never_closed",
    "C77_terminates",
    "C77_read_back",
    "C77_covers_refuted"
   ],
   "note": "A flag says whether all reads of one block work; a Close between two reads of the same block fails the block, as a Close before it does. C61 fixes the failing ranges for a whole call, C51 has the sequential case with caching. C77_covers_refuted shows that a result without an error need not cover the file."
  },
  {
   "property": "C78",
   "status": "proved",
   "theorems": [
    "C78_slices_are_values",
    "C78_simple_writer",
    "C78_writer",
    "C78_get_pairs",
    "C78_arguments_untouched",
    "C78_encoders"
   ],
   "note": "One memory, one SimpleWriter, one Writer, any number of Readers. Byte buffers are values; WriteBlock reads its arguments (Writer.v on what they show) and makes the encoders' arrays. Bitmaps that are shared are C29's subject."
  },
  {
   "property": "C79",
   "status": "proved",
   "theorems": [
    "C79_any_file",
    "C79_damaged_blocks",
    "C79_finished",
    "C79_header_refuted"
   ],
   "note": "Changes of equal length; a changed length moves the footer and is not covered here. C79_finished is for files finalized once (never_finalized), as C10."
  },
  {
   "property": "C80",
   "status": "proved",
   "theorems": [
    "C80_estimate",
    "C80_blocks",
    "C80_bounds",
    "C80_varint_saves",
    "C80_dense",
    "C80_varint_saves_refuted",
    "C80_finalize",
    "C80_file_size",
    "C80_compression"
   ],
   "note": "Encodings 5 and 6 are left out: under them the announced and the written section sizes differ (C08)."
  },
  {
   "property": "C81",
   "status": "proved",
   "theorems": [
    "C81_same_answers",
    "C81_determined",
    "C81_opening",
    "C81_get_pairs",
    "C81_cached",
    "C81_closed",
    "C81_aggregate",
    "C81_index_only",
    "C81_finished",
    "C81_multi",
    "C81_reads_that_fail",
    "C81_multi_reads_that_fail"
   ],
   "note": "Reads are the ReadAt calls of the model (offset, size); repeated system calls after a short read are not counted. C81_determined justifies the instrumentation: no byte outside the listed reads can matter. C81_aggregate assumes index entries of at least 80 bytes and fewer than 2^31 blocks (a smaller entry makes the read panic, C46); finished files meet both. A failing read changes only the calls that make it (C81_reads_that_fail, C81_multi_reads_that_fail)."
  },
  {
   "property": "C82",
   "status": "proved",
   "theorems": [
    "C82_one_close_wins",
    "C82_error_is_a_lost_race",
    "C82_closed_for_good"
   ],
   "note": "Over the interleaving model of SharedMulti.v, where os.File.Close is one step that finds the file open or not. Aggregate on a closed Reader may still report an empty or partial result without an error (C48, C51), so the third part is about GetPairs and Close."
  },
  {
   "property": "C83",
   "status": "proved",
   "theorems": [
    "C83_as_if_alone",
    "C83_reads_back",
    "C83_open_reader",
    "C83_two_writers_refuted",
    "C83_open_reader_refuted"
   ],
   "note": "Calls of different Writers are atomic in the model; Writers on different paths share nothing, so finer interleavings make no difference to them. Removing, renaming and links are not modelled. The last theorem refutes the tempting claim about one path."
  },
  {
   "property": "C84",
   "status": "proved",
   "theorems": [
    "C84_write_block",
    "C84_finalize",
    "C84_new_writer",
    "C84_estimate_close",
    "C84_session",
    "C84_simple_write",
    "C84_simple_session"
   ],
   "note": "Counted in calls on the file (Seek, Write, Sync, Close), for every state and every stream of failures. CPU time, bytes and os.Create are not counted."
  },
  {
   "property": "C85",
   "status": "proved",
   "theorems": [
    "C85_only_live",
    "C85_held",
    "C85_nothing_left",
    "C85_close_twice",
    "C85_finalize_and_close_refuted"
   ],
   "note": "SimpleWriters hold their Writer's descriptor; C74 says which of its calls release it."
  }
 ]
}