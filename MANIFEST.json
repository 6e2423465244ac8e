{
 "claims": [
  {
   "property": "C01",
   "status": "proved",
   "theorems": [
    "c01_bits_round_trip"
   ],
   "note": ""
  },
  {
   "property": "C02",
   "status": "proved",
   "theorems": [
    "c02_timestamps_lossless",
    "c02_residual_timestamps_are_bytes",
    "c02_duplicates_refuted"
   ],
   "note": "Proved for strictly increasing timestamps; duplicates refuted."
  },
  {
   "property": "C03",
   "status": "proved",
   "theorems": [
    "c03_len_is_number_of_timestamps"
   ],
   "note": ""
  },
  {
   "property": "C04",
   "status": "proved",
   "theorems": [
    "c04_macaque_v_lossless"
   ],
   "note": ""
  },
  {
   "property": "C05",
   "status": "partial",
   "theorems": [
    "c05_macaque_v_within_error_bound_partial",
    "c05_small_bound_refuted"
   ],
   "note": "Bound proved for values up to 8 million times an absolute bound and for relative bounds of at least 1/80000 percent with values of at least 2^-100, with exact IEEE arithmetic and a log2 oracle. Refuted for small absolute bounds: 1000.0 with bound 1e-5 is stored as 2.0."
  },
  {
   "property": "C06",
   "status": "partial",
   "theorems": [
    "c06_pmc_within_error_bound_partial",
    "c06_relative_100_refuted"
   ],
   "note": "Proved for every valid bound except a relative bound of exactly 100% with values that do not all have the same sign; that case is refuted by a witness."
  },
  {
   "property": "C07",
   "status": "partial",
   "theorems": [
    "c07_swing_within_error_bound_exact_arithmetic_partial",
    "c07_swing_near_f64_partial",
    "c07_swing_within_error_bound_f64_partial",
    "c07_not_finite_values_exact",
    "c07_lossless_refuted",
    "c07_absolute_refuted"
   ],
   "note": "The full claim is false: the f64 rounding errors can exceed what the deviation leaves of the bound (two refutations). Proved: the algorithm keeps the bound with exact arithmetic; with the program's f64 arithmetic every restored value is within the deviation plus an explicit rounding error (size of the values, number of data points, timestamps divided by the shortest interval), so the bound is kept whenever this is less than 1% of an absolute bound or 0.1% of a relative bound. Timestamps up to 2^52 and values up to 2^120. Infinities and NaN are exact."
  },
  {
   "property": "C08",
   "status": "proved",
   "theorems": [
    "c08_every_point_in_exactly_one_segment"
   ],
   "note": "For all platforms, error bounds and series of any length with strictly increasing timestamps (valid_timestamps)."
  },
  {
   "property": "C09",
   "status": "partial",
   "theorems": [
    "c09_pmc_parameters_partial",
    "c09_swing_parameters_partial",
    "c09_pmc_nan_refuted",
    "c09_swing_nan_refuted"
   ],
   "note": "Proved for all models that are not NaN; the claim is false for NaN models with residuals that are numbers (refuted)."
  },
  {
   "property": "C10",
   "status": "partial",
   "theorems": [
    "c10_segments_restore_series_partial",
    "c10_values_near_partial",
    "c10_values_within_bound_partial",
    "c10_residual_after_line_refuted",
    "c10_nan_refuted",
    "c10_signed_zeros_refuted"
   ],
   "note": "Timestamps, counts and order for all series; values within the bound for constant models, residual segments, and residuals after constants; values of linear functions within the deviation plus an explicit rounding error, and within the bound when this error is less than what the deviation leaves of it. Full claim refuted for residuals after a linear function, NaN, and signed zeros on platforms that order zeros."
  },
  {
   "property": "C11",
   "status": "proved",
   "theorems": [
    "c11_cheapest_model_selected"
   ],
   "note": "Selection proved with binary32 arithmetic; length comparison exact up to 65,536 values per model (buffer capacity)."
  },
  {
   "property": "C12",
   "status": "proved",
   "theorems": [
    "c12_split",
    "c12_no_panic",
    "c12_empty_batch_refuted"
   ],
   "note": "Proved for any sort that returns a sorted permutation (what is assumed about arrow). A batch without rows is outside the theorem: it makes compression panic if the table has tags."
  },
  {
   "property": "C13",
   "status": "proved",
   "theorems": [
    "c13_check_sound",
    "c13_lossless_exact",
    "c13_check_complete_absolute",
    "c13_check_complete_relative"
   ],
   "note": "Soundness and completeness of the check on real numbers, rounding of the check bounded by 2^-22."
  },
  {
   "property": "C14",
   "status": "partial",
   "theorems": [
    "c14_count",
    "c14_min_max_partial",
    "c14_sum_avg_partial",
    "c14_lines_min_max_partial",
    "c14_lines_sum_avg_partial",
    "c14_line_min_refuted",
    "c14_swing_sum_refuted",
    "c14_min_of_infinities_refuted",
    "c14_sum_overflow_refuted"
   ],
   "note": "COUNT is proved for all segments. MIN and MAX, and SUM and AVG up to f32 rounding, are proved for segments that are not linear functions, and up to the rounding of lines for all segments without residuals after a linear function. Refuted: exact MIN of a linear function, SUM of a linear function with residuals and irregular timestamps, MIN of only infinities, a finite SUM of a segment that is greater than the greatest f32."
  },
  {
   "property": "C15",
   "status": "partial",
   "theorems": [
    "c15_survives_partial",
    "c15_on_disk_partial",
    "c15_reopen",
    "c15_progress",
    "c15_lost_refuted",
    "c15_reopen_fails_refuted"
   ],
   "note": "Proved for every history with crashes between any two file system operations in which the files show the next id whenever the log is opened. The full statement is false: if the newest closed file was deleted before the active file had a batch, an id is reused and the batch lost, and a crash between creating a file and writing its schema makes the log impossible to open."
  },
  {
   "property": "C16",
   "status": "partial",
   "theorems": [
    "c16_ids_grow_partial",
    "c16_fresh_partial",
    "c16_files_partial",
    "c16_reused_refuted",
    "c16_reused_after_truncate_refuted"
   ],
   "note": "Proved under the same condition as C15; the full statement is refuted."
  },
  {
   "property": "C17",
   "status": "proved",
   "theorems": [
    "c17_deleted",
    "c17_names",
    "c17_kept"
   ],
   "note": "For histories without restarts the condition on opening holds trivially for the first opening; with restarts it is needed."
  },
  {
   "property": "C18",
   "status": "partial",
   "theorems": [
    "c18_replay_partial",
    "c18_missing_refuted"
   ],
   "note": "Refinement of a ledger; same condition as C15."
  },
  {
   "property": "C19",
   "status": "partial",
   "theorems": [
    "c19_repeatable_partial",
    "c19_opens",
    "c19_crash_refuted"
   ],
   "note": "Any number of interrupted recoveries; same condition as C15. Refuted for a crash after the empty active file was deleted."
  },
  {
   "property": "C20",
   "status": "partial",
   "theorems": [
    "c20_truncated_partial",
    "c20_crash_refuted"
   ],
   "note": "Same condition as C15. Refuted for a crash while truncating."
  },
  {
   "property": "C21",
   "status": "proved",
   "theorems": [
    "c21_no_deadlock",
    "c21_terminates",
    "c21_exclusive"
   ],
   "note": "Any number of threads and any interleaving of lock acquisitions."
  },
  {
   "property": "C22",
   "status": "partial",
   "theorems": [
    "c22_refuted",
    "c22_lost_with_saved_partial",
    "c22_single_rows_partial"
   ],
   "note": "Refuted: a batch counts as persisted once any of its data points is committed, so a crash loses the rest of it. Proved: a data point is only lost if another data point of its batch is committed, so single-row batches are never lost; needs collision-free hashes, distinct timestamps in a series, written spills, commits written after the crash and no race with a client that lowers a limit."
  },
  {
   "property": "C23",
   "status": "partial",
   "theorems": [
    "c23_nothing_twice_partial",
    "c23_refuted"
   ],
   "note": "Proved for any run with any number of crashes and failed commits, given collision-free hashes, distinct timestamps per series, written spills and no race with a client that lowers a limit. Refuted for equal timestamps: spilled files replace each other."
  },
  {
   "property": "C24",
   "status": "partial",
   "theorems": [
    "c24_conserved_partial",
    "c24_healthy_partial",
    "c24_memory_refuted",
    "c24_timestamp_refuted"
   ],
   "note": "Exact conservation at every point of every crash-free run under the stated conditions. Refuted with memory for less than two buffers and for equal timestamps."
  },
  {
   "property": "C25",
   "status": "partial",
   "theorems": [
    "c25_one_series_partial",
    "c25_refuted"
   ],
   "note": "For all executions, including crashes, failures and races, if the hashes of the received series differ. Refuted for every hash function, as tag values are concatenated without a separator."
  },
  {
   "property": "C26",
   "status": "partial",
   "theorems": [
    "c26_buffer_partial",
    "c26_files_partial",
    "c26_refuted"
   ],
   "note": "Spilling and reading one buffer is transparent for any sequence of uses, and files of spilled buffers are never shared in any run under the stated conditions. Refuted for equal timestamps: two buffers of one series have the same file."
  },
  {
   "property": "C27",
   "status": "partial",
   "theorems": [
    "c27_balance_partial",
    "c27_not_leaked_partial",
    "c27_uncompressed_refuted",
    "c27_compressed_refuted"
   ],
   "note": "Exact accounting in every state of every run if no buffer is spilled to make room for another (uncompressed) and tables have one field (compressed). Refuted otherwise: usage of twice the limit."
  },
  {
   "property": "C28",
   "status": "partial",
   "theorems": [
    "c28_no_panic_partial",
    "c28_writer_partial",
    "c28_client_partial",
    "c28_race_refuted",
    "c28_leak_refuted"
   ],
   "note": "No step panics and the loops of writer and client end with enough memory if there is no race between them and commits succeed. Refuted for a race and after a failed commit."
  },
  {
   "property": "C29",
   "status": "partial",
   "theorems": [
    "c29_barrier_partial",
    "c29_refuted"
   ],
   "note": "Proved for every schedule under the conditions of C24. Refuted for a failed commit: the flush still returns Ok."
  },
  {
   "property": "C30",
   "status": "partial",
   "theorems": [
    "c30_closed_partial",
    "c30_terminates_partial",
    "c30_refuted"
   ],
   "note": "Safety and termination for every schedule with memory for two buffers. Refuted without: closing waits forever."
  },
  {
   "property": "C31",
   "status": "partial",
   "theorems": [
    "c31_exactly_once_partial",
    "c31_nothing_lost_partial",
    "c31_nothing_invented",
    "c31_loss_refuted",
    "c31_crash_refuted",
    "c31_overlap_refuted"
   ],
   "note": "Exactly-once transfer is proved for every interleaving of saves, transfers, crashes and failures except those in which a save, a crash or a second transfer falls into the window of a transfer; for each excluded window a counterexample is proved. Crashes and failures never lose rows: nothing is lost unless a save falls into the window."
  },
  {
   "property": "C32",
   "status": "partial",
   "theorems": [
    "c32_dropped",
    "c32_triggered_partial",
    "c32_triggered_new_size_partial",
    "c32_equal_refuted",
    "c32_size_partial",
    "c32_size_refuted",
    "c32_no_panic",
    "c32_periodic_refuted"
   ],
   "note": "Dropped tables are never transferred in any execution. The trigger and the bound of the recorded size hold when transfers of a table do not overlap; overlapping transfers wrap the size, a batch size set to exactly the size of a table does not transfer it, and a failed periodic transfer aborts the server (all proved as counterexamples)."
  },
  {
   "property": "C33",
   "status": "partial",
   "theorems": [
    "c33_all_or_nothing_partial",
    "c33_nothing_left_partial",
    "c33_close_refuted",
    "c33_load_refuted",
    "c33_reported_refuted"
   ],
   "note": "All-or-nothing visibility for every list of batches and every failing step, except a commit that reaches the log but is reported as failed, for which the table becomes unreadable. No files are left behind unless closing the writer or deleting a file fails; counterexamples are proved."
  },
  {
   "property": "C34",
   "status": "partial",
   "theorems": [
    "c34_filters_partial",
    "c34_compressed_partial",
    "c34_equal_refuted",
    "c34_equal_kept_refuted",
    "c34_panics",
    "c34_generated_refuted"
   ],
   "note": "Proved for any number of filters of any shape whose comparisons with the timestamp have a constant on the other side, with the timestamp on the left or (for <, <=, >, >=) on the right. Refuted for constant = timestamp (segments with matching points are dropped, grid filter uses the wrong operand). Panics are characterised; a scan panics for every filter that compares a generated column since the stored schema is used."
  },
  {
   "property": "C35",
   "status": "partial",
   "theorems": [
    "c35_prefix",
    "c35_complete",
    "c35_limit_zero_refuted"
   ],
   "note": "Any input of batches and pending polls, any grid function and predicate: the returned batches concatenate to the selected data points irrespective of batch size, batching and scheduling, no batch is too large, and the end is reached. A limit of zero never ends (normally removed by DataFusion's optimizer). Pending is a value of the input script; wakers and the async runtime are not modelled."
  },
  {
   "property": "C36",
   "status": "partial",
   "theorems": [
    "c36_rows_partial",
    "c36_shortest_partial",
    "c36_limit_partial",
    "c36_limit_one_field",
    "c36_one_field",
    "c36_filter_refuted",
    "c36_overlap_refuted",
    "c36_limit_refuted"
   ],
   "note": "Rows pair values of the same data point if every batch of segments but the last is full and every segment has a selected data point; with a limit this is proved for one file per field and for one field. Refuted with a predicate that removes different numbers of data points per batch, with overlapping segments, and with a limit and several files. Queries of one field are right for any predicate, limit and batches (c36_one_field)."
  },
  {
   "property": "C37",
   "status": "partial",
   "theorems": [
    "c37_grid",
    "c37_single_partial",
    "c37_join_partial",
    "c37_refuted"
   ],
   "note": "Errors of a field are returned by GridStream and by queries of one field. With several fields an error is overwritten when a later field is pending or at its end; the query then ends without an error and with rows missing."
  },
  {
   "property": "C38",
   "status": "partial",
   "theorems": [
    "c38_columns_partial",
    "c38_errors_partial",
    "c38_one_field_partial",
    "c38_type_refuted",
    "c38_tag_refuted",
    "c38_constant_refuted"
   ],
   "note": "Proved for every table, projection and order of columns, with batches as in c36_rows_partial, including generated columns that cannot be computed for some rows, for which the query ends with an error. Queries that read one field are proved for any batches and predicates. Fields defined as tags, tags named timestamp or value, and projections that read no stored column panic."
  },
  {
   "property": "C39",
   "status": "partial",
   "theorems": [
    "c39_rows_partial",
    "c39_position_refuted",
    "c39_count_refuted"
   ],
   "note": "Proved when no generated column is before the first stored field; otherwise no rows are returned. A query of no columns panics."
  },
  {
   "property": "C40",
   "status": "partial",
   "theorems": [
    "c40_rewrite_partial",
    "c40_rewritten_partial",
    "c40_rewrite_lines_partial",
    "c40_rewritten_lines_partial",
    "c40_no_panic",
    "c40_count_refuted",
    "c40_sum_refuted",
    "c40_empty_refuted",
    "c40_single_refuted"
   ],
   "note": "Proved for every plan when the rewritten aggregates are of the field itself, the table is not empty and C14 applies to its segments: exactly for segments that are not linear functions, and up to the rounding of their values for linear functions without residuals. Expressions in aggregates are ignored, and empty tables and aggregates in one step are wrong."
  },
  {
   "property": "C41",
   "status": "partial",
   "theorems": [
    "c41_accepted_iff",
    "c41_described",
    "c41_no_panic",
    "c41_statement",
    "c41_timestamps_refuted",
    "c41_names_refuted"
   ],
   "note": "Accepted exactly if well formed, counting stored columns; tables created by a statement are valid in full. Not provable as stated: without a statement a second, generated, column of timestamps and duplicate names are accepted (refuted by witness)."
  },
  {
   "property": "C42",
   "status": "proved",
   "theorems": [
    "c42_restart",
    "c42_new_table",
    "c42_statement",
    "c42_generated_tag_refuted"
   ],
   "note": "For every valid definition, any number of tables, and every definition accepted from a statement; premises: expressions are read as they were written, sets are enumerated in any order. Definitions received from other nodes may be invalid: a generated tag becomes a stored tag (witness)."
  },
  {
   "property": "C43",
   "status": "partial",
   "theorems": [
    "c43_transport",
    "c43_received_partial",
    "c43_received_refuted"
   ],
   "note": "Transport of valid definitions is proved in full. Received definitions are well formed, but error bounds are not validated: a bound that is not a number is accepted and stops every later restart (witness)."
  },
  {
   "property": "C44",
   "status": "partial",
   "theorems": [
    "c44_starts",
    "c44_completed",
    "c44_create_partial",
    "c44_drop_partial",
    "c44_definition_refuted",
    "c44_blocked_refuted",
    "c44_dotted_refuted"
   ],
   "note": "Proved for every history of creates, drops and crashes: the server starts again, completed tables keep their definition, and exactly what each crash point leaves behind. The full statement is false: a crash after the Delta Lake table is created, or after the metadata rows are deleted, leaves a name that can never be created or dropped again, and a crash between the metadata commits leaves a table without its error bounds and generated columns. Also a name with a dot is saved but cannot be registered, after which the server never starts."
  },
  {
   "property": "C45",
   "status": "proved",
   "theorems": [
    "c45_absolute",
    "c45_relative",
    "c45_constructed_iff_valid"
   ],
   "note": ""
  },
  {
   "property": "C46",
   "status": "partial",
   "theorems": [
    "c46_drop_partial",
    "c46_truncate",
    "c46_vacuum_partial",
    "c46_cluster",
    "c46_accepted",
    "c46_text",
    "c46_multipart_refuted",
    "c46_nested_refuted",
    "c46_empty_name_refuted",
    "c46_semicolon_refuted",
    "c46_empty_refuted",
    "c46_case_refuted"
   ],
   "note": "TRUNCATE affects exactly the named tables; DROP TABLE does for names with one part whose folders contain no other table; VACUUM does for names without semicolons and with a last name that is not empty. The statement is refuted for the other names: DROP TABLE a.b drops ab, DROP TABLE a deletes the files of a/b, VACUUM \"a;b\" vacuums a and b, VACUUM \"\" vacuums all tables, and names with upper case letters are created in lower case but never found."
  },
  {
   "property": "C47",
   "status": "partial",
   "theorems": [
    "c47_names_partial",
    "c47_definitions_partial",
    "c47_create",
    "c47_drop_partial",
    "c47_refused",
    "c47_start_partial",
    "c47_members",
    "c47_new",
    "c47_type_refuted",
    "c47_comma_refuted",
    "c47_quoted_refuted",
    "c47_several_refuted",
    "c47_restart_refuted",
    "c47_listed_refuted",
    "c47_keys_refuted",
    "c47_overlap_refuted"
   ],
   "note": "Agreement is proved for clusters of any size under any interleaving of requests in which none fails after changing tables; the refuted theorems show that nodes disagree with quoted names, lists with a missing table, restarts after crashes, failed starts, simultaneous first starts and overlapping requests for one table. TRUNCATE CLUSTER is C57; VACUUM CLUSTER is C67."
  },
  {
   "property": "C48",
   "status": "partial",
   "theorems": [
    "c48_limit_partial",
    "c48_usage_partial",
    "c48_conserved_partial",
    "c48_ingested_refuted",
    "c48_dropped_refuted"
   ],
   "note": "Proved without a race with the thread that uses the same buffers. Refuted for the limit of ingested batches, and by a race that drops a data point."
  },
  {
   "property": "C49",
   "status": "partial",
   "theorems": [
    "c49_completes_partial",
    "c49_refuted"
   ],
   "note": "Proved for batches that fit in the memory for batches and memory for two buffers. Refuted for larger batches, which wait forever with the lock of the storage engine."
  },
  {
   "property": "C50",
   "status": "partial",
   "theorems": [
    "c50_normal_tables",
    "c50_normal_tables_complete",
    "c50_failure_changes_nothing",
    "c50_time_series_tables_refuted",
    "c50_export_refuted",
    "c50_all_rows_partial",
    "c50_completes_partial",
    "c50_null_refuted",
    "c50_names_refuted",
    "c50_partitioned_refuted",
    "c50_registered_partial",
    "c50_cast_null_rejected"
   ],
   "note": "Proved for normal tables. Refuted for time series tables and for exports: tables are not registered when the data folder is opened. The function that imports into time series tables is proved to compress all rows if nothing is null and the columns are in the order of the table; nulls, other names and partitioned files are refuted."
  },
  {
   "property": "C51",
   "status": "partial",
   "theorems": [
    "c51_move_keeps_rows_partial",
    "c51_other_tables",
    "c51_move_to_itself_refuted",
    "c51_concurrent_write_refuted",
    "c51_duplicates_refuted",
    "c51_bounds_partial",
    "c51_bounds_refuted",
    "c51_names_refuted",
    "c51_copy",
    "c51_copied_points",
    "c51_part_not_copied_refuted",
    "c51_move_checks",
    "c51_copy_checks"
   ],
   "note": "No row is lost if the tables are different and nobody writes to the source meanwhile; refuted otherwise. Error bounds and names of fields are not compared. Copies contain only segments entirely within the interval."
  },
  {
   "property": "C52",
   "status": "partial",
   "theorems": [
    "c52_rows_partial",
    "c52_aggregates_partial",
    "c52_doubled_partial",
    "c52_doubled_aggregates_partial",
    "c52_quote_refuted",
    "c52_quoted_tag_refuted",
    "c52_timestamp_refuted",
    "c52_case_refuted"
   ],
   "note": "Proved, from the generated text through the tokenizer and the parser to the rows, for names in lower case and timestamps in a column named timestamp, and for texts without quotes or tags whose quotes are doubled by the client. Refuted otherwise: quotes change the query, other timestamp columns and names with upper case letters cannot be read. How DataFusion computes aggregates is not modelled."
  },
  {
   "property": "C53",
   "status": "partial",
   "theorems": [
    "c53_folder",
    "c53_client_partial",
    "c53_same_partial",
    "c53_retention_refuted",
    "c53_name_refuted",
    "c53_empty_name_refuted"
   ],
   "note": "Proved for every name in a data folder and for names without special characters through a client; the implementations agree for all retention periods but the largest, which wrap to negative periods and delete all stale files of a data folder. Names with commas and empty names affect other tables through a client."
  },
  {
   "property": "C54",
   "status": "partial",
   "theorems": [
    "c54_parsed_partial",
    "c54_created_partial",
    "c54_text_partial",
    "c54_no_panic_partial",
    "c54_case_refuted",
    "c54_empty_refuted"
   ],
   "note": "Proved for all tokens and all ASCII text without comments and escaped quotes, given that sqlparser's expression parser takes the first tokens of its input. Quoted names lose their case and empty names are accepted. Whether an expression can be executed is not modelled."
  },
  {
   "property": "C55",
   "status": "partial",
   "theorems": [
    "c55_latest_partial",
    "c55_durable_partial",
    "c55_refused_partial",
    "c55_one_thread",
    "c55_failed_update_refuted",
    "c55_failed_start_refuted",
    "c55_no_batch_size_refuted"
   ],
   "note": "Proved if configuration files can be written and nobody edits them; accepted updates survive any later failures. Refuted if the file cannot be written: the update is reported as failed but used, and saved with the next update. Flags of a server that could not be started are kept. The transfer batch size is set although its flag is not."
  },
  {
   "property": "C56",
   "status": "partial",
   "theorems": [
    "c56_nothing_returns_partial",
    "c56_logged_kept_partial",
    "c56_exact_partial",
    "c56_truncated_refuted",
    "c56_dropped_refuted"
   ],
   "note": "Proved if tables are only truncated and dropped while the log is enabled, with operations that are not interrupted. Refuted otherwise: a server without a log leaves the log of the table, so its batches are replayed into the truncated table or the new table."
  },
  {
   "property": "C57",
   "status": "partial",
   "theorems": [
    "c57_truncated_partial",
    "c57_not_returned",
    "c57_others_partial",
    "c57_succeeds",
    "c57_transfer_refuted",
    "c57_stopped_node_refuted",
    "c57_failed_refuted",
    "c57_unsaved_refuted",
    "c57_marked_refuted"
   ],
   "note": "Proved if no transfer writes rows of the tables meanwhile and no node fails to save the rows it has in memory, for listed nodes and for names that do not have to be quoted. Refuted: rows transferred meanwhile stay in the remote data folder, nodes that are stopped meanwhile bring their rows back, rows that could not be saved return although the statement succeeded, a failed statement has deleted the rows in the remote data folder only, and a table whose truncation was stopped stays marked and is not transferred again."
  },
  {
   "property": "C58",
   "status": "partial",
   "theorems": [
    "c58_answerable_iff",
    "c58_progress_partial",
    "c58_ends_partial",
    "c58_exclusive",
    "c58_tables_refuted",
    "c58_kill_refuted",
    "c58_three_refuted"
   ],
   "note": "Which requests can always be answered is characterised exactly (c58_answerable_iff). Refuted for the others: UpdateConfiguration deadlocks with requests that create, drop or truncate time series tables, which read the configuration twice, and with KillNode, which acquires the locks in the opposite order; every later request that needs the configuration then waits too."
  },
  {
   "property": "C59",
   "status": "partial",
   "theorems": [
    "c59_transferred_partial",
    "c59_moved_partial",
    "c59_transfer_ends",
    "c59_overlap_refuted",
    "c59_cleared_refuted",
    "c59_flush_memory_partial",
    "c59_flush_node_partial",
    "c59_kill_node_partial",
    "c59_ctrl_c_partial",
    "c59_unlisted",
    "c59_kept_partial",
    "c59_once_partial",
    "c59_flush_node_ends",
    "c59_kill_node_ends",
    "c59_single_refuted",
    "c59_unsaved_refuted",
    "c59_killed_refuted",
    "c59_unmarked_refuted",
    "c59_twice_refuted"
   ],
   "note": "Proved for all executions in which no save fails (with the log: since the last start) and, for interleavings with other tasks, transfers of the table have not overlapped. Refuted: on a node without a remote data folder both actions always fail; both succeed if rows could not be saved or their batches not marked as persisted; sizes that are wrong after overlapping transfers or cleared make a transfer of all tables skip a table with rows."
  },
  {
   "property": "C60",
   "status": "partial",
   "theorems": [
    "c60_executed_partial",
    "c60_listed",
    "c60_assigned_iff",
    "c60_refused_iff",
    "c60_accepted_partial",
    "c60_balanced_partial",
    "c60_crashed_refuted",
    "c60_mode_refuted",
    "c60_twice_refuted",
    "c60_starting_refuted",
    "c60_ended_refuted",
    "c60_default_host_refuted",
    "c60_unlisted_refuted"
   ],
   "note": "The content of the table with nodes, and so to which urls a query can be assigned, is characterised exactly for all histories. The statement is proved if nodes have different urls, none failed before it was removed, none is being started and none ends before the query is executed; each of these conditions is needed (refuted otherwise)."
  },
  {
   "property": "C61",
   "status": "partial",
   "theorems": [
    "c61_c_asked",
    "c61_c_created_partial",
    "c61_c_aborts_iff",
    "c61_zero_is_lossless_refuted",
    "c61_c_no_abort_refuted",
    "c61_c_unknown_column_refuted",
    "c61_python_asked_partial",
    "c61_python_created",
    "c61_python_aborts_iff",
    "c61_python_no_abort_refuted",
    "c61_python_no_larger_refuted"
   ],
   "note": "Which tables are created, what they are, and which requests abort the process is characterised exactly for C and Python. The statement fails for zero and for error bounds without a meaning in C (the process is aborted), for error bounds of unknown columns in C (ignored), and for valid error bounds in Python that are zero or infinite as f32 values (the process is aborted) or are rounded up."
  },
  {
   "property": "C62",
   "status": "partial",
   "theorems": [
    "c62_parsed",
    "c62_sent_iff",
    "c62_rows_partial",
    "c62_named_partial",
    "c62_errors_partial",
    "c62_answered_partial",
    "c62_aborts_iff",
    "c62_aborts_refuted",
    "c62_sent_refuted",
    "c62_named_refuted"
   ],
   "note": "Which addresses and query a text means, when the query is what is sent, and when the server is stopped are characterised exactly for addresses without quotes. For queries without the last address a complete response has exactly the rows of all nodes, and it is complete if and only if no node had an error. The statement fails if the last address is in the query (another text is sent, or the server is stopped), for an empty address (the server is stopped), and if the columns of the nodes differ."
  },
  {
   "property": "C63",
   "status": "partial",
   "theorems": [
    "c63_kept_partial",
    "c63_not_mixed_partial",
    "c63_runs_partial",
    "c63_goes_on_partial",
    "c63_used_partial",
    "c63_mixed_refuted",
    "c63_aborts_refuted",
    "c63_waits_refuted",
    "c63_dropped_refuted",
    "c63_lost_refuted",
    "c63_interrupted_refuted"
   ],
   "note": "Proved for all executions in which statements for the name are executed one at a time, batches are inserted into the table that exists and not after a statement has flushed it, and DROP is not interrupted between deleting the log and the table. The server keeps none of these apart: without each of them rows are stored in another table, a valid insert stops the server, statements wait until a restart, another table is dropped, or acknowledged rows are lost in a crash (the refuted theorems)."
  },
  {
   "property": "C64",
   "status": "partial",
   "theorems": [
    "c64_lines",
    "c64_executed_partial",
    "c64_comment_iff",
    "c64_comment_partial",
    "c64_quits",
    "c64_errors_iff",
    "c64_comment_refuted",
    "c64_statements_refuted",
    "c64_status_refuted",
    "c64_empty_refuted",
    "c64_errors_refuted",
    "c64_commands_partial"
   ],
   "note": "How a file is read as lines is characterised exactly, and for files with one statement on each line, possibly indented and followed by a comment, exactly the statements are executed in order and an error is printed for each that fails. What is sent of a line is right if and only if it has no quoted dashes, and otherwise ends within a quote. The statement fails for statements on several lines, each line of which is executed alone, for quoted dashes, for indented comments, which send an empty statement, and for the exit status, which is always zero. White space that is not ASCII is not modelled."
  },
  {
   "property": "C65",
   "status": "partial",
   "theorems": [
    "c65_open_iff",
    "c65_defined_partial",
    "c65_wrong_kind",
    "c65_not_open",
    "c65_succeeds",
    "c65_fails_iff",
    "c65_error_partial",
    "c65_message_valid",
    "c65_close_error_refuted",
    "c65_copy_refuted",
    "c65_released_partial",
    "c65_leak_refuted",
    "c65_schema_leak_refuted",
    "c65_python_partial",
    "c65_python_types_refuted",
    "c65_python_temporary_refuted",
    "c65_python_within_refuted",
    "c65_utf8",
    "c65_executes",
    "c65_accepts",
    "c65_python_method",
    "c65_python_transfer_partial"
   ],
   "note": "Allocated data folders and clients are exactly those that are open, programs that obey the rules are defined, and every use of a handle that is not open or of another type is undefined behaviour. Calls that do not fail execute their operation with the handles and texts they are given, exactly the encodings of characters are accepted, and methods in Python pass on what they are given. Errors are those of the last failed call of the thread. The statement fails for closing, which sets no error; for arrays passed to failing calls and schemas passed to create, which are leaked; and for copies and moves in Python between a data folder and a node, within one data folder, and to a data folder that is opened in the list of arguments. Calls are executed one at a time, so handles shared by threads that call at the same time are not modelled."
  },
  {
   "property": "C66",
   "status": "partial",
   "theorems": [
    "c66_ids_partial",
    "c66_durable_partial",
    "c66_replayed_partial",
    "c66_restarts_partial",
    "c66_stuck",
    "c66_unsynced_lost_refuted",
    "c66_unsynced_twice_refuted",
    "c66_part_refuted",
    "c66_truncate_refuted",
    "c66_mark_refuted",
    "c66_ready_partial"
   ],
   "note": "Proved for histories in which the log is only opened if its files show the next id (as in C15) and in which nothing is appended or truncated between a restart and an error that left a batch unsynced or incomplete or the active file removed. Without the second condition the statement fails: one failed sync_data shifts all later ids, so a later batch is lost or a committed one is replayed; a batch written after an incomplete one makes the log unreadable; and after a truncation that fails when it creates the new file, acknowledged batches go to a removed file. A file that cannot be deleted can make ids be used again. After a segment could not be replaced, all appends fail until a restart. Once it is opened or truncated again, batches can be appended."
  },
  {
   "property": "C67",
   "status": "partial",
   "theorems": [
    "c67_vacuumed_partial",
    "c67_bounded_partial",
    "c67_success_partial",
    "c67_storm_refuted",
    "c67_comma_refuted",
    "c67_quoted_refuted",
    "c67_stopped_refuted"
   ],
   "note": "Proved for names that do not have to be quoted and do not begin the list with a keyword: then the statement is always answered, no node gets it twice and nothing else is deleted, and it is done everywhere if all nodes run and have the tables, and only then success is reported. Without the condition it fails: a table with the name cluster; makes nodes send VACUUM CLUSTER to each other without end, a comma in a name makes peers vacuum other tables, and any name that has to be quoted makes VACUUM CLUSTER without names fail after the remote data folder was vacuumed. If a listed node is not running, the node that got the statement does not vacuum its own tables. Statements that are executed at the same time are missing."
  },
  {
   "property": "C68",
   "status": "partial",
   "theorems": [
    "c68_written_partial",
    "c68_accepted_partial",
    "c68_checked_partial",
    "c68_part_partial",
    "c68_atomic_partial",
    "c68_unchecked_refuted",
    "c68_seconds_refuted",
    "c68_names_refuted",
    "c68_split_refuted",
    "c68_transfer_refuted",
    "c68_empty_refuted",
    "c68_insert_refuted",
    "c68_case_refuted",
    "c68_null_refuted",
    "c68_poison_refuted"
   ],
   "note": "Proved for rows with the names and types of the table, a name in lower case, and no nulls for time series tables: all rows are stored on success, a prefix of them on failure, none on failure for data folders used directly, and the process does not stop. A data folder only accepts columns with the types of the table and without more nulls. Without these conditions it fails: a node ignores the schema of the client, so columns of another type and the same width are stored with another meaning; data folders ignore names; nulls become the number in the buffer; a null timestamp stops the node and every restart; names are changed to lower case; INSERT, batches in several messages, failed transfers and empty batches in copies give an error after rows were stored. How rows become segments is other properties; arrow's behaviour for columns of other widths is a parameter."
  },
  {
   "property": "C69",
   "status": "partial",
   "theorems": [
    "c69_query_near_partial",
    "c69_query_within_partial",
    "c69_query_in_order_partial",
    "c69_query_any_time_partial",
    "c69_filter_partial",
    "c69_filter_any_time_partial",
    "c69_limit_partial",
    "c69_late_refuted"
   ],
   "note": "Proved for data points with different timestamps that are not NaN, with fields read in the same order (one field, one file per field, or buffers that do not overlap) without predicates and limits. Buffers do not overlap if the data points of each time series are received in the order of their timestamps, which is proved by an invariant of ingestion, so c69_query_in_order_partial needs only that and the same number of files for each field. The values are within the error bound except for rounding errors, or within it if these are less than what the deviation leaves of the bound. At any time, also after crashes and failed commits, a query returns exactly the data points committed by then, which are among those sent (c69_query_any_time_partial). For queries of one field also filters on the timestamp (exactly the data points that satisfy them are returned, also when segments are left out that do not satisfy the rewritten filters) and limits are proved, for any files. Missing: residuals after a linear function (see C10), and what is missing in C10, C28 and C38. Without the condition on overlapping buffers it is false: after a late data point, the values of different data points are joined in a row."
  },
  {
   "property": "C70",
   "status": "partial",
   "theorems": [
    "c70_count_partial",
    "c70_count_any_time_partial",
    "c70_min_max_partial",
    "c70_sum_avg_partial",
    "c70_capacity"
   ],
   "note": "Proved for data points with different timestamps that can be stored as in C10 and finite values. Missing: linear functions with residuals (see C14), sums that overflow f32, and what is missing in C10, C14 and C28."
  },
  {
   "property": "C71",
   "status": "partial",
   "theorems": [
    "c71_each_once_partial",
    "c71_filter_partial",
    "c71_count_partial",
    "c71_only_inserted_partial",
    "c71_lost_refuted",
    "c71_twice_refuted"
   ],
   "note": "For queries of one field, also with filters on the timestamp: each data point received is returned by exactly one of the two nodes when the transfers meet the hypotheses of C31, COUNT of both nodes adds up to the number of data points, and no node returns anything else in any execution of the transfers. False if a buffer is saved between scan and truncation (readings are lost though the flush returned) and after a crash between write and truncation (readings are returned twice). Missing: queries of several fields, limits, and the residuals after a linear function (C10)."
  },
  {
   "property": "C72",
   "status": "partial",
   "theorems": [
    "c72_local_iff",
    "c72_remote_iff",
    "c72_unique",
    "c72_started_iff",
    "c72_saved_partial",
    "c72_address",
    "c72_port",
    "c72_left_behind_refuted",
    "c72_same_address_refuted",
    "c72_host_refuted"
   ],
   "note": "Which texts name which data folder, when a server starts and what it then uses are characterised exactly, and a node is only added to a cluster after both folders were opened. The statement fails for nodes whose start fails after that, for example always with data in memory and a write-ahead log, which stay in the cluster; for nodes on different machines without a host, which have the same url; and for the host, which the server does not listen on: it listens on all addresses. How clap divides the command line is not modelled."
  },
  {
   "property": "C73",
   "status": "partial",
   "theorems": [
    "c73_word",
    "c73_offered_partial",
    "c73_accepted",
    "c73_two_words_refuted"
   ],
   "note": "Proved for all lines, positions and names: exactly the keywords and names that continue the word before the cursor are offered, in order, and only that word is replaced. Missing: keywords of more than one word, which are not offered once their first space has been written (c73_two_words_refuted, finding 56). Only ASCII letters have an upper case in the model; the tables are those at the start of the client."
  }
 ]
}