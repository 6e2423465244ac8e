# Formal model of ModelarDB-RS in Rocq

The model covers the semantic core of /repo (ModelarDB-RS at the pinned commit): compression and
decompression, the write-ahead log, the ingestion pipeline, transfer to the remote data folder,
writes to Delta Lake tables, the query operators and their planning, the rewriting of aggregates,
table definitions and how they are stored and sent, the catalog with crashes, SQL statements that
name tables, clusters, the bulk loader and the embedded library. The Rust code was read as text and translated by hand into total,
computable Gallina functions. Nothing was compiled or run.

The properties are in `properties.jsonl`, the theorems for each property in `MANIFEST.json`, and
the attempts to prove the theorems about wrong programs in `seeded/LOG.jsonl`.

## Layout (rocq/theories)

* `Model/*.v`: the code, function by function. Every definition cites the lines of /repo it models
  and says what is simplified.
* `Spec/*.v`: small specifications that do not use the helpers of the model. Theorems are stated
  with them.
* `Proofs/*.v`: lemmas and proofs.
* `Props/Cnn.v`: the theorems about property Cnn and nothing else. Each is closed by `exact lemma`
  and followed by `Print Assumptions`. Beside them are examples with concrete values that meet the
  hypotheses.

Names of theorems: `_partial` is a theorem that needs more hypotheses than the property or covers
fewer cases, and its comment says what is missing. `_refuted` is a counterexample: the property, or
the part of it that is missing in a `_partial` theorem, is false of the model.

## Conventions

* Integers are `Z` with explicit wrapping where the code can wrap. The release profile of /repo has
  no overflow checks and `panic = "abort"`; debug builds panic instead of wrapping.
* f32 and f64 are Flocq's `binary32` and `binary64` with round to nearest even.
* A panic is an explicit outcome (`Panic`), and so is an error (`Err`).
* Loops are structural recursion, or recursion with fuel that is proved to be enough.
* Concurrency is interleaving of atomic steps: one step per region protected by a lock, operation
  on a channel, or operation on the file system. A crash can happen between any two steps.
* External systems are parameters (oracles) about which only the listed contracts are assumed.

## Trusted base

1. The kernel of Coq 8.16.1.
2. The axioms that `Print Assumptions` lists, see below. No axioms were added, and no checks of the
   kernel are switched off.
3. That the definitions in `Model/` are faithful to the cited lines, with the simplifications they
   name.
4. That the definitions in `Spec/` say what the English of `properties.jsonl` says.
5. The contracts of external code listed under "Contracts".

## Axioms

All axioms are from the standard library of Coq: they belong to its real numbers, used by Flocq.

* "Closed under the global context" (no axioms): `c01_bits_round_trip`, `c02_timestamps_lossless`, `c02_residual_timestamps_are_bytes`, `c02_duplicates_refuted`, `c03_len_is_number_of_timestamps`, `c15_survives_partial`, `c15_on_disk_partial`, `c15_reopen`, `c15_progress`, `c15_lost_refuted`, `c15_reopen_fails_refuted`, `c16_ids_grow_partial`, `c16_fresh_partial`, `c16_files_partial`, `c16_reused_refuted`, `c16_reused_after_truncate_refuted`, `c17_deleted`, `c17_names`, `c17_kept`, `c18_replay_partial`, `c18_missing_refuted`, `c19_repeatable_partial`, `c19_opens`, `c19_crash_refuted`, `c20_truncated_partial`, `c20_crash_refuted`, `c21_no_deadlock`, `c21_terminates`, `c21_exclusive`, `c22_refuted`, `c22_lost_with_saved_partial`, `c22_single_rows_partial`, `c23_nothing_twice_partial`, `c23_refuted`, `c24_conserved_partial`, `c24_healthy_partial`, `c24_memory_refuted`, `c24_timestamp_refuted`, `c25_one_series_partial`, `c25_refuted`, `c26_buffer_partial`, `c26_files_partial`, `c26_refuted`, `c27_balance_partial`, `c27_not_leaked_partial`, `c27_uncompressed_refuted`, `c27_compressed_refuted`, `c28_no_panic_partial`, `c28_writer_partial`, `c28_client_partial`, `c28_race_refuted`, `c28_leak_refuted`, `c29_barrier_partial`, `c29_refuted`, `c30_closed_partial`, `c30_terminates_partial`, `c30_refuted`, `c31_exactly_once_partial`, `c31_nothing_lost_partial`, `c31_nothing_invented`, `c31_loss_refuted`, `c31_crash_refuted`, `c31_overlap_refuted`, `c32_dropped`, `c32_triggered_partial`, `c32_triggered_new_size_partial`, `c32_equal_refuted`, `c32_size_partial`, `c32_size_refuted`, `c32_no_panic`, `c32_periodic_refuted`, `c33_all_or_nothing_partial`, `c33_nothing_left_partial`, `c33_close_refuted`, `c33_load_refuted`, `c33_reported_refuted`, `c34_filters_partial`, `c34_compressed_partial`, `c34_equal_refuted`, `c34_equal_kept_refuted`, `c34_panics`, `c34_generated_refuted`, `c35_prefix`, `c35_complete`, `c35_limit_zero_refuted`, `c36_rows_partial`, `c36_shortest_partial`, `c36_limit_partial`, `c36_limit_one_field`, `c36_one_field`, `c36_filter_refuted`, `c36_overlap_refuted`, `c36_limit_refuted`, `c37_grid`, `c37_single_partial`, `c37_join_partial`, `c37_refuted`, `c40_no_panic`, `c41_accepted_iff`, `c41_described`, `c41_no_panic`, `c41_timestamps_refuted`, `c41_names_refuted`, `c43_received_partial`, `c46_drop_partial`, `c46_truncate`, `c46_vacuum_partial`, `c46_cluster`, `c46_accepted`, `c46_text`, `c46_multipart_refuted`, `c46_nested_refuted`, `c46_empty_name_refuted`, `c46_semicolon_refuted`, `c46_empty_refuted`, `c46_case_refuted`, `c47_names_partial`, `c47_definitions_partial`, `c47_create`, `c47_drop_partial`, `c47_refused`, `c47_start_partial`, `c47_members`, `c47_new`, `c47_type_refuted`, `c47_comma_refuted`, `c47_quoted_refuted`, `c47_several_refuted`, `c47_restart_refuted`, `c47_listed_refuted`, `c47_keys_refuted`, `c47_overlap_refuted`, `c48_limit_partial`, `c48_usage_partial`, `c48_conserved_partial`, `c48_ingested_refuted`, `c48_dropped_refuted`, `c49_completes_partial`, `c49_refuted`, `c50_export_refuted`, `c51_move_keeps_rows_partial`, `c51_other_tables`, `c51_move_to_itself_refuted`, `c51_concurrent_write_refuted`, `c51_duplicates_refuted`, `c51_names_refuted`, `c51_copy`, `c51_copied_points`, `c51_move_checks`, `c51_copy_checks`, `c52_rows_partial`, `c52_aggregates_partial`, `c52_doubled_partial`, `c52_doubled_aggregates_partial`, `c52_quote_refuted`, `c52_quoted_tag_refuted`, `c52_timestamp_refuted`, `c52_case_refuted`, `c53_folder`, `c53_client_partial`, `c53_same_partial`, `c53_retention_refuted`, `c53_name_refuted`, `c53_empty_name_refuted`, `c54_parsed_partial`, `c55_latest_partial`, `c55_durable_partial`, `c55_refused_partial`, `c55_one_thread`, `c55_failed_update_refuted`, `c55_failed_start_refuted`, `c55_no_batch_size_refuted`, `c56_nothing_returns_partial`, `c56_logged_kept_partial`, `c56_exact_partial`, `c56_truncated_refuted`, `c56_dropped_refuted`, `c57_truncated_partial`, `c57_not_returned`, `c57_others_partial`, `c57_succeeds`, `c57_transfer_refuted`, `c57_stopped_node_refuted`, `c57_failed_refuted`, `c57_unsaved_refuted`, `c57_marked_refuted`, `c58_answerable_iff`, `c58_progress_partial`, `c58_ends_partial`, `c58_exclusive`, `c58_tables_refuted`, `c58_kill_refuted`, `c58_three_refuted`, `c59_transferred_partial`, `c59_moved_partial`, `c59_transfer_ends`, `c59_overlap_refuted`, `c59_cleared_refuted`, `c59_flush_memory_partial`, `c59_flush_node_partial`, `c59_kill_node_partial`, `c59_ctrl_c_partial`, `c59_unlisted`, `c59_kept_partial`, `c59_once_partial`, `c59_flush_node_ends`, `c59_kill_node_ends`, `c59_single_refuted`, `c59_unsaved_refuted`, `c59_killed_refuted`, `c59_unmarked_refuted`, `c59_twice_refuted`, `c60_executed_partial`, `c60_listed`, `c60_assigned_iff`, `c60_refused_iff`, `c60_accepted_partial`, `c60_balanced_partial`, `c60_crashed_refuted`, `c60_mode_refuted`, `c60_twice_refuted`, `c60_starting_refuted`, `c60_ended_refuted`, `c60_default_host_refuted`, `c60_unlisted_refuted`, `c62_parsed`, `c62_sent_iff`, `c62_rows_partial`, `c62_named_partial`, `c62_errors_partial`, `c62_answered_partial`, `c62_aborts_iff`, `c62_aborts_refuted`, `c62_sent_refuted`, `c62_named_refuted`, `c63_kept_partial`, `c63_not_mixed_partial`, `c63_runs_partial`, `c63_goes_on_partial`, `c63_used_partial`, `c63_mixed_refuted`, `c63_aborts_refuted`, `c63_waits_refuted`, `c63_dropped_refuted`, `c63_lost_refuted`, `c63_interrupted_refuted`, `c64_lines`, `c64_executed_partial`, `c64_comment_iff`, `c64_comment_partial`, `c64_quits`, `c64_errors_iff`, `c64_comment_refuted`, `c64_statements_refuted`, `c64_status_refuted`, `c64_empty_refuted`, `c64_errors_refuted`, `c64_commands_partial`, `c65_open_iff`, `c65_defined_partial`, `c65_wrong_kind`, `c65_not_open`, `c65_succeeds`, `c65_fails_iff`, `c65_error_partial`, `c65_message_valid`, `c65_close_error_refuted`, `c65_copy_refuted`, `c65_released_partial`, `c65_leak_refuted`, `c65_schema_leak_refuted`, `c65_python_partial`, `c65_python_types_refuted`, `c65_python_temporary_refuted`, `c65_python_within_refuted`, `c65_utf8`, `c65_executes`, `c65_accepts`, `c65_python_method`, `c65_python_transfer_partial`, `c66_ids_partial`, `c66_durable_partial`, `c66_replayed_partial`, `c66_restarts_partial`, `c66_stuck`, `c66_unsynced_lost_refuted`, `c66_unsynced_twice_refuted`, `c66_part_refuted`, `c66_truncate_refuted`, `c66_mark_refuted`, `c66_ready_partial`, `c67_vacuumed_partial`, `c67_bounded_partial`, `c67_success_partial`, `c67_storm_refuted`, `c67_comma_refuted`, `c67_quoted_refuted`, `c67_stopped_refuted`, `c68_written_partial`, `c68_accepted_partial`, `c68_checked_partial`, `c68_part_partial`, `c68_atomic_partial`, `c68_unchecked_refuted`, `c68_seconds_refuted`, `c68_names_refuted`, `c68_split_refuted`, `c68_transfer_refuted`, `c68_empty_refuted`, `c68_insert_refuted`, `c68_case_refuted`, `c68_null_refuted`, `c68_poison_refuted`, `c70_capacity`, `c72_local_iff`, `c72_remote_iff`, `c72_unique`, `c72_started_iff`, `c72_saved_partial`, `c72_address`, `c72_port`, `c72_left_behind_refuted`, `c72_same_address_refuted`, `c72_host_refuted`, `c73_word`, `c73_offered_partial`, `c73_accepted`, `c73_two_words_refuted`.
* `ClassicalDedekindReals.sig_forall_dec`, `FunctionalExtensionality.functional_extensionality_dep`: `c07_swing_within_error_bound_exact_arithmetic_partial`, `c38_columns_partial`, `c38_errors_partial`, `c38_one_field_partial`, `c39_rows_partial`, `c43_transport`.
* `ClassicalDedekindReals.sig_forall_dec`, `ClassicalDedekindReals.sig_not_dec`, `Classical_Prop.classic`, `FunctionalExtensionality.functional_extensionality_dep`: `c04_macaque_v_lossless`, `c05_macaque_v_within_error_bound_partial`, `c05_small_bound_refuted`, `c06_pmc_within_error_bound_partial`, `c06_relative_100_refuted`, `c07_swing_near_f64_partial`, `c07_swing_within_error_bound_f64_partial`, `c07_not_finite_values_exact`, `c07_lossless_refuted`, `c07_absolute_refuted`, `c08_every_point_in_exactly_one_segment`, `c09_pmc_parameters_partial`, `c09_swing_parameters_partial`, `c09_pmc_nan_refuted`, `c09_swing_nan_refuted`, `c10_segments_restore_series_partial`, `c10_values_near_partial`, `c10_values_within_bound_partial`, `c10_residual_after_line_refuted`, `c10_nan_refuted`, `c10_signed_zeros_refuted`, `c11_cheapest_model_selected`, `c12_split`, `c12_no_panic`, `c12_empty_batch_refuted`, `c13_check_sound`, `c13_lossless_exact`, `c13_check_complete_absolute`, `c13_check_complete_relative`, `c14_count`, `c14_min_max_partial`, `c14_sum_avg_partial`, `c14_lines_min_max_partial`, `c14_lines_sum_avg_partial`, `c14_line_min_refuted`, `c14_swing_sum_refuted`, `c14_min_of_infinities_refuted`, `c14_sum_overflow_refuted`, `c38_type_refuted`, `c38_tag_refuted`, `c38_constant_refuted`, `c39_position_refuted`, `c39_count_refuted`, `c40_rewrite_partial`, `c40_rewritten_partial`, `c40_rewrite_lines_partial`, `c40_rewritten_lines_partial`, `c40_count_refuted`, `c40_sum_refuted`, `c40_empty_refuted`, `c40_single_refuted`, `c41_statement`, `c42_restart`, `c42_new_table`, `c42_statement`, `c42_generated_tag_refuted`, `c43_received_refuted`, `c44_starts`, `c44_completed`, `c44_create_partial`, `c44_drop_partial`, `c44_definition_refuted`, `c44_blocked_refuted`, `c44_dotted_refuted`, `c45_absolute`, `c45_relative`, `c45_constructed_iff_valid`, `c50_normal_tables`, `c50_normal_tables_complete`, `c50_failure_changes_nothing`, `c50_time_series_tables_refuted`, `c50_all_rows_partial`, `c50_completes_partial`, `c50_null_refuted`, `c50_names_refuted`, `c50_partitioned_refuted`, `c50_registered_partial`, `c50_cast_null_rejected`, `c51_bounds_partial`, `c51_bounds_refuted`, `c51_part_not_copied_refuted`, `c54_created_partial`, `c54_text_partial`, `c54_no_panic_partial`, `c54_case_refuted`, `c54_empty_refuted`, `c61_c_asked`, `c61_c_created_partial`, `c61_c_aborts_iff`, `c61_zero_is_lossless_refuted`, `c61_c_no_abort_refuted`, `c61_c_unknown_column_refuted`, `c61_python_asked_partial`, `c61_python_created`, `c61_python_aborts_iff`, `c61_python_no_abort_refuted`, `c61_python_no_larger_refuted`, `c69_query_near_partial`, `c69_query_within_partial`, `c69_query_in_order_partial`, `c69_query_any_time_partial`, `c69_filter_partial`, `c69_filter_any_time_partial`, `c69_limit_partial`, `c69_late_refuted`, `c70_count_partial`, `c70_count_any_time_partial`, `c70_min_max_partial`, `c70_sum_avg_partial`, `c71_each_once_partial`, `c71_filter_partial`, `c71_count_partial`, `c71_only_inserted_partial`, `c71_lost_refuted`, `c71_twice_refuted`.

## What is modelled

| Model | Code in /repo/crates | Simplified or left out |
|-------|----------------------|------------------------|
| `Base`, `Float` | integers, f32, f64 | payload of NaN results as in Flocq; `f64::log2` and ties of `f32::min/max` are fields of `platform` |
| `Bits` | modelardb_compression/src/models/bits.rs | all modelled |
| `Timestamps` | models/timestamps.rs, `len` in models/mod.rs | all modelled |
| `ErrorBound` | models/mod.rs (checks), modelardb_types/src/types.rs `ErrorBound` | parsing of text |
| `MacaqueV` | models/macaque_v.rs | all modelled |
| `Pmc` | models/pmc_mean.rs | all modelled |
| `Swing` | models/swing.rs | all modelled, once for any arithmetic |
| `Segments` | compression.rs (one series), types.rs (builders, encoding), models/mod.rs `grid`, `sum` | Arrow builders are lists |
| `Multivariate` | compression.rs `try_compress_multivariate_time_series` and below | batches are lists of rows; sorting is a parameter |
| `Aggregates` | modelardb_storage/src/optimizer/model_simple_aggregates.rs accumulators | several batches are one |
| `AggregateRule` | the same file, the rule | one state for all partitions; other operators are a relation |
| `Wal` | modelardb_storage/src/write_ahead_log.rs | one table; names of files are pairs of ids; failing input and output |
| `WalLocks` | the locks of the same file | the outer tokio locks |
| `Pipeline` | modelardb_server/src/storage/{mod, types, uncompressed_*, compressed_*}.rs, context.rs `replay_write_ahead_log`, configuration.rs limits | compression itself (see `Segments`); several ingestion threads; the remote folder (see `Transfer`) |
| `Transfer` | storage/data_transfer.rs and its callers | rows are numbers; remote writes and truncations are atomic |
| `TableWriter` | modelardb_storage/src/data_folder/delta_table_writer.rs | one buffer instead of one per partition |
| `Filters` | query/time_series_table.rs l.261-392 | evaluation of predicates cannot fail |
| `Streams` | query/grid_exec.rs, query/sorted_join_exec.rs | wakers; metrics |
| `DataSource` | query/time_series_table.rs `new_data_source_exec` | filters of the data source; reading of Parquet files |
| `Scan` | query/time_series_table.rs `scan`, query/generated_as_exec.rs | sinks; statistics; file listing |
| `Table` | modelardb_types/src/types.rs, data_folder/mod.rs (metadata tables), flight/mod.rs | bytes of schemas and expressions |
| `Catalog` | data_folder/mod.rs create and drop, context.rs, main.rs startup | one node; operations run one at a time; input and output do not fail |
| `Sql` | parser.rs tokens, DROP, TRUNCATE, VACUUM; parts of sqlparser | ASCII; no comments or escaped quotes |
| `Statements` | remote.rs and context.rs: effects of these statements | Delta log |
| `Cluster` | modelardb_server/src/cluster.rs, data_folder/cluster.rs, remote.rs | definitions are numbers; crashes while creating |
| `ClusterTruncate` | modelardb_server/src/cluster.rs l.209-339, remote.rs l.412-438, context.rs l.340-382 | rows are numbers; one transfer per node at a time; rows in memory survive crashes |
| `ServerLocks` | modelardb_server/src/remote.rs l.322-525 and l.827-985, context.rs l.107-127 and l.306-380, configuration.rs l.255-426, storage/compressed_data_manager.rs l.77-107 and l.240-291 | only the four read-write locks that requests share; everything else is work that ends or fails; the threads of the storage engine work for the request that waits for them; tokio locks are granted in the order of the requests |
| `Bulkloader` | modelardb_bulkloader/src/main.rs import and export | rows are lists of values; reading Parquet files is a list of batches or errors |
| `Copies` | modelardb_embedded/src/operations/data_folder.rs move and copies | rows are numbers; the writer is atomic (see `TableWriter`) |
| `EmbeddedTables` | operations/client.rs and operations/data_folder.rs drop, truncate, vacuum | registered tables are those that are saved |
| `CreateSql` | parser.rs `parse_create_time_series_table`, `parse_columns`, `semantic_checks_for_create_table`; parts of sqlparser's tokenizer | ASCII; no comments, exponents or escaped quotes; expressions and `f32::from_str` are parameters |
| `Configuration` | modelardb_server/src/configuration.rs, `ServerArgs`, `UpdateConfiguration` in remote.rs | TOML is a parameter; the effect on the storage engine is in `Pipeline` and `Transfer` |
| `LogModes` | replay, create, drop, truncate in modelardb_server/src/context.rs, `WriteAheadLog::try_new` and `create_table_log` | a batch is saved as a whole; operations are not interrupted; ids are never reused (C16) |
| `Reads` | operations/mod.rs `generate_read_time_series_table_sql`, operations/data_folder.rs `read`; parts of sqlparser and DataFusion | ASCII; no comments; aggregates are a parameter |
| `NodeStop` | modelardb_server/src/remote.rs l.853-898 FlushMemory, FlushNode, KillNode, main.rs l.171-188 | data points are compressed when inserted |
| `QueryNodes` | modelardb_server/src/remote.rs `get_flight_info`, data_folder/cluster.rs, cluster.rs | a row is a number and all are in one table; each access to the table with nodes is one commit |
| `ForeignTables` | modelardb_embedded/src/capi.rs create, bindings/python create, operations/mod.rs | Arrow's C data interface; expressions are a parameter |
| `Includes` | remote.rs l.88-210 and l.679-696, parser.rs l.452-490 | comments before the last address; what a node answers to a query is a parameter |
| `Lifetimes` | remote.rs l.500-525, context.rs l.107-159 and l.260-381, uncompressed_data_manager.rs l.130-316, compressed_data_manager.rs l.112-291 | one name, one row per batch, queues and memory are one set of buffers, commits succeed if there is a table; how Apache Arrow reads log batches with other columns is not modelled |
| `QueryFile` | modelardb_client/src/main.rs l.98-252 | only ASCII white space; the connection, the read-eval-print loop and printing of results are not modelled |
| `Handles` | capi.rs except what is converted to error bounds and columns, operations.py l.121-702 | calls are executed one at a time, alignment of eight bytes, results of operations are oracles, the position in messages about UTF-8 |
| `WalErrors` | write_ahead_log.rs l.268-626 with each operation on a file failing | what follows an incomplete batch in a file makes it unreadable, a batch whose sync fails is in the file, `flush` of a file does nothing |
| `ClusterVacuum` | modelardb_server/src/cluster.rs l.224-269, 351-358, remote.rs l.443-470, 707-725 | one statement at a time, peers one after another in any order; after an error any of the other peers may still execute it |
| `Writes` | modelardb_embedded/src/operations/data_folder.rs l.191-290, 547-570, client.rs l.163-219, modelardb_server/src/remote.rs l.230-239, 473-525, 750-792, storage/data_sinks.rs l.79-193, compressed_data_manager.rs l.78-108, storage/mod.rs l.246-293, uncompressed_data_manager.rs l.130-180, context.rs l.266-310 | Arrow's IPC record batches have lengths and buffers but no names and types; reading one with columns of other widths gives anything (parameter `mismatched`); `RecordBatch::try_new` refuses nulls in columns that are not nullable; Arrow Flight may divide a batch; one request at a time |
| `EndToEnd` | modelardb_server/src/storage/uncompressed_data_manager.rs l.553-590, compressed_data_manager.rs l.248-263, modelardb_storage/src/data_folder/delta_table_writer.rs l.157-163, query/grid_exec.rs l.323-345 | connects the models of ingestion, compression, files and queries; Apache DataFusion sorts segments by tags and start time (`sorts_segments`); files contain the segments of the commits in any division (`hold`) |
| `Startup` | modelardb_server/src/data_folders.rs l.50-122, main.rs l.50-166, modelardb_storage/src/data_folder/mod.rs l.83-266, write_ahead_log.rs l.59-75, modelardb_server/src/remote.rs l.66-73 | the command line has been divided into arguments; opening a folder, joining the cluster and the later steps succeed or fail as the oracle `world` says |
| `Completion` | modelardb_client/src/helper.rs l.31-102 | only ASCII letters have an upper case; `extract_word` of rustyline returns what is after the last space before the cursor, the editor replaces it by a candidate |

Not modelled: the interactive part of modelardb_client except completing words, modelardb_test, how clap divides the
command line into arguments, the
Arrow Flight transport and its authentication, normal tables (query/normal_table.rs) beyond their
registration, the text of SQL other than CREATE TIME SERIES TABLE, DROP, TRUNCATE, VACUUM, INCLUDE
and generated reads, MacaqueV on platforms whose arithmetic is not IEEE 754,
loss of power (as opposed to a crash of the process).

## Contracts

* Compression: `good_log2` (the `log2` of the platform is exact enough that its floor is right) and
  `ties_first` (which of two equal zeros `min` and `max` return). Both are proved for a concrete
  platform, so they can be met.
* Sorting (`lexsort_to_indices`): returns a permutation that is sorted.
* Write-ahead log: a file system operation that was executed is not undone by a crash of the
  process; ids are less than 2^64; the commit history of a Delta table is not cleaned; operations
  on one log are serialisable since they take the locks in one order and hold them to the end.
* Pipeline: channels are FIFO and unbounded, tags are hashed by an unknown function, compression of
  a buffer succeeds or fails as a whole, a commit to a table is atomic.
* Transfer: a write to the remote table and the deletion of the rows in the local table are atomic
  commits. A task is not cancelled within a transfer.
* Delta Lake writer: each call of `deltalake` and `object_store` can fail; a failed commit may or may
  not have reached the log (`Reported_failed`).
* DataSource: Apache DataFusion reads the files of a group in order until the limit is reached, and
  sorts the output of a data source with several files without statistics for an operator that
  requires sorted input.
* Streams: the input is a list of poll results and stays finished after its end.
* Expressions are evaluated row by row by an unknown function. Parsing an expression takes the
  first tokens of its input, whatever follows the parenthesis after it (`takes_first`).
* DataFusion: `scan` is called with an empty projection for COUNT(*), filters are applied again
  after the scan, and the sort operator returns sorted batches.
* Configuration: TOML is read as it was written and a file is written as a whole or not at all.
* Definitions: bytes of schemas and expressions are read as they were written (`faithful`), the
  order of a HashSet is unknown (`enumerates`), an f32 is read as it was printed.
* Catalog: each commit is atomic; a Delta table exists iff its folder has a log file; the files of a
  folder are deleted in any order.
* SQL: the behaviour of sqlparser is modelled from its API; its source is not in /repo; which
  keywords are reserved is a parameter.
* Cluster: messages arrive or fail as a whole; a failing node cancels the requests to the others.

## Properties

| Id | Status | What is modelled and how it is proved | Result |
|----|----|----|----|
| C01 Bit packing round trip | proved | `Bits`. Writer and reader are related to lists of booleans; induction over the writes. | Proved as stated. |
| C02 Timestamps are stored losslessly | proved | `Timestamps` on `Bits`. Invariants of the encoder and decoder loops; induction over timestamps. | Proved for strictly increasing timestamps; duplicates refuted. |
| C03 Data point count without decompression | proved | `Timestamps`. Uses the lemmas of C02. | Proved as stated. |
| C04 MacaqueV lossless round trip | proved | `MacaqueV` on `Bits`. The decoder simulates the encoder, including the window; induction over values. | Proved as stated. |
| C05 MacaqueV lossy values stay within the error bound | partial | `MacaqueV`. Real-number semantics of f32 (Flocq); each stored value is checked or rewritten within the bound. | Bound proved for values up to 8 million times an absolute bound and for relative bounds of at least 1/80000 percent with values of at least 2^-100, with exact IEEE arithmetic and a log2 oracle. Refuted for small absolute bounds: 1000.0 with bound 1e-5 is stored as 2.0. |
| C06 PMC-Mean models respect the error bound | partial | `Pmc`. Invariant over the offered values: minimum, maximum, sum; the mean is between them. | Proved for every valid bound except a relative bound of exactly 100% with values that do not all have the same sign; that case is refuted by a witness. |
| C07 Swing models respect the error bound | partial | `Swing`. Invariant over offered points with exact arithmetic; error analysis of all f64 and f32 operations. | The full claim is false: the f64 rounding errors can exceed what the deviation leaves of the bound (two refutations). Proved: the algorithm keeps the bound with exact arithmetic; with the program's f64 arithmetic every restored value is within the deviation plus an explicit rounding error (size of the values, number of data points, timestamps divided by the shortest interval), so the bound is kept whenever this is less than 1% of an absolute bound or 0.1% of a relative bound. Timestamps up to 2^52 and values up to 2^120. Infinities and NaN are exact. |
| C08 Every data point ends up in exactly one segment | proved | `Segments`. Invariant of the compression loop: what has been stored and what is left is the series. | For all platforms, error bounds and series of any length with strictly increasing timestamps (valid_timestamps). |
| C09 Model parameters survive their compact encoding | partial | `Segments` encode and decode of parameters; case analysis on what is stored with the residuals. | Proved for all models that are not NaN; the claim is false for NaN models with residuals that are numbers (refuted). |
| C10 Decompressing a segment restores its data points | partial | Composition of C02, C04-C09 for `compress_univariate` followed by `grid`. | Timestamps, counts and order for all series; values within the bound for constant models, residual segments, and residuals after constants; values of linear functions within the deviation plus an explicit rounding error, and within the bound when this error is less than what the deviation leaves of it. Full claim refuted for residuals after a linear function, NaN, and signed zeros on platforms that order zeros. |
| C11 The cheapest model is selected | proved | `Segments` selection of models by bytes per value in f32. | Selection proved with binary32 arithmetic; length comparison exact up to 65,536 values per model (buffer capacity). |
| C12 Multivariate batches are split into the right time series | proved | `Multivariate`. Permutations; groups of rows with equal tags; sorting is a parameter. | Proved for any sort that returns a sorted permutation (what is assumed about arrow). A batch without rows is outside the theorem: it makes compression panic if the table has tags. |
| C13 The error bound check means what it says | proved | `ErrorBound` on real numbers, with the rounding errors of the three operations. | Soundness and completeness of the check on real numbers, rounding of the check bounded by 2^-22. |
| C14 Aggregates computed from models agree with the data points | partial | `Aggregates` compared with folds over the values of `grid`; error bounds of f32 and f64 summation, and of the values of lines against the exact line. | COUNT is proved for all segments. MIN and MAX, and SUM and AVG up to f32 rounding, are proved for segments that are not linear functions, and up to the rounding of lines for all segments without residuals after a linear function. Refuted: exact MIN of a linear function, SUM of a linear function with residuals and irregular timestamps, MIN of only infinities, a finite SUM of a segment that is greater than the greatest f32. |
| C15 Acknowledged batches survive a crash | partial | `Wal` as a state machine over a file system; ghost history; invariant over all steps and crashes. | Proved for every history with crashes between any two file system operations in which the files show the next id whenever the log is opened. The full statement is false: if the newest closed file was deleted before the active file had a batch, an id is reused and the batch lost, and a crash between creating a file and writing its schema makes the log impossible to open. |
| C16 Batch ids identify one batch forever | partial | As C15: ids of the history are increasing. | Proved under the same condition as C15; the full statement is refuted. |
| C17 Log files are deleted only when fully persisted | proved | As C15, for each deleted file. | For histories without restarts the condition on opening holds trivially for the first opening; with restarts it is needed. |
| C18 Replay returns exactly the unpersisted batches | partial | Refinement: the log and a ledger of unpersisted batches. | Refinement of a ledger; same condition as C15. |
| C19 Recovery is repeatable | partial | As C15, with any number of interrupted recoveries. | Any number of interrupted recoveries; same condition as C15. Refuted for a crash after the empty active file was deleted. |
| C20 Truncating a table empties its log | partial | As C15, for the operation truncate. | Same condition as C15. Refuted for a crash while truncating. |
| C21 Write-ahead log operations cannot deadlock | proved | `WalLocks`: acquisition in a fixed order; a measure decreases with each step. | Any number of threads and any interleaving of lock acquisitions. |
| C22 No acknowledged data point is lost by a crash | partial | `Pipeline` with crashes; ghost identities of data points; invariant over all executions. | Refuted: a batch counts as persisted once any of its data points is committed, so a crash loses the rest of it. Proved: a data point is only lost if another data point of its batch is committed, so single-row batches are never lost; needs collision-free hashes, distinct timestamps in a series, written spills, commits written after the crash and no race with a client that lowers a limit. |
| C23 No data point is stored twice by recovery | partial | As C22. | Proved for any run with any number of crashes and failed commits, given collision-free hashes, distinct timestamps per series, written spills and no race with a client that lowers a limit. Refuted for equal timestamps: spilled files replace each other. |
| C24 Ingestion conserves data points | partial | As C22; multiset of data points is constant. | Exact conservation at every point of every crash-free run under the stated conditions. Refuted with memory for less than two buffers and for equal timestamps. |
| C25 A buffer holds one time series only | partial | As C22; every data point of a buffer has the series of its key. | For all executions, including crashes, failures and races, if the hashes of the received series differ. Refuted for every hash function, as tag values are concatenated without a separator. |
| C26 Spilling to disk is transparent | partial | Buffers under any sequence of uses; paths of files in all executions. | Spilling and reading one buffer is transparent for any sequence of uses, and files of spilled buffers are never shared in any run under the stated conditions. Refuted for equal timestamps: two buffers of one series have the same file. |
| C27 Memory limits are never exceeded | partial | As C22; sums of memory in pools, channels and buffers are constant. | Exact accounting in every state of every run if no buffer is spilled to make room for another (uncompressed) and tables have one field (compressed). Refuted otherwise: usage of twice the limit. |
| C28 Freeing compressed memory always succeeds | partial | As C22; termination of the loops that free memory. | No step panics and the loops of writer and client end with enough memory if there is no race between them and commits succeed. Refuted for a race and after a failed commit. |
| C29 Flush is a barrier | partial | As C22; what was inserted before a flush is committed when it returns. | Proved for every schedule under the conditions of C24. Refuted for a failed commit: the flush still returns Ok. |
| C30 Closing the storage engine loses nothing and terminates | partial | As C22; decreasing measure of channels and work. | Safety and termination for every schedule with memory for two buffers. Refuted without: closing waits forever. |
| C31 Transfer to the remote data folder neither loses nor duplicates data | partial | `Transfer`: interleavings of tasks, saves, crashes and failures; invariant over all events. | Exactly-once transfer is proved for every interleaving of saves, transfers, crashes and failures except those in which a save, a crash or a second transfer falls into the window of a transfer; for each excluded window a counterexample is proved. Crashes and failures never lose rows: nothing is lost unless a save falls into the window. |
| C32 Transfer is triggered by size and never for dropped tables | partial | As C31, for recorded sizes and locks. | Dropped tables are never transferred in any execution. The trigger and the bound of the recorded size hold when transfers of a table do not overlap; overlapping transfers wrap the size, a batch size set to exactly the size of a table does not transfer it, and a failed periodic transfer aborts the server (all proved as counterexamples). |
| C33 Table writes are all-or-nothing | partial | `TableWriter` with an oracle for each external call; all lists of batches. | All-or-nothing visibility for every list of batches and every failing step, except a commit that reaches the log but is reported as failed, for which the table becomes unreadable. No files are left behind unless closing the writer or deleting a file fails; counterexamples are proved. |
| C34 Time filters never drop matching data points | partial | `Filters`: evaluation of the original and of the rewritten expressions; induction over expressions. | Proved for any number of filters of any shape whose comparisons with the timestamp have a constant on the other side, with the timestamp on the left or (for <, <=, >, >=) on the right. Refuted for constant = timestamp (segments with matching points are dropped, grid filter uses the wrong operand). Panics are characterised; a scan panics for every filter that compares a generated column since the stored schema is used. |
| C35 Query results do not depend on batching or scheduling | partial | `Streams` GridStream as a machine driven by polls; induction over the poll script. | Any input of batches and pending polls, any grid function and predicate: the returned batches concatenate to the selected data points irrespective of batch size, batching and scheduling, no batch is too large, and the end is reached. A limit of zero never ends (normally removed by DataFusion's optimizer). Pending is a value of the input script; wakers and the async runtime are not modelled. |
| C36 Multi-field rows are assembled from the same data point | partial | `Streams` SortedJoinStream; chunks of equal lengths. `DataSource` for limits: what is read for each field is a prefix of one file. | Rows pair values of the same data point if every batch of segments but the last is full and every segment has a selected data point; with a limit this is proved for one file per field and for one field. Refuted with a predicate that removes different numbers of data points per batch, with overlapping segments, and with a limit and several files. Queries of one field are right for any predicate, limit and batches (c36_one_field). |
| C37 Errors in a scan are reported | partial | As C35 and C36, for errors. | Errors of a field are returned by GridStream and by queries of one field. With several fields an error is overwritten when a later field is pending or at its end; the query then ends without an error and with rows missing. |
| C38 Projections return the requested columns | partial | `Scan`: projections, column positions and generated columns from definition to rows. | Proved for every table, projection and order of columns, with batches as in c36_rows_partial, including generated columns that cannot be computed for some rows, for which the query ends with an error. Queries that read one field are proved for any batches and predicates. Fields defined as tags, tags named timestamp or value, and projections that read no stored column panic. |
| C39 Queries without stored fields still return rows | partial | As C38 for projections without stored fields. | Proved when no generated column is before the first stored field; otherwise no rows are returned. A query of no columns panics. |
| C40 Aggregates are rewritten only when equivalent | partial | `AggregateRule` on plans, with the accumulators of C14; what is right is a parameter, exact or up to the rounding of lines. | Proved for every plan when the rewritten aggregates are of the field itself, the table is not empty and C14 applies to its segments: exactly for segments that are not linear functions, and up to the rounding of their values for linear functions without residuals. Expressions in aggregates are ignored, and empty tables and aggregates in one step are wrong. |
| C41 Accepted table definitions are well formed | partial | `Table` try_new compared with a specification of well formed definitions. | Accepted exactly if well formed, counting stored columns; tables created by a statement are valid in full. Not provable as stated: without a statement a second, generated, column of timestamps and duplicate names are accepted (refuted by witness). |
| C42 Table definitions survive a restart | proved | `Table`: write and read of the metadata tables for any number of tables. | For every valid definition, any number of tables, and every definition accepted from a statement; premises: expressions are read as they were written, sets are enumerated in any order. Definitions received from other nodes may be invalid: a generated tag becomes a stored tag (witness). |
| C43 Table definitions survive transport between nodes | partial | `Table`: encode and decode of the message. | Transport of valid definitions is proved in full. Received definitions are well formed, but error bounds are not validated: a bound that is not a number is accepted and stops every later restart (witness). |
| C44 Creating or dropping a table is atomic with respect to crashes | partial | `Catalog` with crashes between commits; invariant over all histories. | Proved for every history of creates, drops and crashes: the server starts again, completed tables keep their definition, and exactly what each crash point leaves behind. The full statement is false: a crash after the Delta Lake table is created, or after the metadata rows are deleted, leaves a name that can never be created or dropped again, and a crash between the metadata commits leaves a table without its error bounds and generated columns. Also a name with a dot is saved but cannot be registered, after which the server never starts. |
| C45 Only meaningful error bounds can be constructed | proved | `ErrorBound` constructors on real numbers. | Proved as stated. |
| C46 Statements affect exactly the named tables | partial | `Sql` and `Statements`: from the text of a statement to changed tables. | TRUNCATE affects exactly the named tables; DROP TABLE does for names with one part whose folders contain no other table; VACUUM does for names without semicolons and with a last name that is not empty. The statement is refuted for the other names: DROP TABLE a.b drops ab, DROP TABLE a deletes the files of a/b, VACUUM "a;b" vacuums a and b, VACUUM "" vacuums all tables, and names with upper case letters are created in lower case but never found. |
| C47 Cluster nodes agree on the tables | partial | `Cluster`: interleavings of requests on any number of nodes. | Agreement is proved for clusters of any size under any interleaving of requests in which none fails after changing tables; the refuted theorems show that nodes disagree with quoted names, lists with a missing table, restarts after crashes, failed starts, simultaneous first starts and overlapping requests for one table. TRUNCATE CLUSTER is C57; VACUUM CLUSTER is C67. |
| C48 Changing memory limits at runtime is exact | partial | `Pipeline`: changes of limits as steps in all executions. | Proved without a race with the thread that uses the same buffers. Refuted for the limit of ingested batches, and by a race that drops a data point. |
| C49 Inserting data points completes | partial | `Pipeline`: decreasing measure while a client waits. | Proved for batches that fit in the memory for batches and memory for two buffers. Refuted for larger batches, which wait forever with the lock of the storage engine. |
| C50 The bulk loader imports and exports all rows | partial | `Bulkloader` on `Multivariate`. Invariant of the import loop: what is written and what is pending are all rows read; any points of compression. | Proved for normal tables. Refuted for time series tables and for exports: tables are not registered when the data folder is opened. The function that imports into time series tables is proved to compress all rows if nothing is null and the columns are in the order of the table; nulls, other names and partitioned files are refuted. |
| C51 Moving and copying tables keeps their data | partial | `Copies`: a move as a machine with three steps, failures and writes of other clients; invariant over all events. | No row is lost if the tables are different and nobody writes to the source meanwhile; refuted otherwise. Error bounds and names of fields are not compared. Copies contain only segments entirely within the interval. |
| C52 Reading a time series table returns what is requested | partial | `Reads`: the generated text, tokens, queries and rows; the text is read as the request by composition of the parts that are written. | Proved, from the generated text through the tokenizer and the parser to the rows, for names in lower case and timestamps in a column named timestamp, and for texts without quotes or tags whose quotes are doubled by the client. Refuted otherwise: quotes change the query, other timestamp columns and names with upper case letters cannot be read. How DataFusion computes aggregates is not modelled. |
| C53 Tables are changed in the same way through a client as in a data folder | partial | `EmbeddedTables`: the statements that a client sends, executed as in C46, compared with the operations of a data folder. | Proved for every name in a data folder and for names without special characters through a client; the implementations agree for all retention periods but the largest, which wrap to negative periods and delete all stale files of a data folder. Names with commas and empty names affect other tables through a client. |
| C54 A CREATE TIME SERIES TABLE statement creates the table that is written | partial | `CreateSql`: the tokenizer and the parser of columns, followed by the checks of C41. The grammar is an inductive relation in `CreateSqlSpec`; the parser is proved equivalent to it. | Proved for all tokens and all ASCII text without comments and escaped quotes, given that sqlparser's expression parser takes the first tokens of its input. Quoted names lose their case and empty names are accepted. Whether an expression can be executed is not modelled. |
| C55 The configuration of a server is what was last accepted | partial | `Configuration`: the file and the running server as a machine; induction over all events with their results. | Proved if configuration files can be written and nobody edits them; accepted updates survive any later failures. Refuted if the file cannot be written: the update is reported as failed but used, and saved with the next update. Flags of a server that could not be started are kept. The transfer batch size is set although its flag is not. |
| C56 Deleted data never returns | partial | `LogModes`: all tables, their logs and the memory of the server as a machine; an invariant for each table name over all events. | Proved if tables are only truncated and dropped while the log is enabled, with operations that are not interrupted. Refuted otherwise: a server without a log leaves the log of the table, so its batches are replayed into the truncated table or the new table. |
| C57 TRUNCATE CLUSTER deletes the rows everywhere | partial | `ClusterTruncate`: nodes, statements and their jobs as a machine; an invariant for one statement, one table and all later events. | Proved if no transfer writes rows of the tables meanwhile and no node fails to save the rows it has in memory, for listed nodes and for names that do not have to be quoted. Refuted: rows transferred meanwhile stay in the remote data folder, nodes that are stopped meanwhile bring their rows back, rows that could not be saved return although the statement succeeded, a failed statement has deleted the rows in the remote data folder only, and a table whose truncation was stopped stays marked and is not transferred again. |
| C58 Requests do not wait for each other forever | partial | `ServerLocks`: each request as the list of locks it acquires and releases, fair locks with queues; an order of the locks that the programs respect gives progress and a decreasing measure gives termination; for the deadlocks a set of requests that block each other is shown to be preserved by every event. | Which requests can always be answered is characterised exactly (c58_answerable_iff). Refuted for the others: UpdateConfiguration deadlocks with requests that create, drop or truncate time series tables, which read the configuration twice, and with KillNode, which acquires the locks in the opposite order; every later request that needs the configuration then waits too. |
| C59 Flushing a node moves all of its data to the remote data folder | partial | `NodeStop`: a node with buffers, log, local and remote tables, and the requests as programs; an invariant says where each row is. `Transfer`: an invariant over the interleaved execution says which tables a transfer of all tables has still to visit. | Proved for all executions in which no save fails (with the log: since the last start) and, for interleavings with other tasks, transfers of the table have not overlapped. Refuted: on a node without a remote data folder both actions always fail; both succeed if rows could not be saved or their batches not marked as persisted; sizes that are wrong after overlapping transfers or cleared make a transfer of all tables skip a table with rows. |
| C60 Queries are sent to cloud nodes that are running | partial | `QueryNodes`: processes with urls and modes, the table with nodes, and queries as they are asked and executed; invariants relate the table to the processes. | The content of the table with nodes, and so to which urls a query can be assigned, is characterised exactly for all histories. The statement is proved if nodes have different urls, none failed before it was removed, none is being started and none ends before the query is executed; each of these conditions is needed (refuted otherwise). |
| C61 Time series tables created from C and Python have the error bounds that are asked for | partial | `ForeignTables`: the arrays passed from C, the checks and the encoding in Python, and `try_new_time_series_table_metadata` on top of the model of table definitions (C31); rounding with Flocq. | Which tables are created, what they are, and which requests abort the process is characterised exactly for C and Python. The statement fails for zero and for error bounds without a meaning in C (the process is aborted), for error bounds of unknown columns in C (ignored), and for valid error bounds in Python that are zero or infinite as f32 values (the process is aborted) or are rounded up. |
| C62 A query that includes other nodes returns the rows of all of them | partial | `Includes`: the addresses are parsed from the bytes of the statement, `rfind` and slicing with its panics, the loop over the addresses, the merge of the streams in any order, and sending until the first error. What a node returns for a query is a parameter. | Which addresses and query a text means, when the query is what is sent, and when the server is stopped are characterised exactly for addresses without quotes. For queries without the last address a complete response has exactly the rows of all nodes, and it is complete if and only if no node had an error. The statement fails if the last address is in the query (another text is sent, or the server is stopped), for an empty address (the server is stopped), and if the columns of the nodes differ. |
| C63 Rows inserted into a table stay in that table, whatever is done to tables with its name | partial | `Lifetimes`: puts and statements are processes that execute the steps of the functions in any order, with one set of buffers in memory keyed by tags, the ids of the log and the commits. An invariant over calm executions relates the log, the memory and the table; the refutations are executions of the model. | Proved for all executions in which statements for the name are executed one at a time, batches are inserted into the table that exists and not after a statement has flushed it, and DROP is not interrupted between deleting the log and the table. The server keeps none of these apart: without each of them rows are stored in another table, a valid insert stops the server, statements wait until a restart, another table is dropped, or acknowledged rows are lost in a crash (the refuted theorems). |
| C64 The client executes the statements in a file, as they are written | partial | `QueryFile`: lines, comments, trimming and commands are functions on bytes, the server is any state machine. Lines are proved to be an inverse of writing a file; quotes are a separate automaton in the specification. | How a file is read as lines is characterised exactly, and for files with one statement on each line, possibly indented and followed by a comment, exactly the statements are executed in order and an error is printed for each that fails. What is sent of a line is right if and only if it has no quoted dashes, and otherwise ends within a quote. The statement fails for statements on several lines, each line of which is executed alone, for quoted dashes, for indented comments, which send an empty statement, and for the exit status, which is always zero. White space that is not ASCII is not modelled. |
| C65 Programs in C and Python use data folders and nodes safely and are told why calls fail | partial | `Handles`: a heap of boxes, the thread-local errors and the arguments of each function in the order they are converted; addresses and results of operations are oracles. An invariant relates the boxes to the history of calls, and for Python the boxes to the objects that are alive. UTF-8 is compared with the encoding of RFC 3629. | Allocated data folders and clients are exactly those that are open, programs that obey the rules are defined, and every use of a handle that is not open or of another type is undefined behaviour. Calls that do not fail execute their operation with the handles and texts they are given, exactly the encodings of characters are accepted, and methods in Python pass on what they are given. Errors are those of the last failed call of the thread. The statement fails for closing, which sets no error; for arrays passed to failing calls and schemas passed to create, which are leaked; and for copies and moves in Python between a data folder and a node, within one data folder, and to a data folder that is opened in the list of arguments. Calls are executed one at a time, so handles shared by threads that call at the same time are not modelled. |
| C66 Errors of the file system do not make the write-ahead log lose or repeat batches | partial | `WalErrors`: each operation on a file of `Wal` may fail, and what the method has done to files and fields until then remains. The files satisfy the invariant of C15 for the batches written so far, where truncated ids need no file. Counterexamples are short histories. | Proved for histories in which the log is only opened if its files show the next id (as in C15) and in which nothing is appended or truncated between a restart and an error that left a batch unsynced or incomplete or the active file removed. Without the second condition the statement fails: one failed sync_data shifts all later ids, so a later batch is lost or a committed one is replayed; a batch written after an incomplete one makes the log unreadable; and after a truncation that fails when it creates the new file, acknowledged batches go to a removed file. A file that cannot be deleted can make ids be used again. After a segment could not be replaced, all appends fail until a restart. Once it is opened or truncated again, batches can be appended. |
| C67 VACUUM CLUSTER deletes old files of the tables on every node once | partial | `ClusterVacuum`: a node parses the text with `Sql`, vacuums with `Statements`, and sends text to its peers, which do the same; fuel is the number of nodes that wait for each other. The text that is sent is proved to be read as the same names and period. Counterexamples start from tables that were created with SQL. | Proved for names that do not have to be quoted and do not begin the list with a keyword: then the statement is always answered, no node gets it twice and nothing else is deleted, and it is done everywhere if all nodes run and have the tables, and only then success is reported. Without the condition it fails: a table with the name cluster; makes nodes send VACUUM CLUSTER to each other without end, a comma in a name makes peers vacuum other tables, and any name that has to be quoted makes VACUUM CLUSTER without names fail after the remote data folder was vacuumed. If a listed node is not running, the node that got the statement does not vacuum its own tables. Statements that are executed at the same time are missing. |
| C68 Rows that are written are stored once in the columns they are for, or not at all | partial | `Writes`: rows have a flag and a buffer for each entry, and messages have widths but no types, as in Arrow's IPC format. `meaning` in `WriteSpec` says what an entry is for a type, so that what is stored can be compared with what was written. By induction over batches and messages, for every parameter `mismatched`. | Proved for rows with the names and types of the table, a name in lower case, and no nulls for time series tables: all rows are stored on success, a prefix of them on failure, none on failure for data folders used directly, and the process does not stop. A data folder only accepts columns with the types of the table and without more nulls. Without these conditions it fails: a node ignores the schema of the client, so columns of another type and the same width are stored with another meaning; data folders ignore names; nulls become the number in the buffer; a null timestamp stops the node and every restart; names are changed to lower case; INSERT, batches in several messages, failed transfers and empty batches in copies give an error after rows were stored. How rows become segments is other properties; arrow's behaviour for columns of other widths is a parameter. |
| C69 A query returns what was inserted and flushed, within the error bound | partial | `EndToEnd` connects the models of ingestion, compression, files, reading, decompression and the join. The theorem composes C28 (each data point is committed once in a sorted buffer), C10 (segments of a buffer return its timestamps and near values), the order in which segments are sorted, which is shown to be the same for all fields, and C36 and C38 (the join returns the rows of the fields). By induction over the buffers, segments and events. For data points received in time order, an invariant says that the data points of an open buffer are the last ones of their series that were put in a buffer and that closed buffers have none of another buffer between theirs, so that buffers do not overlap. For one field, the theorems on filters also use C34 (rewritten filters). | Proved for data points with different timestamps that are not NaN, with fields read in the same order (one field, one file per field, or buffers that do not overlap) without predicates and limits. Buffers do not overlap if the data points of each time series are received in the order of their timestamps, which is proved by an invariant of ingestion, so c69_query_in_order_partial needs only that and the same number of files for each field. The values are within the error bound except for rounding errors, or within it if these are less than what the deviation leaves of the bound. At any time, also after crashes and failed commits, a query returns exactly the data points committed by then, which are among those sent (c69_query_any_time_partial). For queries of one field also filters on the timestamp (exactly the data points that satisfy them are returned, also when segments are left out that do not satisfy the rewritten filters) and limits are proved, for any files. Missing: residuals after a linear function (see C10), and what is missing in C10, C28 and C38. Without the condition on overlapping buffers it is false: after a late data point, the values of different data points are joined in a row. |
| C70 Aggregates are those of what was inserted and flushed | partial | Composes C28 (each data point is committed once), C10 (segments return near values), and C14 (aggregates of segments) with the models of `EndToEnd`. SUM needs that segments are short, which follows from the capacity of buffers: `c70_capacity` is an invariant of the pipeline, by induction over the events. | Proved for data points with different timestamps that can be stored as in C10 and finite values. Missing: linear functions with residuals (see C14), sums that overflow f32, and what is missing in C10, C14 and C28. |
| C71 After data was transferred, the edge node and the cloud node together return what was inserted | partial | Composition of C28, C10, C31, C36 and C38: the rows of the transfer model are the segments of the committed buffers (segment_of, of_field); Permutation of the saved rows with local ++ remote splits the data points into those of the two folders, and a query of one field returns a row for each data point of the segments it reads (EndToEndTransfer.v). Two executions refute it without the hypotheses on the transfers. | For queries of one field, also with filters on the timestamp: each data point received is returned by exactly one of the two nodes when the transfers meet the hypotheses of C31, COUNT of both nodes adds up to the number of data points, and no node returns anything else in any execution of the transfers. False if a buffer is saved between scan and truncation (readings are lost though the flush returned) and after a crash between write and truncation (readings are returned twice). Missing: queries of several fields, limits, and the residuals after a linear function (C10). |
| C72 A server is started in the mode and with the data folders that it is given | partial | `Startup`: arguments, urls and the steps of the start in their order; the file system, the object stores and later steps are oracles. Searching for `://` is proved equivalent to the texts that contain it. | Which texts name which data folder, when a server starts and what it then uses are characterised exactly, and a node is only added to a cluster after both folders were opened. The statement fails for nodes whose start fails after that, for example always with data in memory and a write-ahead log, which stay in the cluster; for nodes on different machines without a host, which have the same url; and for the host, which the server does not listen on: it listens on all addresses. How clap divides the command line is not modelled. |
| C73 Completing a word offers what continues it | partial | `Completion` models `complete` with rustyline's `extract_word`. The specification divides the line at the last space before the cursor and compares letters without using the upper case; `c73_word` shows that each position has such a division. Induction over the word and the candidates. | Proved for all lines, positions and names: exactly the keywords and names that continue the word before the cursor are offered, in order, and only that word is replaced. Missing: keywords of more than one word, which are not offered once their first space has been written (c73_two_words_refuted, finding 56). Only ASCII letters have an upper case in the model; the tables are those at the start of the client. |

## Findings

Properties that are false of the code, each proved as a theorem about the model with a witness
(named in parentheses). They were found by trying to prove the property.

Compression
1. MacaqueV with a small absolute bound computes a negative number of bits: 1000.0 with the bound
   1e-5 is stored as 2.0 (`c05_small_bound_refuted`).
2. PMC-Mean with a relative bound of 100% accepts values of different signs
   (`c06_relative_100_refuted`).
3. Swing without loss restores other values, and an absolute bound close to the precision of f32 is
   exceeded by almost half (`c07_lossless_refuted`, `c07_absolute_refuted`). The rounding error grows
   with the timestamps divided by the sampling interval (`c07_swing_near_f64_partial`).
4. Residuals after a linear function are decoded with another previous value than they were encoded
   with: the value restored for 1000.0 is negative with the bound 1.0
   (`c10_residual_after_line_refuted`).
5. NaN models with residuals, and signed zeros on some platforms, are not restored
   (`c09_pmc_nan_refuted`, `c09_swing_nan_refuted`, `c10_nan_refuted`, `c10_signed_zeros_refuted`).
6. Duplicate timestamps are not stored losslessly (`c02_duplicates_refuted`).
7. A batch without rows makes compression panic if the table has tags (`c12_empty_batch_refuted`).
8. SUM of a linear function with residuals and irregular timestamps, and MIN of infinities, are
   wrong (`c14_swing_sum_refuted`, `c14_min_of_infinities_refuted`).

Write-ahead log
9. An id is used again, and the batch lost, if the newest closed file was deleted before the active
   file had a batch (`c15_lost_refuted`, `c16_reused_refuted`, `c16_reused_after_truncate_refuted`,
   `c18_missing_refuted`, `c19_crash_refuted`).
10. A crash between creating a file and writing its schema makes the log impossible to open
    (`c15_reopen_fails_refuted`). A crash while truncating keeps batches (`c20_crash_refuted`).

Ingestion
11. A batch counts as persisted once any of its data points is committed; a crash then loses the
    rest (`c22_refuted`).
12. Spilled files are named by the first timestamp, so buffers with equal timestamps replace each
    other (`c23_refuted`, `c24_timestamp_refuted`, `c26_refuted`).
13. Tag values are concatenated without a separator before they are hashed, so different series
    share a buffer for every hash function (`c25_refuted`).
14. Spilling to make room does not reserve memory and segments are counted more than once: usage
    exceeds the limit (`c27_uncompressed_refuted`, `c27_compressed_refuted`). With memory for less
    than two buffers data points are lost or closing waits forever (`c24_memory_refuted`,
    `c30_refuted`), and a batch larger than the memory for batches blocks the storage engine forever
    (`c49_refuted`).
15. Lowering the limit of compressed data can panic when it races with the writer or follows a
    failed commit (`c28_race_refuted`, `c28_leak_refuted`). Lowering limits is not exact for ingested
    batches and can drop a data point (`c48_ingested_refuted`, `c48_dropped_refuted`).
16. A flush returns Ok although its commit failed (`c29_refuted`).

Transfer and table writes
17. A row committed between the scan and the truncation of a transfer is lost; a crash or a second
    transfer in this window duplicates rows and wraps the recorded size (`c31_loss_refuted`,
    `c31_crash_refuted`, `c31_overlap_refuted`, `c32_size_refuted`). Queries then miss or repeat data
    points that were flushed (`c71_lost_refuted`, `c71_twice_refuted`).
18. A batch size set to exactly the size of a table does not transfer it, and a failed periodic
    transfer aborts the server (`c32_equal_refuted`, `c32_periodic_refuted`).
19. A failed close or load leaves files behind, and deleting files after a commit that was reported
    as failed but reached the log makes the table unreadable (`c33_close_refuted`,
    `c33_load_refuted`, `c33_reported_refuted`).

Queries
20. `constant = timestamp` is rewritten with its operands exchanged, so matching segments are dropped
    (`c34_equal_refuted`, `c34_equal_kept_refuted`). Filters on generated columns make a scan panic
    (`c34_generated_refuted`).
21. A limit of zero never ends (`c35_limit_zero_refuted`).
22. Values of different data points are joined if a predicate removes different numbers of rows per
    batch and if segments overlap (`c36_filter_refuted`, `c36_overlap_refuted`).
    A LIMIT limits the segments that are read for each field before they are sorted, so values of
    different series are joined if there are several files (`c36_limit_refuted`).
    A whole execution from the insertion of the data points to the result of the query shows this
    for one late data point (`c69_late_refuted`).
23. Errors of a field are lost when another field is pending or at its end (`c37_refuted`).
24. A generated column defined as a tag, a tag named timestamp or value, and projections without
    stored columns make queries panic (`c38_type_refuted`, `c38_tag_refuted`, `c38_constant_refuted`).
25. Queries without stored fields return nothing if a generated column comes first, and COUNT(*)
    panics (`c39_position_refuted`, `c39_count_refuted`).
26. Aggregates of expressions are rewritten as if they were of the field, empty tables return 0
    instead of null, and aggregates in one step panic (`c40_count_refuted`, `c40_sum_refuted`,
    `c40_empty_refuted`, `c40_single_refuted`).

Tables, statements and clusters
27. A second, generated, timestamp column and duplicate names are accepted without a statement
    (`c41_timestamps_refuted`, `c41_names_refuted`). A generated tag becomes a stored tag after a
    restart (`c42_generated_tag_refuted`).
28. Error bounds received from other nodes are not validated: NaN is accepted and stops every later
    restart (`c43_received_refuted`).
29. Creating and dropping are not atomic with respect to crashes: names that can never be created or
    dropped again, tables that lost their error bounds and generated columns
    (`c44_definition_refuted`, `c44_blocked_refuted`). A name with a dot stops the server from
    starting (`c44_dotted_refuted`).
30. DROP TABLE a.b drops ab, DROP TABLE a deletes the files of a/b, VACUUM "a;b" vacuums a and b,
    VACUUM "" vacuums all tables, and names with upper case letters are created in lower case but
    never found (`c46_*_refuted`).
31. Nodes of a cluster disagree after quoted names, lists with a missing table, restarts after
    crashes, failed starts, simultaneous first starts and overlapping requests (`c47_*_refuted`).

Bulk loader and embedded library
32. The bulk loader never registers tables, so nothing can be imported into time series tables and no
    table can be exported (`c50_time_series_tables_refuted`, `c50_export_refuted`). Nulls are imported
    as the values in their buffers, columns are matched by position and not by name, and partitioned
    files panic (`c50_null_refuted`, `c50_names_refuted`, `c50_partitioned_refuted`).
33. Moving a table to itself deletes all its rows, rows written during a move are deleted, and a
    truncation that fails leaves all rows in both tables (`c51_move_to_itself_refuted`,
    `c51_concurrent_write_refuted`, `c51_duplicates_refuted`).
34. Moves and copies compare neither error bounds nor names (`c51_bounds_refuted`,
    `c51_names_refuted`). Copying an interval leaves out segments that are partly outside of it
    (`c51_part_not_copied_refuted`), and the tags given to a copy are ignored.
35. Reads are SQL text without quoting: a quote in the value of a tag changes the query, names with
    upper case letters are not found, and the column of timestamps must be named timestamp
    (`c52_quote_refuted`, `c52_quoted_tag_refuted`, `c52_case_refuted`, `c52_timestamp_refuted`).
36. A data folder accepts retention periods of nearly 2^64 seconds, which wrap to negative periods and
    delete all stale files (`c53_retention_refuted`). A client drops and truncates several tables if
    the name has commas, and vacuums all if it is empty (`c53_name_refuted`,
    `c53_empty_name_refuted`).
37. CREATE TIME SERIES TABLE drops the quotes of names: `"A"` and `"a"` are the same table, and tables
    and columns without a name are accepted (`c54_case_refuted`, `c54_empty_refuted`).
38. An update of the configuration whose file cannot be written is reported as failed but used, and
    saved with the next update; flags of a server that cannot be started are kept; and the transfer
    batch size is set although its flag is not (`c55_failed_update_refuted`,
    `c55_failed_start_refuted`, `c55_no_batch_size_refuted`).
39. A server without a write-ahead log leaves the logs of tables it truncates or drops: when the log is
    enabled again, their batches are replayed into the truncated table or into a new table with the
    same name, also batches that were saved (`c56_truncated_refuted`, `c56_dropped_refuted`).
40. The minimum and maximum stored for a linear function are not rounded as its values are, so MIN
    can be greater than a value of the same column, and no row has the value MIN returns
    (`c14_line_min_refuted`). The difference is bounded (`c14_lines_min_max_partial`).
41. TRUNCATE CLUSTER truncates the remote data folder before the nodes: rows a node transfers in
    between are kept although the statement succeeds (`c57_transfer_refuted`). Nodes that are stopped
    keep their rows and transfer them when they are started (`c57_stopped_node_refuted`). If a listed
    node has crashed the statement fails after the rows in the remote data folder are deleted
    (`c57_failed_refuted`).
42. A flush that cannot save the rows of a table only logs it and does not save the tables that follow,
    so TRUNCATE returns without an error although the rows of its table are still in memory, and they
    are saved and transferred later (`c57_unsaved_refuted`). If a TRUNCATE CLUSTER fails because a node
    crashes while another node waits for a transfer, the table stays marked as dropped there, and its
    rows are silently no longer transferred (`c57_marked_refuted`).
43. CREATE TIME SERIES TABLE, DROP and TRUNCATE of time series tables acquire the lock of the
    configuration for reading twice. If an UpdateConfiguration arrives in between, it waits for the
    first and the second waits for it, since the locks are fair: both wait forever, as do all later
    queries, statements and actions that read the configuration (`c58_tables_refuted`). KillNode
    acquires the lock of the storage engine and then that of the configuration, and
    UpdateConfiguration does the opposite, so they deadlock, after which also nothing can be ingested
    (`c58_kill_refuted`). `c58_answerable_iff` shows that there are no other deadlocks between these
    locks than these and one of KillNode, a change of the segment size and DROP or TRUNCATE
    (`c58_three_refuted`).

44. FlushNode and KillNode flush the data in memory and then transfer it. On a node without a remote
    data folder the transfer is an error, so FlushNode always fails and KillNode never ends the
    process (`c59_single_refuted`). On other nodes both succeed even if rows could not be saved, as a
    failed save is only logged: they may then be nowhere (`c59_unsaved_refuted`) or only in the log of
    the node that has been removed (`c59_killed_refuted`). Rows that were saved but whose batches could
    not be marked as persisted are not part of the recorded size of the table, so they are not
    transferred, however often the node is flushed, until it is restarted (`c59_unmarked_refuted`).
    A table whose recorded size is 0 or missing after overlapping transfers (`c59_overlap_refuted`) or
    after a DROP or TRUNCATE that failed (`c59_cleared_refuted`) is not transferred either.

45. A node adds a row to the table with nodes when it starts, before it accepts requests, and removes
    all rows with its url when it is stopped. A query can be assigned to exactly the urls at which a
    cloud node was started since the last removal (`c60_assigned_iff`): to nodes that have crashed
    (`c60_crashed_refuted`), that are still starting (`c60_starting_refuted`), or that are now edge
    nodes without the transferred data, so the result silently lacks rows (`c60_mode_refuted`); a node
    that was started twice gets twice as many queries (`c60_twice_refuted`). The url has the host
    given with `--host`, 127.0.0.1 by default, so nodes on different hosts can have the same url. Then
    queries are executed by whichever node runs at the host of the client
    (`c60_default_host_refuted`), and stopping one node removes the others from the cluster
    (`c60_unlisted_refuted`); statements are also not sent to them, as `peer_nodes` compares urls.

46. `modelardb_embedded_create` documents an error bound of zero as lossless, but zero is passed to
    `ErrorBound::try_new_absolute`, which rejects it, and the result is unwrapped with `expect`: the
    process of the user is aborted (`c61_zero_is_lossless_refuted`), as it is for any error bound
    without a meaning, e.g., -101 (`c61_c_no_abort_refuted`, `c61_c_aborts_iff`). The Python library
    checks error bounds as f64 values for this reason, but converts them to f32 afterwards, so a valid
    error bound of at most 2^-150 or at least 2^128 - 2^103 aborts the Python process
    (`c61_python_no_abort_refuted`, `c61_python_aborts_iff`), and the error bound of the table can be
    larger than the one that is asked for, as it is for 0.1 (`c61_python_no_larger_refuted`). Through
    the C-API error bounds and expressions of columns that do not exist are ignored
    (`c61_c_unknown_column_refuted`); Python checks the names.

47. For a statement INCLUDE 'address' SELECT ..., `execute_query_at_addresses_and_union` computes the
    query to send as the text after the last occurrence of the last address, plus one character. If
    the address is also in the query, another text is sent: ` AND value > 5` for a query with
    `url = 'grpc://b:9999' AND value > 5`, and DROP TABLE for a query with a comment after which the
    other node drops its table (`c62_sent_refuted`, exactly when is `c62_sent_iff`). If the query ends
    with the address, e.g., INCLUDE 'turbines' SELECT * FROM turbines, or the address is empty, the
    slice is out of bounds, and as panics abort in the release profile the server is stopped by a
    query (`c62_aborts_refuted`, `c62_aborts_iff`). Results are returned under the columns of the
    local result without comparing them, so values of a node whose table has its columns in another
    order are returned in the wrong columns (`c62_named_refuted`).

48. Nothing relates a row that is inserted to the table it was inserted into but the name, and
    `drop_table` only deregisters the table to "avoid data being ingested into the table while it is
    being deleted". A put, or an INSERT statement, that is open while its table is dropped and created
    again stores its rows in the new table (`c63_mixed_refuted`). If the new table has more fields, a
    valid insert with the same tags into the new table then panics, which stops the server
    (`c63_aborts_refuted`); if there is no table when memory is freed, the writer thread ends, and
    every later DROP and TRUNCATE waits for its flush while holding the lock of the storage engine
    (`c63_waits_refuted`). The ids of the old batches are committed to the new table, whose log starts
    at 0 again, so acknowledged rows are taken to be persisted and lost in a crash
    (`c63_lost_refuted`); a crash inside DROP after the log was deleted has the same effect
    (`c63_interrupted_refuted`). Of two DROP statements for the same table, the slower drops the next
    table with that name and its rows (`c63_dropped_refuted`).

49. The client executes each line of a file alone, so INSERT INTO a SELECT * FROM b on one line and
    WHERE c > 1 on the next inserts all rows of b (`c64_statements_refuted`). It cuts lines at the
    first --, also within a literal (`c64_comment_refuted`; what is sent then ends within a quote, so
    it is not another statement, `c64_comment_partial`), sends an empty statement for a comment that
    is indented (`c64_empty_refuted`), ignores errors of the command \dt (`c64_errors_refuted`), and
    exits with status 0 although no statement was executed (`c64_status_refuted`).

50. Python passes the type of the source also for the target of copy, copy_time_series_table and move,
    so copying from a data folder to a node uses a Client as a DataFolder, where Rust returns the
    error that the target is not a data folder (`c65_copy_refuted`, `c65_python_types_refuted`). The
    methods overwrite their parameter target with its pointer, so a target that is opened in the list
    of arguments is closed before it is used (`c65_python_temporary_refuted`), and copying within a
    data folder has two mutable references to it (`c65_python_within_refuted`). Closing a null
    pointer fails without setting an error, so that of another call or none is read
    (`c65_close_error_refuted`). The schema passed to create is never released
    (`c65_schema_leak_refuted`), nor are arrays if an argument before them is invalid
    (`c65_leak_refuted`).

51. **Errors of the file system shift, lose and block the write-ahead log** (C66, write_ahead_log.rs).
    `append_and_sync` returns the error of `sync_data`, l.386, after the batch is in the file but
    before `next_batch_id` is incremented, so the file has one batch more than ids were given. Later
    batches are read with the id of their predecessor. When the segment is closed, the last batch
    has no id and is lost (`c66_unsynced_lost_refuted`), and a batch that was committed is replayed
    under another id (`c66_unsynced_twice_refuted`). After a batch was written in part, e.g., as
    the disk is full, the next batch is written after the part and the log cannot be read
    (`c66_part_refuted`). `truncate` removes the active file before it creates the new one, l.611-617,
    so if creating fails, batches are written to a removed file and acknowledged
    (`c66_truncate_refuted`). A file that cannot be deleted, l.486, is no longer in the list but
    determines the next id at a restart (`c66_mark_refuted`). After an error while a segment is
    replaced, l.430-446, every append fails until a restart (`c66_stuck`), and the batch whose append
    failed is replayed (`c66_durable_partial`).

52. **VACUUM CLUSTER can make nodes send each other statements without end** (C67, cluster.rs
    l.224-249). The text for peers is made from the names of tables without quotes. A table can be
    created with the name `cluster;` (or, with the action of the client, which does not check for
    keywords, `cluster`), and VACUUM CLUSTER is then sent as `VACUUM cluster;`, which a peer reads
    as VACUUM CLUSTER again, as the key of the cluster is not looked at for VACUUM. Each node waits
    for the next, so no statement is answered, and each sends another. With a comma in a name peers
    vacuum other tables and the client is told that it succeeded. With any other name that has to be
    quoted the peers fail, after the remote data folder was vacuumed and before the node vacuums its
    own tables, also if the statement names no tables. The same happens if a listed node is not
    running.

53. **A node stores rows without looking at the schema they were sent with** (C68, remote.rs
    l.473-525, 750-792). The first message of `do_put` has the schema of the client, but only the
    name of the table is used; the batches have no types in Arrow's IPC format and are read with the
    schema of the table. Times in seconds or integers of 32 bits are stored as if they were times in
    microseconds or floating-point numbers and the client is told that they were written.
    `DataFolder::write` compares types but not names, so that columns in another order are stored in
    each other's place. A null in a field of a time series table that is nullable, as fields made
    with pyarrow are unless stated otherwise, is stored as the number in the buffer, and a null
    timestamp stops the node (`panic = "abort"`), and again at each start as the batch is in the
    write-ahead log. Rows are stored although an error is returned if a later message of the same
    batch is refused, a later batch of an INSERT cannot be read, a batch of a copy by a client is
    empty, or a normal table cannot be transferred after the write.

54. **SUM of finite values can be infinite** (C14, pmc_mean.rs l.98-100, aggregates in
    optimizer/model_simple_aggregates.rs). The accumulator is an f64 but the sum of each segment is
    computed as an f32, so eight values of about 8.5e37 sum to infinity although SUM of the
    decompressed values is 6.8e38 (`c14_sum_overflow_refuted`).

55. **A server listens on all addresses, and a start that fails leaves the node in the cluster** (C72,
    remote.rs l.66-73, main.rs l.56-58 and l.142-166, data_folders.rs l.84-115). `--host` is documented
    as the address the server listens on, by default 127.0.0.1, but it listens on 0.0.0.0
    (`c72_host_refuted`). The host is only used for the url of the node, so nodes on different machines
    started without it have the same url (`c72_same_address_refuted`). The node is saved in the cluster
    before the configuration, the write-ahead log and the port are looked at; with `memory://` as local
    data folder the log is always refused (`c72_left_behind_refuted`).

Observed while reading but not modelled: a spill that cannot be written loses its data points;
`table_parquet_options` are created but not passed to the Parquet source; a DROP that fails with an
error leaves the table deregistered until a restart; names of tables are interpolated into the SQL
used to delete their metadata; the name `public.x` is registered as `x`.

56. **Keywords of two words are not completed after their space** (C73, helper.rs l.92). The word to
    complete starts after the last space, so nothing is offered for `GROUP B` although `GROUP BY` is a
    candidate (`c73_two_words_refuted`); only its first word can be completed.

## Tests against wrong programs

The model is edited like a realistic bug in a scratch copy and everything is built again. A proof
that fails is admitted in the copy, so that all theorems that depend on it, and no others, are
found. `seeded/LOG.jsonl` has one line per attempt. Theorems that survived an edit that makes their
claim false were tightened and the edit was tried again.
