{"id": "C01", "title": "Bit packing round trip", "statement": "Whatever sequence of values with widths of 0 to 64 bits is written to a bit writer, the finished byte buffer has exactly ceil(total bits / 8) bytes, and a bit reader over it returns the written values (reduced to their width) in order, under both ways of padding the last byte (zeros or ones).", "quantifier": "every finite sequence of (value, width) pairs, any length, any bit alignment", "why_tests_cant": "The packing depends on the alignment left behind by all earlier writes; a test only sees a few sequences of widths.", "anchors": ["crates/modelardb_compression/src/models/bits.rs: BitVecBuilder::append_bits", "crates/modelardb_compression/src/models/bits.rs: BitVecBuilder::finish", "crates/modelardb_compression/src/models/bits.rs: BitVecBuilder::finish_with_one_bits", "crates/modelardb_compression/src/models/bits.rs: BitReader::read_bits"]}
{"id": "C02", "title": "Timestamps are stored losslessly", "statement": "For every strictly increasing sequence of 64-bit timestamps, decompressing the stored start time, end time and compressed timestamp bytes of a segment yields exactly the original sequence, with no missing, extra or changed timestamp and no panic.", "quantifier": "every strictly increasing non-empty list of i64 timestamps (regular or irregular, any gaps including ones larger than 2^63, any length below 2^63)", "why_tests_cant": "The variable-width delta-of-delta code, its padding and the regular/irregular flag interact with every gap width and list length; no finite test covers all of them.", "anchors": ["crates/modelardb_compression/src/models/timestamps.rs: compress_residual_timestamps", "crates/modelardb_compression/src/models/timestamps.rs: decompress_all_timestamps", "crates/modelardb_compression/src/models/timestamps.rs: read_decode_and_compute_delta"]}
{"id": "C03", "title": "Data point count without decompression", "statement": "The number of data points of a segment that is computed from its timestamp metadata (and used for COUNT, SUM and AVG) equals the number of data points that decompression yields.", "quantifier": "every strictly increasing non-empty list of timestamps", "why_tests_cant": "The count of a regular segment is read from a variable-length big-endian length and the count of others from a full decode; equality must hold for all lengths.", "anchors": ["crates/modelardb_compression/src/models/mod.rs: len", "crates/modelardb_compression/src/models/timestamps.rs: compress_regular_residual_timestamps"]}
{"id": "C04", "title": "MacaqueV lossless round trip", "statement": "With a lossless error bound, every sequence of 32-bit float values compressed with MacaqueV decompresses to bit-for-bit identical values (including the sign of zeros and NaN payloads), whether the first value is stored in full or relative to a preceding model value.", "quantifier": "every finite sequence of f32 bit patterns, any length, with or without an explicitly stored first value", "why_tests_cant": "The XOR/leading/trailing-zero window is stateful: what is written for a value depends on all previous ones.", "anchors": ["crates/modelardb_compression/src/models/macaque_v.rs: MacaqueV::compress_values", "crates/modelardb_compression/src/models/macaque_v.rs: MacaqueV::compress_values_without_first", "crates/modelardb_compression/src/models/macaque_v.rs: grid"]}
{"id": "C05", "title": "MacaqueV lossy values stay within the error bound", "statement": "With an absolute or relative error bound, every value reconstructed from a MacaqueV stream is within the column's error bound of the original value.", "quantifier": "every finite sequence of f32 values and every valid error bound", "why_tests_cant": "The number of mantissa bits cleared is computed from floating point logarithms per value; bounds can break only for particular exponent/bound combinations.", "anchors": ["crates/modelardb_compression/src/models/macaque_v.rs: MacaqueV::compress_value_xor_last_value", "crates/modelardb_compression/src/models/macaque_v.rs: MacaqueV::rewrite_least_mantissa_bits", "crates/modelardb_compression/src/models/mod.rs: is_value_within_error_bound"]}
{"id": "C06", "title": "PMC-Mean models respect the error bound", "statement": "When the constant function model accepts values, its single stored value is within the error bound of every value it represents, not only of the last or of the extreme ones.", "quantifier": "every accepted sequence of f32 values of any length and every error bound", "why_tests_cant": "The accept decision only inspects the running minimum, maximum and average; that this covers all values is an induction over the whole history and depends on floating point rounding.", "anchors": ["crates/modelardb_compression/src/models/pmc_mean.rs: PMCMean::fit_value", "crates/modelardb_compression/src/models/pmc_mean.rs: PMCMean::model", "crates/modelardb_compression/src/models/mod.rs: is_value_within_error_bound"]}
{"id": "C07", "title": "Swing models respect the error bound", "statement": "When the linear function model accepts data points, the line reconstructed from its stored first and last value is within the error bound of every data point it represents.", "quantifier": "every accepted sequence of data points with increasing timestamps, any length, every error bound", "why_tests_cant": "The feasible cone is narrowed incrementally; that the final slope still fits the first data points is an invariant over all steps.", "anchors": ["crates/modelardb_compression/src/models/swing.rs: Swing::fit_data_point", "crates/modelardb_compression/src/models/swing.rs: Swing::model", "crates/modelardb_compression/src/models/swing.rs: grid"]}
{"id": "C08", "title": "Every data point ends up in exactly one segment", "statement": "Compressing a univariate time series produces segments that, in order, cover every data point exactly once: each segment covers a contiguous, non-empty range, the ranges are adjacent, the first starts at the first data point and the last ends at the last one, each segment stores at most 255 residuals, and each function model represents at least 8 values.", "quantifier": "every time series (any length, any values) and any behaviour of the model fitting", "why_tests_cant": "The loop carries a pending model whose residual range is decided by later fits; an off-by-one at a model/residual boundary only shows for particular patterns of accepted and rejected models.", "anchors": ["crates/modelardb_compression/src/compression.rs: try_compress_univariate_time_series", "crates/modelardb_compression/src/compression.rs: fit_next_model", "crates/modelardb_compression/src/compression.rs: store_compressed_segments_with_model_and_or_residuals", "crates/modelardb_compression/src/compression.rs: compress_and_store_residuals_in_a_separate_segment", "crates/modelardb_compression/src/types.rs: CompressedSegmentBuilder::finish"]}
{"id": "C09", "title": "Model parameters survive their compact encoding", "statement": "The parameters of a PMC-Mean or Swing model (its value, or its first and last value) decoded from a segment's minimum value, maximum value and value bytes are the parameters the model was fitted with.", "quantifier": "every model value(s) and every set of residuals merged into the segment's minimum and maximum", "why_tests_cant": "Which of the four encodings is used depends on how residuals move the segment's minimum and maximum.", "anchors": ["crates/modelardb_compression/src/types.rs: encode_values_for_pmc_mean", "crates/modelardb_compression/src/types.rs: decode_values_for_pmc_mean", "crates/modelardb_compression/src/types.rs: encode_values_for_swing", "crates/modelardb_compression/src/types.rs: decode_values_for_swing"]}
{"id": "C10", "title": "Decompressing a segment restores its data points", "statement": "Decompressing all segments of a compressed series in order yields one data point for every original data point, with the original timestamp, and with a value within the error bound of the original value.", "quantifier": "every strictly increasing time series of any length and every error bound", "why_tests_cant": "Correctness composes timestamp coding, model parameters, residual coding and segment splitting across arbitrarily many segments.", "anchors": ["crates/modelardb_compression/src/models/mod.rs: grid", "crates/modelardb_compression/src/compression.rs: try_compress_univariate_time_series", "crates/modelardb_compression/src/types.rs: CompressedSegmentBuilder::finish"]}
{"id": "C11", "title": "The cheapest model is selected", "statement": "For each segment the model chosen is the one with the fewest bytes per value among those fitted, and a function model is only stored if it uses no more bytes per value than storing the raw values.", "quantifier": "every pair of fitted model lengths, every input", "why_tests_cant": "Ties and integer/float division boundaries are only visible for particular lengths.", "anchors": ["crates/modelardb_compression/src/types.rs: ModelBuilder::finish", "crates/modelardb_compression/src/compression.rs: try_compress_univariate_time_series", "crates/modelardb_compression/src/models/pmc_mean.rs: PMCMean::bytes_per_value", "crates/modelardb_compression/src/models/swing.rs: Swing::bytes_per_value"]}
{"id": "C12", "title": "Multivariate batches are split into the right time series", "statement": "Compressing a batch with tags produces, for each combination of tag values and each field, segments built from exactly the rows with these tag values in time order; no row is lost, duplicated or assigned to another series.", "quantifier": "every record batch (any number of rows, tag columns and tag values)", "why_tests_cant": "Rows of a series can be interleaved arbitrarily in the batch; the split depends on consecutive tag changes after sorting.", "anchors": ["crates/modelardb_compression/src/compression.rs: try_compress_multivariate_time_series", "crates/modelardb_compression/src/compression.rs: sort_time_series_by_tags_and_time", "crates/modelardb_compression/src/compression.rs: try_split_and_compress_univariate_time_series"]}
{"id": "C13", "title": "The error bound check means what it says", "statement": "If the system's error bound check accepts an approximation of a value, the exact (real-number) error is at most the bound up to one rounding of the 32-bit check; a lossless bound accepts only equal values (or NaN for NaN), and special values are never accepted for finite ones.", "quantifier": "every pair of f32 values and every valid error bound", "why_tests_cant": "Rounding in the subtraction and division affects particular bit patterns only.", "anchors": ["crates/modelardb_compression/src/models/mod.rs: is_value_within_error_bound", "crates/modelardb_compression/src/models/mod.rs: equal_or_nan"]}
{"id": "C14", "title": "Aggregates computed from models agree with the data points", "statement": "COUNT, MIN, MAX, SUM and AVG computed directly on compressed segments equal the same aggregates computed on the data points obtained by decompressing these segments.", "quantifier": "every sequence of segments (any number, length, model types, residuals)", "why_tests_cant": "Depends on every combination of model type, residual count and timestamp regularity.", "anchors": ["crates/modelardb_compression/src/models/mod.rs: sum", "crates/modelardb_compression/src/models/swing.rs: sum", "crates/modelardb_compression/src/models/pmc_mean.rs: sum", "crates/modelardb_compression/src/models/macaque_v.rs: sum", "crates/modelardb_storage/src/optimizer/model_simple_aggregates.rs: ModelSumAccumulator::update_batch"]}
{"id": "C15", "title": "Acknowledged batches survive a crash", "statement": "Once appending a batch to the write-ahead log has returned successfully, the batch with its id is returned for replay after any crash and restart, until it has been marked as persisted or the table's log has been truncated or removed.", "quantifier": "every history of appends, persist marks, segment rotations, restarts and crashes at any point between file system operations", "why_tests_cant": "A crash can occur between any two file system operations of any history; tests exercise a handful of histories.", "anchors": ["crates/modelardb_storage/src/write_ahead_log.rs: SegmentedLog::append_and_sync", "crates/modelardb_storage/src/write_ahead_log.rs: SegmentedLog::try_new", "crates/modelardb_storage/src/write_ahead_log.rs: SegmentedLog::close_active_segment", "crates/modelardb_storage/src/write_ahead_log.rs: close_leftover_active_segment"]}
{"id": "C16", "title": "Batch ids identify one batch forever", "statement": "No two batches appended to a table's write-ahead log ever receive the same id, also across restarts, so an id recorded as persisted in a commit never refers to a later batch.", "quantifier": "every history of appends, persist marks, segment deletions, truncations, restarts and crashes", "why_tests_cant": "The next id is reconstructed from file names at restart; wrong only for particular sets of surviving files.", "anchors": ["crates/modelardb_storage/src/write_ahead_log.rs: SegmentedLog::try_new", "crates/modelardb_storage/src/write_ahead_log.rs: close_leftover_active_segment", "crates/modelardb_storage/src/write_ahead_log.rs: SegmentedLog::truncate"]}
{"id": "C17", "title": "Log files are deleted only when fully persisted", "statement": "A write-ahead log segment file is deleted while the log is in use only if every batch id it contains has been marked as persisted.", "quantifier": "every history of appends, rotations and persist marks in any order", "why_tests_cant": "Depends on which ids have been marked in which order across segments.", "anchors": ["crates/modelardb_storage/src/write_ahead_log.rs: SegmentedLog::mark_batches_as_persisted", "crates/modelardb_storage/src/write_ahead_log.rs: ClosedSegment::is_fully_persisted"]}
{"id": "C18", "title": "Replay returns exactly the unpersisted batches", "statement": "The batches returned for replay are exactly the appended batches whose ids have not been marked as persisted, each once, paired with its own id and contents, in append order.", "quantifier": "every history of appends, rotations, persist marks and restarts", "why_tests_cant": "Ids are reconstructed by position in files; an error in any segment shifts all later ids.", "anchors": ["crates/modelardb_storage/src/write_ahead_log.rs: SegmentedLog::unpersisted_batches", "crates/modelardb_storage/src/write_ahead_log.rs: SegmentedLog::all_batches"]}
{"id": "C19", "title": "Recovery is repeatable", "statement": "Opening the write-ahead log again (including after a crash during recovery) yields the same batches for replay as the first successful recovery, so repeated crashes during start-up neither lose nor duplicate batches.", "quantifier": "every on-disk state reachable by any history and every crash point during recovery", "why_tests_cant": "Crashes during recovery itself are combinatorially many.", "anchors": ["crates/modelardb_storage/src/write_ahead_log.rs: SegmentedLog::try_new", "crates/modelardb_storage/src/write_ahead_log.rs: close_leftover_active_segment", "crates/modelardb_storage/src/write_ahead_log.rs: find_closed_segments"]}
{"id": "C20", "title": "Truncating a table empties its log", "statement": "After truncating a table's write-ahead log no batch appended before the truncation is ever returned for replay, batches appended afterwards are, and their ids do not collide with earlier ids.", "quantifier": "every history before and after the truncation", "why_tests_cant": "Depends on leftover files and in-memory state of arbitrary earlier histories.", "anchors": ["crates/modelardb_storage/src/write_ahead_log.rs: SegmentedLog::truncate", "crates/modelardb_server/src/context.rs: Context::truncate_table"]}
{"id": "C21", "title": "Write-ahead log operations cannot deadlock", "statement": "Any number of concurrent append, mark-as-persisted, read-unpersisted and truncate operations on a table's log always have an operation that can make progress; they cannot block each other forever.", "quantifier": "every number of threads and every interleaving of lock acquisitions", "why_tests_cant": "Deadlocks depend on the schedule; tests run few schedules.", "anchors": ["crates/modelardb_storage/src/write_ahead_log.rs: SegmentedLog::append_and_sync", "crates/modelardb_storage/src/write_ahead_log.rs: SegmentedLog::mark_batches_as_persisted", "crates/modelardb_storage/src/write_ahead_log.rs: SegmentedLog::unpersisted_batches", "crates/modelardb_storage/src/write_ahead_log.rs: SegmentedLog::truncate"]}
{"id": "C22", "title": "No acknowledged data point is lost by a crash", "statement": "For a crash at any point of the ingestion pipeline (WAL enabled), after restart and replay every data point of every acknowledged batch is in the table or in the pipeline again.", "quantifier": "every history of inserts, buffer finishes, spills, saves and every crash point", "why_tests_cant": "Requires the persisted marking to be consistent with where each data point of a batch is, for all ways buffers split batches.", "anchors": ["crates/modelardb_server/src/storage/compressed_data_manager.rs: CompressedDataManager::save_compressed_data", "crates/modelardb_server/src/storage/uncompressed_data_manager.rs: UncompressedDataManager::insert_data_points", "crates/modelardb_server/src/context.rs: Context::replay_write_ahead_log"]}
{"id": "C23", "title": "No data point is stored twice by recovery", "statement": "After a crash and replay, data points that were committed to the table together with their batch id are not ingested again.", "quantifier": "every history and every crash point, including between the table commit and the marking in the log", "why_tests_cant": "The window between commit and marking is only hit by particular crash points.", "anchors": ["crates/modelardb_storage/src/write_ahead_log.rs: SegmentedLog::load_persisted_batches_from_delta_table", "crates/modelardb_storage/src/data_folder/delta_table_writer.rs: DeltaTableWriter::commit", "crates/modelardb_server/src/context.rs: Context::replay_write_ahead_log"]}
{"id": "C24", "title": "Ingestion conserves data points", "statement": "At every point of the ingestion pipeline the data points received for a series are exactly those in its buffer (in memory or spilled) followed by those already handed to compression; after a flush all of them have been handed to compression exactly once.", "quantifier": "every sequence of ingested batches, any tags, any interleaving with spilling, finishing of full and unused buffers and flushes", "why_tests_cant": "A buffer moves between three places depending on memory pressure and update counters; tests use a few short sequences.", "anchors": ["crates/modelardb_server/src/storage/uncompressed_data_manager.rs: UncompressedDataManager::insert_data_points", "crates/modelardb_server/src/storage/uncompressed_data_manager.rs: UncompressedDataManager::insert_data_point", "crates/modelardb_server/src/storage/uncompressed_data_manager.rs: UncompressedDataManager::flush", "crates/modelardb_server/src/storage/uncompressed_data_buffer.rs"]}
{"id": "C25", "title": "A buffer holds one time series only", "statement": "Data points with different tag values or for different tables are never collected in the same buffer and so never compressed as one series.", "quantifier": "every sequence of ingested batches for every set of tables and tag values", "why_tests_cant": "Collisions need particular tag strings.", "anchors": ["crates/modelardb_server/src/storage/uncompressed_data_manager.rs: calculate_tag_hash", "crates/modelardb_server/src/storage/uncompressed_data_manager.rs: UncompressedDataManager::insert_data_point"]}
{"id": "C26", "title": "Spilling to disk is transparent", "statement": "Spilling a buffer to disk and reading it back, any number of times, yields the same data points, tags and batch ids, and compressing a spilled buffer gives the same result as compressing the buffer had it stayed in memory.", "quantifier": "every buffer content and every interleaving of spills, read-backs and inserts", "why_tests_cant": "Depends on when memory pressure occurs relative to inserts.", "anchors": ["crates/modelardb_server/src/storage/uncompressed_data_buffer.rs: UncompressedInMemoryDataBuffer::spill_to_apache_parquet", "crates/modelardb_server/src/storage/uncompressed_data_buffer.rs: UncompressedOnDiskDataBuffer::read_from_apache_parquet", "crates/modelardb_server/src/storage/uncompressed_data_manager.rs: UncompressedDataManager::spill_in_memory_data_buffer"]}
{"id": "C27", "title": "Memory limits are never exceeded", "statement": "For each memory pool, the memory in use by the data the pool accounts for plus the remaining memory always equals the configured amount, so usage never exceeds the configuration and is never leaked.", "quantifier": "every history of reservations, releases, spills, saves and configuration changes", "why_tests_cant": "Drift accumulates over long histories through rare paths such as spilling.", "anchors": ["crates/modelardb_server/src/storage/types.rs: MemoryPool", "crates/modelardb_server/src/storage/uncompressed_data_manager.rs: UncompressedDataManager::reserve_uncompressed_memory_for_in_memory_data_buffer", "crates/modelardb_server/src/storage/compressed_data_buffer.rs: CompressedDataBuffer::append_compressed_segment_batch", "crates/modelardb_server/src/storage/compressed_data_manager.rs: CompressedDataManager::save_compressed_data"]}
{"id": "C28", "title": "Freeing compressed memory always succeeds", "statement": "When compressed segments do not fit in the remaining memory, saving buffered tables to disk always frees enough memory: the loop terminates and the internal queue is never found empty (no panic).", "quantifier": "every history of segment arrivals for any tables and sizes and every non-negative memory configuration", "why_tests_cant": "The panic depends on the arithmetic relation between all buffered sizes and the remaining memory.", "anchors": ["crates/modelardb_server/src/storage/compressed_data_manager.rs: CompressedDataManager::insert_compressed_segments", "crates/modelardb_server/src/storage/compressed_data_manager.rs: CompressedDataManager::save_compressed_data_to_free_memory"]}
{"id": "C29", "title": "Flush is a barrier", "statement": "When a flush returns, every data point accepted before the flush was requested has been compressed and committed to its table.", "quantifier": "every history of inserts and flushes and every schedule of the three pipeline threads", "why_tests_cant": "Depends on the interleaving of threads and message queues.", "anchors": ["crates/modelardb_server/src/storage/mod.rs: StorageEngine::flush", "crates/modelardb_server/src/storage/uncompressed_data_manager.rs: UncompressedDataManager::process_uncompressed_messages", "crates/modelardb_server/src/storage/compressed_data_manager.rs: CompressedDataManager::process_compressed_messages"]}
{"id": "C30", "title": "Closing the storage engine loses nothing and terminates", "statement": "Closing the storage engine commits all data points accepted before and all three pipeline threads terminate.", "quantifier": "every history and every schedule", "why_tests_cant": "Depends on thread interleavings and in-flight messages.", "anchors": ["crates/modelardb_server/src/storage/mod.rs: StorageEngine::close", "crates/modelardb_server/src/storage/uncompressed_data_manager.rs: UncompressedDataManager::process_uncompressed_messages"]}
{"id": "C31", "title": "Transfer to the remote data folder neither loses nor duplicates data", "statement": "After any sequence of ingestion and transfers, every committed segment is in exactly one of the local table and the remote table.", "quantifier": "every interleaving of commits to the local table with the steps of a transfer, and every crash point", "why_tests_cant": "The loss window is between the scan and the truncation of the local table.", "anchors": ["crates/modelardb_server/src/storage/data_transfer.rs: DataTransfer::transfer_data", "crates/modelardb_server/src/storage/compressed_data_manager.rs: CompressedDataManager::save_compressed_data", "crates/modelardb_storage/src/data_folder/mod.rs: DataFolder::truncate_table"]}
{"id": "C32", "title": "Transfer is triggered by size and never for dropped tables", "statement": "Whenever the recorded size of a table reaches the transfer batch size the table is transferred and its recorded size reset; a table marked as dropped is never transferred, and the recorded size is never negative.", "quantifier": "every history of size increases, drops, clears and configuration changes", "why_tests_cant": "Depends on accumulated sizes over long histories.", "anchors": ["crates/modelardb_server/src/storage/data_transfer.rs: DataTransfer::increase_table_size", "crates/modelardb_server/src/storage/data_transfer.rs: DataTransfer::mark_table_as_dropped", "crates/modelardb_server/src/storage/data_transfer.rs: DataTransfer::set_transfer_batch_size_in_bytes"]}
{"id": "C33", "title": "Table writes are all-or-nothing", "statement": "Writing record batches to a table makes either all of them visible in one new version (together with the batch ids) or none of them, whichever step fails, and a failed write leaves no data files behind.", "quantifier": "every list of record batches and every failing step", "why_tests_cant": "The failing step is an adversarial choice.", "anchors": ["crates/modelardb_storage/src/data_folder/delta_table_writer.rs: DeltaTableWriter::write_all_and_commit", "crates/modelardb_storage/src/data_folder/delta_table_writer.rs: DeltaTableWriter::commit", "crates/modelardb_storage/src/data_folder/delta_table_writer.rs: DeltaTableWriter::rollback"]}
{"id": "C34", "title": "Time filters never drop matching data points", "statement": "Rewriting a filter on the timestamp column to a filter on segments never excludes a segment that contains a data point satisfying the filter, and the filter applied to decompressed data points keeps exactly those satisfying the original filter on timestamps.", "quantifier": "every filter expression, every segment and data point", "why_tests_cant": "Filters nest arbitrarily and each comparison has two operand orders.", "anchors": ["crates/modelardb_storage/src/query/time_series_table.rs: rewrite_filter", "crates/modelardb_storage/src/query/time_series_table.rs: rewrite_and_combine_filters"]}
{"id": "C35", "title": "Query results do not depend on batching or scheduling", "statement": "The operator that decompresses segments emits exactly the data points of all its input segments that satisfy the predicate, in segment order, each once, irrespective of the batch size and of when its input is ready.", "quantifier": "every input stream (any batch sizes, pending polls), batch size, and predicate", "why_tests_cant": "Left-over rows are carried between polls; errors appear for particular batch size/poll patterns.", "anchors": ["crates/modelardb_storage/src/query/grid_exec.rs: GridStream::grid_and_append_to_leftovers_in_current_batch", "crates/modelardb_storage/src/query/grid_exec.rs: GridStream::poll_next"]}
{"id": "C36", "title": "Multi-field rows are assembled from the same data point", "statement": "When a query reads several fields, each result row combines field values with the timestamp and tags of the same data point, and every data point gives one row.", "quantifier": "every set of per-field streams produced for the same series and every schedule", "why_tests_cant": "Rows are paired by position only; misalignment depends on batch boundaries and readiness of inputs.", "anchors": ["crates/modelardb_storage/src/query/sorted_join_exec.rs: SortedJoinStream::poll_all_pending_inputs", "crates/modelardb_storage/src/query/sorted_join_exec.rs: SortedJoinStream::set_batch_num_rows_to_smallest", "crates/modelardb_storage/src/query/sorted_join_exec.rs: SortedJoinStream::sorted_join"]}
{"id": "C37", "title": "Errors in a scan are reported", "statement": "If reading or decompressing the data of any field fails, the query returns that error; it is never replaced by a shorter result.", "quantifier": "every combination of input readiness and failures", "why_tests_cant": "An error may coincide with another input being pending.", "anchors": ["crates/modelardb_storage/src/query/sorted_join_exec.rs: SortedJoinStream::poll_all_pending_inputs", "crates/modelardb_storage/src/query/grid_exec.rs: GridStream::poll_next"]}
{"id": "C38", "title": "Projections return the requested columns", "statement": "For every requested list of columns (stored, tag, timestamp and generated, in any order), the result columns are the requested ones in the requested order and generated columns are computed from the right source columns.", "quantifier": "every table schema and every projection", "why_tests_cant": "The plan splices stored and generated columns by index arithmetic.", "anchors": ["crates/modelardb_storage/src/query/time_series_table.rs: TimeSeriesTable::scan", "crates/modelardb_storage/src/query/generated_as_exec.rs: GeneratedAsStream::poll_next"]}
{"id": "C39", "title": "Queries without stored fields still return rows", "statement": "A query that only asks for timestamps, tags or nothing but a count reads some stored field column that exists, so it returns one row per data point.", "quantifier": "every table schema with at least one stored field", "why_tests_cant": "Only fails for particular column orders.", "anchors": ["crates/modelardb_storage/src/query/time_series_table.rs: TimeSeriesTable::new", "crates/modelardb_storage/src/query/time_series_table.rs: TimeSeriesTable::scan"]}
{"id": "C40", "title": "Aggregates are rewritten only when equivalent", "statement": "An aggregate query is answered from segment metadata only if the result equals that of the aggregate over the rows of the table.", "quantifier": "every aggregate expression and every table content", "why_tests_cant": "The rewrite decides on names; only particular expressions are affected.", "anchors": ["crates/modelardb_storage/src/optimizer/model_simple_aggregates.rs: try_rewrite_aggregate_exprs", "crates/modelardb_storage/src/optimizer/model_simple_aggregates.rs: rewrite_aggregates_to_use_segments"]}
{"id": "C41", "title": "Accepted table definitions are well formed", "statement": "Every accepted time series table definition has exactly one timestamp column, at least one stored field column, only supported column types, at most 32767 columns, one error bound per column, and generated columns depend only on stored columns of the table.", "quantifier": "every schema, error bound list and generated column list", "why_tests_cant": "Rejects must cover every malformed combination.", "anchors": ["crates/modelardb_types/src/types.rs: TimeSeriesTableMetadata::try_new"]}
{"id": "C42", "title": "Table definitions survive a restart", "statement": "The error bounds and generated columns of a time series table reloaded from its metadata equal those it was created with.", "quantifier": "every valid table definition", "why_tests_cant": "Indices are mapped between the schema with and without generated columns in both directions.", "anchors": ["crates/modelardb_storage/src/data_folder/mod.rs: DataFolder::save_time_series_table_metadata", "crates/modelardb_storage/src/data_folder/mod.rs: DataFolder::error_bounds", "crates/modelardb_storage/src/data_folder/mod.rs: DataFolder::generated_columns"]}
{"id": "C43", "title": "Table definitions survive transport between nodes", "statement": "Encoding a table definition to a message and decoding it at another node yields the same error bounds and generated columns; a decoded definition is always a valid one.", "quantifier": "every valid table definition and every received message", "why_tests_cant": "Same index mapping problem, plus untrusted messages.", "anchors": ["crates/modelardb_types/src/flight/mod.rs: encode_error_bounds", "crates/modelardb_types/src/flight/mod.rs: decode_error_bounds", "crates/modelardb_types/src/flight/mod.rs: decode_generated_column_expressions"]}
{"id": "C44", "title": "Creating or dropping a table is atomic with respect to crashes", "statement": "After a crash at any point of creating or dropping a table, the table either exists with its full definition or does not exist and can be created again.", "quantifier": "every crash point of create and drop and every definition", "why_tests_cant": "Crash points between metadata commits are not exercised by tests.", "anchors": ["crates/modelardb_storage/src/data_folder/mod.rs: DataFolder::create_time_series_table", "crates/modelardb_storage/src/data_folder/mod.rs: DataFolder::save_time_series_table_metadata", "crates/modelardb_storage/src/data_folder/mod.rs: DataFolder::drop_table"]}
{"id": "C45", "title": "Only meaningful error bounds can be constructed", "statement": "An absolute error bound is accepted iff it is a finite positive number, a relative one iff it is positive and at most 100; anything else (NaN, infinities, negative, zero) is rejected.", "quantifier": "every f32 bit pattern", "why_tests_cant": "2^32 bit patterns including NaN payloads and subnormals.", "anchors": ["crates/modelardb_types/src/types.rs: ErrorBound::try_new_absolute", "crates/modelardb_types/src/types.rs: ErrorBound::try_new_relative"]}
{"id": "C46", "title": "Statements affect exactly the named tables", "statement": "DROP TABLE, TRUNCATE and VACUUM affect exactly the tables named in the statement.", "quantifier": "every list of table names", "why_tests_cant": "Depends on characters in names and on multi-part names.", "anchors": ["crates/modelardb_storage/src/parser.rs: semantic_checks_for_drop", "crates/modelardb_storage/src/parser.rs: ModelarDbDialect::parse_vacuum", "crates/modelardb_storage/src/parser.rs: tokenize_and_parse_sql_statement"]}
{"id": "C47", "title": "Cluster nodes agree on the tables", "statement": "After every successful create or drop in a cluster all nodes and the remote data folder have the same set of tables, and a node only starts if its tables match those in the remote data folder.", "quantifier": "every number of nodes and history of operations", "why_tests_cant": "Number of nodes and histories is unbounded.", "anchors": ["crates/modelardb_server/src/cluster.rs: Cluster::create_cluster_time_series_table", "crates/modelardb_server/src/cluster.rs: Cluster::retrieve_and_create_tables", "crates/modelardb_server/src/remote.rs: FlightServiceHandler::create_time_series_table"]}
{"id": "C48", "title": "Changing memory limits at runtime is exact", "statement": "After changing a memory limit at runtime, remaining memory plus memory in use equals the new limit, and usage is brought below a lowered limit by spilling or saving data, never by dropping it.", "quantifier": "every history of limit changes and ingestion", "why_tests_cant": "Interacts with any current usage.", "anchors": ["crates/modelardb_server/src/configuration.rs: ConfigurationManager::set_uncompressed_reserved_memory_in_bytes", "crates/modelardb_server/src/storage/uncompressed_data_manager.rs: UncompressedDataManager::adjust_uncompressed_remaining_memory_in_bytes", "crates/modelardb_server/src/storage/compressed_data_manager.rs: CompressedDataManager::adjust_compressed_remaining_memory_in_bytes"]}
{"id": "C49", "title": "Inserting data points completes", "statement": "A request to insert data points never waits forever for memory: once the threads have processed what they can, there is memory for the batch.", "quantifier": "every history of requests, every batch and every schedule of the threads", "why_tests_cant": "Needs batch sizes around the limit and every interleaving of the client and three threads.", "anchors": ["crates/modelardb_server/src/storage/mod.rs: StorageEngine::insert_data_points", "crates/modelardb_server/src/storage/data_sinks.rs", "crates/modelardb_server/src/storage/types.rs: MemoryPool::wait_for_ingested_memory"]}
{"id": "C50", "title": "The bulk loader imports and exports all rows", "statement": "Importing files into a table stores each row of the files exactly once, with its values in the columns with the same names and timestamps converted without loss, or fails and changes nothing; exporting a table writes all of its rows.", "quantifier": "every data folder, every table, every number and size of batches, every type and order of columns, every point at which memory runs out and every failure of reads, writes and commits", "why_tests_cant": "The points at which batches are compressed depend on the available memory, and there are unboundedly many combinations of types, nulls and failures.", "anchors": ["crates/modelardb_bulkloader/src/main.rs: import, import_time_series_table, import_normal_table, cast_record_batch, export", "crates/modelardb_storage/src/data_folder/mod.rs: DataFolder::open_local_url, table_writer"]}
{"id": "C51", "title": "Moving and copying tables keeps their data", "statement": "Moving a table to another table keeps each row exactly once, in the source or in the target, whatever fails and whenever the process is killed, and afterwards the target is still within its error bounds; copying an interval of a time series table copies exactly the data points in the interval.", "quantifier": "every pair of tables, every number of rows, every failure and crash between the steps, every interleaving with writes of other clients and every interval", "why_tests_cant": "Needs failures between reading, writing and truncating, and every interleaving with other clients.", "anchors": ["crates/modelardb_embedded/src/operations/data_folder.rs: DataFolder::move, copy_time_series_table, schemas_are_compatible, truncate"]}
{"id": "C52", "title": "Reading a time series table returns what is requested", "statement": "Reading a time series table through the embedded library returns exactly the rows with the given tags and in the given interval, with the given columns or the aggregates of them for the given groups.", "quantifier": "every table, every list of columns and aggregates, every set of tags in every order and every interval", "why_tests_cant": "The request is written as SQL text without quoting and read again; whether the text means what was requested depends on all names and texts.", "anchors": ["crates/modelardb_embedded/src/operations/mod.rs: generate_read_time_series_table_sql", "crates/modelardb_embedded/src/operations/data_folder.rs: read_time_series_table, read"]}
{"id": "C53", "title": "Tables are changed in the same way through a client as in a data folder", "statement": "Dropping, truncating and vacuuming a table through the embedded library changes exactly the table with the given name, and does the same for a client of a server as for a data folder.", "quantifier": "every name, every retention period of type u64 and every set of tables", "why_tests_cant": "The two implementations are different code, one writes SQL text; whether they agree depends on all names and all retention periods.", "anchors": ["crates/modelardb_embedded/src/operations/client.rs: truncate, drop, vacuum", "crates/modelardb_embedded/src/operations/data_folder.rs: truncate, drop, vacuum", "crates/modelardb_storage/src/data_folder/mod.rs: vacuum_table"]}
{"id": "C54", "title": "A CREATE TIME SERIES TABLE statement creates the table that is written", "statement": "A CREATE TIME SERIES TABLE statement is accepted exactly if it is written according to the grammar and its table is valid, the table that is created has exactly the name, columns, error bounds and expressions that are written, and no text makes the parser panic.", "quantifier": "every text, every list of tokens and every list of columns", "why_tests_cant": "The parser is a loop over tokens with optional parts; that no other statement is accepted and none is misread holds for all texts only by induction.", "anchors": ["crates/modelardb_storage/src/parser.rs: next_tokens_are_create_time_series_table", "crates/modelardb_storage/src/parser.rs: parse_create_time_series_table, parse_columns, expect_word_value, parse_positive_literal_f32", "crates/modelardb_storage/src/parser.rs: semantic_checks_for_create_table"]}
{"id": "C55", "title": "The configuration of a server is what was last accepted", "statement": "A running server uses for each parameter the latest value that was given as a flag or accepted as an update since its data folder was created, an accepted update survives restarts and crashes, a refused update changes nothing, and no server runs with several threads per component.", "quantifier": "every sequence of starts with any flags, updates, stops, crashes and failures, and every content of the configuration file", "why_tests_cant": "Tests update one setting at a time on one server; which value is used after any sequence of restarts and failures holds for all sequences only by induction.", "anchors": ["crates/modelardb_server/src/configuration.rs: Configuration, ConfigurationManager", "crates/modelardb_server/src/main.rs: ServerArgs", "crates/modelardb_server/src/remote.rs: do_action UpdateConfiguration"]}
{"id": "C56", "title": "Deleted data never returns", "statement": "After a table is truncated or dropped, none of the batches inserted before are ever in the table or in a new table with the same name, no batch is there twice, and a server with the write-ahead log enabled has every batch that was logged since, although other starts of the server had the log disabled.", "quantifier": "every sequence of starts with and without the log, creations, inserts, saves, truncations, drops, deletions of log segments, stops and crashes", "why_tests_cant": "The tests run one server with one mode; whether old batches are replayed depends on all modes the data folder was used with, and holds for all sequences only by an invariant.", "anchors": ["crates/modelardb_server/src/context.rs: replay_write_ahead_log, drop_table, truncate_table", "crates/modelardb_server/src/main.rs: main", "crates/modelardb_storage/src/write_ahead_log.rs: WriteAheadLog::try_new, create_table_log"]}
{"id": "C57", "title": "TRUNCATE CLUSTER deletes the rows everywhere", "statement": "When TRUNCATE CLUSTER returns without an error, the tables contain no rows inserted before it, neither on a node of the cluster nor in the remote data folder, these rows never return, and rows of other tables are not changed; if it returns an error, nothing is changed.", "quantifier": "every number of nodes and tables, and every interleaving of statements, inserts, saves, transfers, crashes, stops and starts", "why_tests_cant": "There are no tests of several nodes with data; which rows are left depends on how transfers and nodes that stop interleave with the steps of the statement on all nodes.", "anchors": ["crates/modelardb_server/src/cluster.rs: truncate_cluster_tables, cluster_do_get, peer_nodes", "crates/modelardb_server/src/remote.rs: truncate_tables", "crates/modelardb_server/src/context.rs: truncate_table, drop_table_from_storage_engine", "crates/modelardb_server/src/storage/data_transfer.rs: transfer_data, mark_table_as_dropped, clear_table"]}
{"id": "C58", "title": "Requests do not wait for each other forever", "statement": "However the requests to a server are interleaved, fail, and are cancelled, they never wait for each other forever: as long as a request is not answered, one can go on, all end after a bounded number of steps, and no request uses the configuration, the storage engine, the write-ahead log or the data transfer while another request changes it.", "quantifier": "every number of requests of every kind, with any number of tables, buffers and record batches, and every interleaving of their steps, errors and cancellations under fair read-write locks", "why_tests_cant": "Requests are tested one at a time; a deadlock needs a request to change the configuration to arrive in a window of some milliseconds between two acquisitions of the same lock, and depends on the order in which fair locks are granted.", "anchors": ["crates/modelardb_server/src/remote.rs: create_time_series_table, drop_tables, truncate_tables, do_action", "crates/modelardb_server/src/context.rs: create_time_series_table, drop_table, truncate_table, drop_table_from_storage_engine", "crates/modelardb_server/src/configuration.rs: set_compressed_reserved_memory_in_bytes, set_transfer_batch_size_in_bytes, set_segment_size_threshold_in_bytes", "crates/modelardb_server/src/storage/compressed_data_manager.rs: save_compressed_data"]}
{"id": "C59", "title": "Flushing a node moves all of its data to the remote data folder", "statement": "When FlushMemory is answered without an error all rows that have been inserted are in tables, when FlushNode is answered without an error all of them are in the remote tables and none are left on the node, and a node that is stopped by KillNode or CTRL+C has kept none in memory only and is not listed in the cluster; both actions end if nothing fails.", "quantifier": "every sequence of insertions, requests, failures, crashes and restarts, and every interleaving of a transfer of all tables with insertions and other transfers", "why_tests_cant": "The tests flush a node with a few rows when nothing fails; which rows are left behind depends on earlier failures, restarts, and the interleaving with transfers of other tasks.", "anchors": ["crates/modelardb_server/src/remote.rs: do_action (FlushMemory, FlushNode, KillNode)", "crates/modelardb_server/src/main.rs: setup_ctrl_c_handler", "crates/modelardb_server/src/storage/mod.rs: flush, transfer, close", "crates/modelardb_server/src/storage/data_transfer.rs: transfer_larger_than_threshold, transfer_data", "crates/modelardb_server/src/cluster.rs: remove_node"]}
{"id": "C60", "title": "Queries are sent to cloud nodes that are running", "statement": "When a node of a cluster is asked which node should execute a query, it names a cloud node that is running, each with the same probability, and the query is executed on all rows that had been transferred; as long as a cloud node is running queries are not refused.", "quantifier": "every history of nodes that are started in either mode with any url, fail, and are removed, with insertions, transfers and queries in between, and every random choice", "why_tests_cant": "The node is chosen at random from a table that depends on all earlier starts, crashes and removals of all nodes; the tests list one or two nodes and never restart them.", "anchors": ["crates/modelardb_server/src/remote.rs: get_flight_info", "crates/modelardb_server/src/cluster.rs: try_new, query_node, remove_node", "crates/modelardb_storage/src/data_folder/cluster.rs: save_node, remove_node, nodes", "crates/modelardb_server/src/data_folders.rs: try_from_args"]}
{"id": "C61", "title": "Time series tables created from C and Python have the error bounds that are asked for", "statement": "A time series table that is created through the C-API or the Python library has the name, columns, generated columns and, for each column, the error bound that is asked for (zero is lossless, positive is absolute, negative is relative, none is lossless); requests that cannot be met are errors, and never abort the process of the user.", "quantifier": "every schema, every set of error bounds with any f32 (C) or f64 (Python) values including NaN and infinities, all generated columns, and every order of hash sets", "why_tests_cant": "The tests of the bindings create one table with one or two round error bounds; the sign encoding, rounding of f64 to f32, and the values that abort the process need all numbers.", "anchors": ["crates/modelardb_embedded/src/capi.rs: modelardb_embedded_create, create, error_bounds_array_to_error_bounds, map_array_to_map_of_string_to_string", "crates/modelardb_embedded/src/operations/mod.rs: try_new_time_series_table_metadata", "crates/modelardb_embedded/bindings/python/modelardb/operations.py: create", "crates/modelardb_embedded/bindings/python/modelardb/error_bound.py", "crates/modelardb_embedded/bindings/python/modelardb/table.py"]}
{"id": "C62", "title": "A query that includes other nodes returns the rows of all of them", "statement": "A statement INCLUDE 'address', ... SELECT ... executes the SELECT at the node and at each of the addresses and returns exactly the rows of all of them, under the columns they have, or an error if one of them has; it never stops the server.", "quantifier": "every text of a statement, any number of addresses with any characters, every SELECT, all answers of the nodes including errors in the middle of a result, and every order in which the results arrive", "why_tests_cant": "The tests parse INCLUDE with one or two fixed addresses and never execute it; the query that is sent is cut out of the text by searching for the last address, which is only wrong for the texts in which it occurs again.", "anchors": ["crates/modelardb_server/src/remote.rs: do_get, execute_query_at_addresses_and_union, execute_query_at_address, send_query_result", "crates/modelardb_storage/src/parser.rs: next_token_is_include, parse_include_query, extract_include_addresses"]}
{"id": "C63", "title": "Rows inserted into a table stay in that table, whatever is done to tables with its name", "statement": "While time series tables with one name are created, truncated and dropped, every row that was inserted into a table is stored in that table until it is truncated or dropped, also after crashes if there is a write-ahead log, and no row is stored in another table with its name; no such execution stops the server or leaves statements waiting.", "quantifier": "all interleavings of any number of puts, CREATE, TRUNCATE and DROP statements with freeing of memory and crashes, for any number of fields and with and without a log", "why_tests_cant": "The tests create and drop a table once and insert before it is dropped; the errors need a put that is open while its table is dropped and created again, or a crash between two steps of DROP TABLE.", "anchors": ["crates/modelardb_server/src/context.rs: create_time_series_table, drop_table, truncate_table, replay_write_ahead_log", "crates/modelardb_server/src/remote.rs: do_put, ingest_into_time_series_table", "crates/modelardb_server/src/storage/uncompressed_data_manager.rs: insert_data_point", "crates/modelardb_server/src/storage/compressed_data_manager.rs: save_compressed_data", "crates/modelardb_storage/src/write_ahead_log.rs: create_table_log, remove_table_log, truncate_table_log"]}
{"id": "C64", "title": "The client executes the statements in a file, as they are written", "statement": "When the client is given a file, every statement in it is sent to the server exactly once, in order, without its comments, and nothing that is not a statement of the file is sent; an error is printed for each that fails and the exit status says whether all succeeded.", "quantifier": "every file with any bytes and line ends, every server and all its answers", "why_tests_cant": "The client has no tests; that a file is executed wrongly depends on how its statements, literals and comments are laid out.", "anchors": ["crates/modelardb_client/src/main.rs: execute_queries_from_a_file, execute_and_print_command_or_query, execute_command"]}
{"id": "C65", "title": "Programs in C and Python use data folders and nodes safely and are told why calls fail", "statement": "A program in C that uses each handle as what it was opened as and not after closing it, or any program in Python, never causes undefined behaviour, leaks nothing, and releases nothing twice; each call that fails leaves an error for the calling thread that it can read until it asks for an error again.", "quantifier": "every sequence of calls by any number of threads with any arguments, every address the allocator returns, every result of the operations", "why_tests_cant": "Undefined behaviour, leaks and stale errors do not make a test fail, and the tests of the bindings use one thread and pairs of data folders that are referred to by variables.", "anchors": ["crates/modelardb_embedded/src/capi.rs", "crates/modelardb_embedded/bindings/python/modelardb/operations.py"]}
{"id": "C66", "title": "Errors of the file system do not make the write-ahead log lose or repeat batches", "statement": "If operations on the files of a write-ahead log fail at any point and the process goes on, then every batch whose append returned an id is returned when the log is opened again unless it was committed or the log was truncated, nothing that was committed is returned, and the log can be opened.", "quantifier": "every history of appends, commits, marks, truncations, restarts and stops, every operation on a file that fails, every order in which folders are listed", "why_tests_cant": "Tests use a file system on which no operation fails, and the harm only shows after later operations that succeed and a restart.", "anchors": ["crates/modelardb_storage/src/write_ahead_log.rs"]}
{"id": "C67", "title": "VACUUM CLUSTER deletes old files of the tables on every node once", "statement": "When a node of a cluster executes VACUUM CLUSTER, the stale files of the tables in the statement, or of all tables, that are older than the retention period are deleted in the remote data folder and on every node, no other file is deleted, every other node gets the statement exactly once, and the client is answered.", "quantifier": "every way to write the statement, every number of nodes and tables, every retention period, every order in which peers execute it, every state of the nodes", "why_tests_cant": "Tests run one node with few tables whose names are plain; what peers read in the text that is sent depends on all names, and the harm only shows in a cluster.", "anchors": ["crates/modelardb_server/src/cluster.rs", "crates/modelardb_server/src/remote.rs", "crates/modelardb_storage/src/parser.rs", "crates/modelardb_storage/src/data_folder/mod.rs"]}
{"id": "C68", "title": "Rows that are written are stored once in the columns they are for, or not at all", "statement": "When rows are written to a table, by a program to a data folder or a node, with INSERT, or by copying the result of a query, and the writer is told that this succeeded, then each row is stored once, in order, in the columns it is for and with the meaning its entries have for the writer, and nothing else changes; if an error is returned, none of the rows are stored and the process has not stopped.", "quantifier": "all tables, all rows, all types and names of columns, all divisions into batches and messages, all points at which writing or reading fails", "why_tests_cant": "Tests write a few correct batches; columns of other types with the same width, nulls in nullable columns, batches that are divided into messages and errors in the middle are not tried, and a wrong meaning of bits gives no error.", "anchors": ["crates/modelardb_embedded/src/operations/data_folder.rs:191", "crates/modelardb_embedded/src/operations/data_folder.rs:254", "crates/modelardb_embedded/src/operations/data_folder.rs:547", "crates/modelardb_embedded/src/operations/client.rs:163", "crates/modelardb_embedded/src/operations/client.rs:205", "crates/modelardb_server/src/remote.rs:230", "crates/modelardb_server/src/remote.rs:473", "crates/modelardb_server/src/remote.rs:750", "crates/modelardb_server/src/storage/data_sinks.rs:79", "crates/modelardb_server/src/storage/data_sinks.rs:156", "crates/modelardb_server/src/storage/uncompressed_data_manager.rs:130"]}
{"id": "C69", "title": "A query returns what was inserted and flushed, within the error bound", "statement": "When data points were inserted into a time series table and a flush has returned, a query of the table returns one row for each data point that was received, and no others, with its timestamp and tag values, with values that are within the error bound of its values, and with the values of one data point in one row.", "quantifier": "all tables, all data points, all divisions into insertions, all interleavings of the threads of the node with any spilling, all divisions of the segments into files, all batch sizes and projections", "why_tests_cant": "Tests insert a few thousand data points in order and compare the result; the interleavings of the threads, spilling, the division into buffers, commits and files, and values at the limits of the models cannot be enumerated, and each stage is right only for what the stage before it can give it.", "anchors": ["crates/modelardb_server/src/storage/uncompressed_data_manager.rs:553", "crates/modelardb_server/src/storage/uncompressed_data_manager.rs:566", "crates/modelardb_server/src/storage/compressed_data_manager.rs:248", "crates/modelardb_storage/src/data_folder/delta_table_writer.rs:157", "crates/modelardb_storage/src/query/grid_exec.rs:323", "crates/modelardb_storage/src/query/sorted_join_exec.rs:1", "crates/modelardb_storage/src/query/time_series_table.rs:222"]}
{"id": "C70", "title": "Aggregates are those of what was inserted and flushed", "statement": "When data points were inserted into a time series table and a flush has returned, COUNT computed from the segments of a field is the number of data points received, MIN and MAX are the least and greatest value except for what values may differ by, and SUM and AVG differ from those of the values received by at most the sum of what the values may differ by and the rounding errors of the additions. At any time COUNT is the number of data points that are committed. No segment is compressed from more data points than a buffer can have.", "quantifier": "all tables, fields and data points, all divisions into insertions, all interleavings of the threads of the node with any spilling, all divisions of the segments into files and all orders of reading them", "why_tests_cant": "Tests compare the aggregates of segments with those of the same segments decompressed; that no data point is counted twice or left out after any interleaving of ingestion, and how much rounding adds up to for any number of values, cannot be shown by running it.", "anchors": ["crates/modelardb_storage/src/optimizer/model_simple_aggregates.rs:384", "crates/modelardb_storage/src/optimizer/model_simple_aggregates.rs:488", "crates/modelardb_server/src/storage/uncompressed_data_manager.rs:553", "crates/modelardb_server/src/storage/uncompressed_data_buffer.rs:1"]}
{"id": "C71", "title": "After data was transferred, the edge node and the cloud node together return what was inserted", "statement": "When data points were inserted at an edge node and flushed, and segments are transferred to the remote data folder while others are saved, then a query of the table at the edge node and the same query at a cloud node together return one row for each data point that was received, and no others, within the error bound.", "quantifier": "all tables, data points and fields, all interleavings of the threads of the node, all interleavings of commits with the steps of transfers, all divisions of the segments into files and batches", "why_tests_cant": "Tests of data transfer count the segments that are left in a folder; which data points a segment has, which of the two folders it is in, and what is returned for it depends on every interleaving before.", "anchors": ["crates/modelardb_server/src/storage/data_transfer.rs:224", "crates/modelardb_server/src/storage/compressed_data_manager.rs:248", "crates/modelardb_storage/src/query/time_series_table.rs:222", "crates/modelardb_storage/src/query/grid_exec.rs:323"]}
{"id": "C72", "title": "A server is started in the mode and with the data folders that it is given", "statement": "A server that is started uses exactly the local and the remote data folder that its arguments name, executes queries on the local one as an edge node and on the remote one as a cloud node, listens on the host and port that it is given, and is a node of the cluster once, with a url that no other node has. A server that cannot be started is not a node of the cluster.", "quantifier": "all arguments and credentials, all texts as urls, all failures of the file system, the object stores and the rest of the start", "why_tests_cant": "Tests start a server with a few urls that are well formed; which texts name a data folder, and what is left in the cluster when one of the later steps fails, is a statement about all texts and all failures.", "anchors": ["crates/modelardb_server/src/data_folders.rs:55", "crates/modelardb_storage/src/data_folder/mod.rs:89", "crates/modelardb_storage/src/data_folder/mod.rs:136", "crates/modelardb_server/src/main.rs:132", "crates/modelardb_server/src/remote.rs:66", "crates/modelardb_storage/src/write_ahead_log.rs:66"]}
{"id": "C73", "title": "Completing a word offers what continues it", "statement": "When a word is completed in the read-eval-print loop of the client, exactly the keywords and the tables that start with what has been written of them, ignoring the case of letters, are offered as they are written, and accepting one of them changes nothing else in the line.", "quantifier": "all lines, all positions of the cursor, all names of tables", "why_tests_cant": "The client has no tests of this; a test would complete a few words at the end of a line, while the cursor can be anywhere in a line with any text.", "anchors": ["crates/modelardb_client/src/helper.rs:37", "crates/modelardb_client/src/helper.rs:84", "crates/modelardb_client/src/main.rs:129"]}
