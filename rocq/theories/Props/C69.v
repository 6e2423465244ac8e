(** C69 - A query returns what was inserted and flushed. *)
From Coq Require Import ZArith Reals Bool String List Permutation.
From Verif Require Import Model.Base Model.Float Model.ErrorBound Model.Segments
  Model.Filters Model.Streams Model.Table Model.Scan Model.DataSource Model.EndToEnd
  Spec.PlatformSpec Spec.ErrorBoundSpec Spec.PmcSpec Spec.SwingSpec Spec.FiltersSpec
  Spec.SegmentsSpec Spec.GridSpec Spec.StreamsSpec Spec.TableSpec Spec.ScanSpec Spec.EndToEndSpec
  Proofs.MacaqueVLossyProofs Proofs.QueryExample Proofs.EndToEndResults Proofs.EndToEndExample
  Proofs.EndToEndOneField Proofs.EndToEndOneFieldExample.
From Verif Require Model.Pipeline Spec.PipelineSpec Proofs.PipelineExamples.
Import ListNotations.
Open Scope nat_scope.
Open Scope string_scope.
Open Scope list_scope.

(** Data points are inserted in any order and number of batches, ingested by all interleavings of the
    threads with any spilling, and flushed. When the flush returns, the buffers committed to the
    table can be compressed for all fields. If their segments are in files, then a query of the table
    returns one row for each data point received for the table, and no others, with its timestamp
    and tags and with values that are within the error bound except for rounding errors. Missing: the
    residuals after a linear function ([after_line], see C10), files of different fields that are not
    read in the same order, predicates and limits (see below for queries of one field), and what is
    missing in C10, C28 and C38. *)
Theorem c69_query_near_partial :
  forall hash capacity sort_points logging events limits s1 s P m size latest interval
    tags_le sort_segments batch_size files streams F set_order projection,
  PipelineSpec.sorts_points sort_points -> PipelineSpec.nonneg_limits limits ->
  Pipeline.run hash capacity sort_points logging events (Pipeline.start logging limits [] [])
    = Pipeline.Next s1 ->
  PipelineSpec.along hash capacity sort_points logging PipelineSpec.usual events
    (Pipeline.start logging limits [] []) ->
  ~ In Pipeline.Crash events ->
  PipelineSpec.collision_free hash (PipelineSpec.received s1) ->
  PipelineSpec.distinct_times (PipelineSpec.received s1) ->
  Pipeline.step hash capacity sort_points logging Pipeline.Return s1 = Pipeline.Next s ->
  let sent := sent_to (table_name m) s in
  let committed := committed_to (table_name m) s in
  valid_table m -> tags_named m -> Forall (is_row_of m) sent ->
  can_store P m size latest interval sent ->
  total_order tags_le -> sorts_segments tags_le sort_segments ->
  (forall position column name eb l, field_at m position column name eb ->
     all_segments P m position column committed = Ok l -> hold (files column) l) ->
  aligned m committed files ->
  read_from sort_segments batch_size m files streams -> 0 < batch_size ->
  enumerates_indices set_order ->
  let columns := columns_of m projection in
  selects m columns -> (exists i, reads m columns i) ->
  (exists i, reads m columns i /\ type_at (query_schema m) i Float32) \/ stored_field_first m ->
  (forall position column name eb, field_at m position column name eb ->
     exists l, all_segments P m position column committed = Ok l)
  /\ exists rows items, Permutation items sent
     /\ Forall2 (row_for P (fun eb => near eb (rounding size latest interval (length sent))) m files)
          rows items
     /\ ((forall r, In r rows -> computable F m columns r) ->
         exists p, scan set_order m projection = Ok p
           /\ answers F m rows columns (fun n =>
                consume (query_poll F (grid_stored P) None (tag_names m) p) n
                  (query_stream p None batch_size streams))).
Proof. exact query_near. Qed.
Print Assumptions c69_query_near_partial.

(** The values are within the error bound if the rounding errors are less than what the deviation
    leaves of the bound. Missing: as above, and values stored without loss. *)
Theorem c69_query_within_partial :
  forall hash capacity sort_points logging events limits s1 s P m size latest interval
    tags_le sort_segments batch_size files streams F set_order projection,
  PipelineSpec.sorts_points sort_points -> PipelineSpec.nonneg_limits limits ->
  Pipeline.run hash capacity sort_points logging events (Pipeline.start logging limits [] [])
    = Pipeline.Next s1 ->
  PipelineSpec.along hash capacity sort_points logging PipelineSpec.usual events
    (Pipeline.start logging limits [] []) ->
  ~ In Pipeline.Crash events ->
  PipelineSpec.collision_free hash (PipelineSpec.received s1) ->
  PipelineSpec.distinct_times (PipelineSpec.received s1) ->
  Pipeline.step hash capacity sort_points logging Pipeline.Return s1 = Pipeline.Next s ->
  let sent := sent_to (table_name m) s in
  let committed := committed_to (table_name m) s in
  valid_table m -> tags_named m -> Forall (is_row_of m) sent ->
  can_store P m size latest interval sent ->
  total_order tags_le -> sorts_segments tags_le sort_segments ->
  (forall position column name eb l, field_at m position column name eb ->
     all_segments P m position column committed = Ok l -> hold (files column) l) ->
  aligned m committed files ->
  read_from sort_segments batch_size m files streams -> 0 < batch_size ->
  enumerates_indices set_order ->
  let columns := columns_of m projection in
  selects m columns -> (exists i, reads m columns i) ->
  (exists i, reads m columns i /\ type_at (query_schema m) i Float32) \/ stored_field_first m ->
  (forall position column name eb x, field_at m position column name eb -> In x sent ->
     finite32 (value_of position x) ->
     (rounding size latest interval (length sent) <= margin eb (R32 (value_of position x)))%R) ->
  exists rows items, Permutation items sent
    /\ Forall2 (row_for P (within_bound check_slack) m files) rows items
    /\ ((forall r, In r rows -> computable F m columns r) ->
        exists p, scan set_order m projection = Ok p
          /\ answers F m rows columns (fun n =>
               consume (query_poll F (grid_stored P) None (tag_names m) p) n
                 (query_stream p None batch_size streams))).
Proof. exact query_within. Qed.
Print Assumptions c69_query_within_partial.

(** Nothing has to be known about the buffers if the data points of each time series are received in
    the order of their timestamps and all fields have the same number of files: then no buffer of a
    time series overlaps with another one in time. Missing: as above. *)
Theorem c69_query_in_order_partial :
  forall hash capacity sort_points logging events limits s1 s P m size latest interval
    tags_le sort_segments batch_size files streams F set_order projection,
  PipelineSpec.sorts_points sort_points -> PipelineSpec.nonneg_limits limits ->
  Pipeline.run hash capacity sort_points logging events (Pipeline.start logging limits [] [])
    = Pipeline.Next s1 ->
  PipelineSpec.along hash capacity sort_points logging PipelineSpec.usual events
    (Pipeline.start logging limits [] []) ->
  ~ In Pipeline.Crash events ->
  PipelineSpec.collision_free hash (PipelineSpec.received s1) ->
  in_time_order (PipelineSpec.received s1) ->
  Pipeline.step hash capacity sort_points logging Pipeline.Return s1 = Pipeline.Next s ->
  let sent := sent_to (table_name m) s in
  let committed := committed_to (table_name m) s in
  valid_table m -> tags_named m -> Forall (is_row_of m) sent ->
  can_store P m size latest interval sent ->
  total_order tags_le -> sorts_segments tags_le sort_segments ->
  (forall position column name eb l, field_at m position column name eb ->
     all_segments P m position column committed = Ok l -> hold (files column) l) ->
  (forall j k, In j (field_column_indices m) -> In k (field_column_indices m) ->
     length (files j) = length (files k)) ->
  read_from sort_segments batch_size m files streams -> 0 < batch_size ->
  enumerates_indices set_order ->
  let columns := columns_of m projection in
  selects m columns -> (exists i, reads m columns i) ->
  (exists i, reads m columns i /\ type_at (query_schema m) i Float32) \/ stored_field_first m ->
  (forall position column name eb x, field_at m position column name eb -> In x sent ->
     finite32 (value_of position x) ->
     (rounding size latest interval (length sent) <= margin eb (R32 (value_of position x)))%R) ->
  exists rows items, Permutation items sent
    /\ Forall2 (row_for P (within_bound check_slack) m files) rows items
    /\ ((forall r, In r rows -> computable F m columns r) ->
        exists p, scan set_order m projection = Ok p
          /\ answers F m rows columns (fun n =>
               consume (query_poll F (grid_stored P) None (tag_names m) p) n
                 (query_stream p None batch_size streams))).
Proof. exact query_in_order. Qed.
Print Assumptions c69_query_in_order_partial.

(** Twelve readings of two meters are in three buffers and the segments of each field in two files. *)
Example c69_example : exists s1,
  let s := meters_state in
  let m := meters_table in
  let sent := sent_to (table_name m) s in
  PipelineSpec.sorts_points PipelineExamples.toy_sort /\ PipelineSpec.nonneg_limits meters_limits
  /\ Pipeline.run PipelineExamples.toy_hash 10 PipelineExamples.toy_sort true meters_events
       (Pipeline.start true meters_limits [] []) = Pipeline.Next s1
  /\ PipelineSpec.along PipelineExamples.toy_hash 10 PipelineExamples.toy_sort true
       PipelineSpec.usual meters_events (Pipeline.start true meters_limits [] [])
  /\ ~ In Pipeline.Crash meters_events
  /\ PipelineSpec.collision_free PipelineExamples.toy_hash (PipelineSpec.received s1)
  /\ PipelineSpec.distinct_times (PipelineSpec.received s1)
  /\ Pipeline.step PipelineExamples.toy_hash 10 PipelineExamples.toy_sort true Pipeline.Return s1
     = Pipeline.Next s
  /\ length sent = 12 /\ length (committed_to (table_name m) s) = 3
  /\ valid_table m /\ tags_named m /\ Forall (is_row_of m) sent
  /\ can_store exact_platform m 200 meters_latest 1000000 sent
  /\ total_order tags_le /\ sorts_segments tags_le by_insertion
  /\ (forall position column name eb l, field_at m position column name eb ->
        all_segments exact_platform m position column (committed_to (table_name m) s) = Ok l ->
        hold (meters_files column) l)
  /\ aligned m (committed_to (table_name m) s) meters_files
  /\ in_time_order (PipelineSpec.received s1)
  /\ (forall j k, In j (field_column_indices m) -> In k (field_column_indices m) ->
        length (meters_files j) = length (meters_files k))
  /\ read_from by_insertion 8 m meters_files meters_streams
  /\ enumerates_indices any_indices
  /\ selects m (columns_of m (Some [3; 0; 1; 2]))
  /\ (exists i, reads m (columns_of m (Some [3; 0; 1; 2])) i /\ type_at (query_schema m) i Float32)
  /\ (forall l r, computable products m l r)
  /\ (forall position column name eb x, field_at m position column name eb -> In x sent ->
        finite32 (value_of position x) ->
        (rounding 200 meters_latest 1000000 (length sent)
         <= margin eb (R32 (value_of position x)))%R)
  /\ exists p bs, scan any_indices m (Some [3; 0; 1; 2]) = Ok p
       /\ consume (query_poll products (grid_stored exact_platform) None (tag_names m) p) 9
            (query_stream p None 8 meters_streams) = Ok (bs, Done)
       /\ firstn 3 (all_columns 4 bs)
          = [repeat (Value 1084437299) 10 ++ [Value (bits 44); Value (bits 7)];
             map (fun t => Time (second t)) [1; 2; 3; 4; 5; 6; 7; 8; 9; 10; 11; 1]%Z;
             repeat (Text "a") 11 ++ [Text "b"]].
Proof. exact meters_example. Qed.

(** A query at any time, after any number of crashes and failed commits, returns one row for each data
    point that is committed to the table and no others: none that was not sent and none more often
    than it was sent. Which data points are committed is said by C22 to C24 and C29. Missing: as in the
    first theorem. *)
Theorem c69_query_any_time_partial :
  forall hash capacity sort_points logging events limits s P m size latest interval
    tags_le sort_segments batch_size files streams F set_order projection,
  PipelineSpec.sorts_points sort_points ->
  Pipeline.run hash capacity sort_points logging events (Pipeline.start logging limits [] [])
    = Pipeline.Next s ->
  PipelineSpec.along hash capacity sort_points logging
    (fun e s => PipelineSpec.undisturbed e s /\ PipelineSpec.spills_written e) events
    (Pipeline.start logging limits [] []) ->
  PipelineSpec.collision_free hash (PipelineSpec.received s) ->
  PipelineSpec.distinct_times (PipelineSpec.received s) ->
  let sent := sent_to (table_name m) s in
  let committed := committed_to (table_name m) s in
  valid_table m -> tags_named m -> Forall (is_row_of m) sent ->
  can_store P m size latest interval sent ->
  total_order tags_le -> sorts_segments tags_le sort_segments ->
  (forall position column name eb l, field_at m position column name eb ->
     all_segments P m position column committed = Ok l -> hold (files column) l) ->
  aligned m committed files ->
  read_from sort_segments batch_size m files streams -> 0 < batch_size ->
  enumerates_indices set_order ->
  let columns := columns_of m projection in
  selects m columns -> (exists i, reads m columns i) ->
  (exists i, reads m columns i /\ type_at (query_schema m) i Float32) \/ stored_field_first m ->
  (forall position column name eb, field_at m position column name eb ->
     exists l, all_segments P m position column committed = Ok l)
  /\ exists rows items rest, Permutation items (saved_in (table_name m) s)
     /\ Permutation sent (items ++ rest)
     /\ Forall2 (row_for P (fun eb => near eb (rounding size latest interval (length sent))) m files)
          rows items
     /\ ((forall r, In r rows -> computable F m columns r) ->
         exists p, scan set_order m projection = Ok p
           /\ answers F m rows columns (fun n =>
                consume (query_poll F (grid_stored P) None (tag_names m) p) n
                  (query_stream p None batch_size streams))).
Proof. exact query_any_time. Qed.
Print Assumptions c69_query_any_time_partial.

(** The readings are flushed, then another one is inserted and the server is stopped before it is
    stored, and started again. *)
Example c69_crash_example :
  let s := crash_state in
  let m := meters_table in
  let sent := sent_to (table_name m) s in
  PipelineSpec.sorts_points PipelineExamples.toy_sort
  /\ Pipeline.run PipelineExamples.toy_hash 10 PipelineExamples.toy_sort true crash_events
       (Pipeline.start true meters_limits [] []) = Pipeline.Next s
  /\ PipelineSpec.along PipelineExamples.toy_hash 10 PipelineExamples.toy_sort true
       (fun e s => PipelineSpec.undisturbed e s /\ PipelineSpec.spills_written e)
       crash_events (Pipeline.start true meters_limits [] [])
  /\ In Pipeline.Crash crash_events
  /\ PipelineSpec.collision_free PipelineExamples.toy_hash (PipelineSpec.received s)
  /\ PipelineSpec.distinct_times (PipelineSpec.received s)
  /\ length sent = 13 /\ length (saved_in (table_name m) s) = 12
  /\ valid_table m /\ tags_named m /\ Forall (is_row_of m) sent
  /\ can_store exact_platform m 200 meters_latest 1000000 sent
  /\ total_order tags_le /\ sorts_segments tags_le by_insertion
  /\ (forall position column name eb l, field_at m position column name eb ->
        all_segments exact_platform m position column (committed_to (table_name m) s) = Ok l ->
        hold (meters_files column) l)
  /\ aligned m (committed_to (table_name m) s) meters_files
  /\ read_from by_insertion 8 m meters_files meters_streams
  /\ enumerates_indices any_indices
  /\ selects m (columns_of m (Some [3; 0; 1; 2]))
  /\ (exists i, reads m (columns_of m (Some [3; 0; 1; 2])) i /\ type_at (query_schema m) i Float32)
  /\ (forall l r, computable products m l r).
Proof. exact crash_example. Qed.

(** Without the condition that buffers do not overlap, the statement is false: sixteen readings of a
    meter are flushed, then a reading that is earlier than some of them, and each flush writes a file
    for each field. The query returns 100 for [y] at the time of the late reading, for which 50 was
    sent, as the segments of the two fields are read in different orders. *)
Theorem c69_late_refuted : exists s1,
  let s := late_state in
  let m := meters_table in
  let sent := sent_to (table_name m) s in
  PipelineSpec.sorts_points PipelineExamples.toy_sort /\ PipelineSpec.nonneg_limits meters_limits
  /\ Pipeline.run PipelineExamples.toy_hash 20 PipelineExamples.toy_sort true late_events
       (Pipeline.start true meters_limits [] []) = Pipeline.Next s1
  /\ PipelineSpec.along PipelineExamples.toy_hash 20 PipelineExamples.toy_sort true
       PipelineSpec.usual late_events (Pipeline.start true meters_limits [] [])
  /\ ~ In Pipeline.Crash late_events
  /\ PipelineSpec.collision_free PipelineExamples.toy_hash (PipelineSpec.received s1)
  /\ PipelineSpec.distinct_times (PipelineSpec.received s1)
  /\ Pipeline.step PipelineExamples.toy_hash 20 PipelineExamples.toy_sort true Pipeline.Return s1
     = Pipeline.Next s
  /\ valid_table m /\ tags_named m /\ Forall (is_row_of m) sent
  /\ can_store exact_platform m 200 meters_latest 1000000 sent
  /\ total_order tags_le /\ sorts_segments tags_le by_insertion
  /\ (forall position column name eb l, field_at m position column name eb ->
        all_segments exact_platform m position column (committed_to (table_name m) s) = Ok l ->
        hold (late_files column) l)
  /\ (forall k, In k (field_column_indices m) -> 2 <= length (late_files k))
  /\ read_from by_insertion 8 m late_files (streams_of late_files)
  /\ enumerates_indices any_indices
  /\ selects m (columns_of m (Some [0; 2; 3]))
  /\ (exists i, reads m (columns_of m (Some [0; 2; 3])) i /\ type_at (query_schema m) i Float32)
  /\ (forall l r, computable products m l r)
  /\ (forall position column name eb x, field_at m position column name eb -> In x sent ->
        finite32 (value_of position x) ->
        (rounding 200 meters_latest 1000000 (length sent)
         <= margin eb (R32 (value_of position x)))%R)
  /\ ~ after_line exact_platform (late_files 3) ["a"] (second 5)
  /\ exists p bs, scan any_indices m (Some [0; 2; 3]) = Ok p
       /\ consume (query_poll products (grid_stored exact_platform) None (tag_names m) p) 9
            (query_stream p None 8 (streams_of late_files)) = Ok (bs, Done)
       /\ map (fun c => nth 16 c (Time 0)) (all_columns 3 bs)
          = [Time (second 5); Value (bits 50); Value (bits 100)]
       /\ field_at m 1 3 "y" (Absolute (f32_of_Z 1))
       /\ forall x, In x sent -> time_of x = second 5 ->
            ~ within_bound check_slack (Absolute (f32_of_Z 1)) (value_of 1 x) (from_bits (bits 100)).
Proof. exact late_example. Qed.
Print Assumptions c69_late_refuted.

(** A query of one field that is filtered by the timestamp, for any files and batches of segments, also
    those of the theorem above: it returns one row for each of the data points that satisfy the filters
    on the timestamp, and no others.  The segments that do not satisfy the rewritten filters may be
    left out when the files are read.  Missing: the residuals after a linear function, filters that
    are not rewritten correctly (see C34), filters on tags and fields, which Apache DataFusion evaluates
    on the result, and queries of several fields (false, see C36). *)
Theorem c69_filter_partial :
  forall hash capacity sort_points logging events limits s1 s P m size latest interval batch_size F
    set_order projection position column name eb files streams filters parquet grid item_row
    segment_values point_row predicate,
  PipelineSpec.sorts_points sort_points -> PipelineSpec.nonneg_limits limits ->
  Pipeline.run hash capacity sort_points logging events (Pipeline.start logging limits [] [])
    = Pipeline.Next s1 ->
  PipelineSpec.along hash capacity sort_points logging PipelineSpec.usual events
    (Pipeline.start logging limits [] []) ->
  ~ In Pipeline.Crash events ->
  PipelineSpec.collision_free hash (PipelineSpec.received s1) ->
  PipelineSpec.distinct_times (PipelineSpec.received s1) ->
  Pipeline.step hash capacity sort_points logging Pipeline.Return s1 = Pipeline.Next s ->
  let sent := sent_to (table_name m) s in
  let committed := committed_to (table_name m) s in
  valid_table m -> tags_named m -> Forall (is_row_of m) sent ->
  can_store P m size latest interval sent -> field_at m position column name eb ->
  (forall l, all_segments P m position column committed = Ok l -> hold files l) ->
  enumerates_indices set_order ->
  let columns := columns_of m projection in
  selects m columns -> reads_one_field m columns name ->
  fine (streams column) -> 0 < batch_size ->
  (forall f, In f filters -> time_filter (filter_schema m) f = true ->
     supported (filter_schema m) f = true) ->
  rewrite_and_combine_filters (filter_schema m) filters = Ok (parquet, grid) ->
  seen_as m item_row segment_values point_row ->
  (forall q, chosen predicate q <-> passes F (point_row q) grid) ->
  reads_but (fun x => ~ passes F (segment_values x) parquet) files (streams column) ->
  exists rows items others, Permutation sent (items ++ others)
    /\ (forall x, In x items -> in_time F m item_row filters x)
    /\ (forall x, In x others -> ~ in_time F m item_row filters x)
    /\ Forall2 (row_with P (fun eb => near eb (rounding size latest interval (length sent)))
                  m files position name eb) rows items
    /\ ((forall r, In r rows -> computable F m columns r) ->
        exists p, scan set_order m projection = Ok p
          /\ answers F m rows columns (fun n =>
               consume (query_poll F (grid_stored P) predicate (tag_names m) p) n
                 (query_stream p None batch_size streams))).
Proof. exact filter_flushed. Qed.
Print Assumptions c69_filter_partial.

(** The same at any time, also after crashes, for the data points that are committed. *)
Theorem c69_filter_any_time_partial :
  forall hash capacity sort_points logging events limits s P m size latest interval batch_size F
    set_order projection position column name eb files streams filters parquet grid item_row
    segment_values point_row predicate,
  PipelineSpec.sorts_points sort_points ->
  Pipeline.run hash capacity sort_points logging events (Pipeline.start logging limits [] [])
    = Pipeline.Next s ->
  PipelineSpec.along hash capacity sort_points logging
    (fun e s => PipelineSpec.undisturbed e s /\ PipelineSpec.spills_written e) events
    (Pipeline.start logging limits [] []) ->
  PipelineSpec.collision_free hash (PipelineSpec.received s) ->
  PipelineSpec.distinct_times (PipelineSpec.received s) ->
  let sent := sent_to (table_name m) s in
  let committed := committed_to (table_name m) s in
  valid_table m -> tags_named m -> Forall (is_row_of m) sent ->
  can_store P m size latest interval sent -> field_at m position column name eb ->
  (forall l, all_segments P m position column committed = Ok l -> hold files l) ->
  enumerates_indices set_order ->
  let columns := columns_of m projection in
  selects m columns -> reads_one_field m columns name ->
  fine (streams column) -> 0 < batch_size ->
  (forall f, In f filters -> time_filter (filter_schema m) f = true ->
     supported (filter_schema m) f = true) ->
  rewrite_and_combine_filters (filter_schema m) filters = Ok (parquet, grid) ->
  seen_as m item_row segment_values point_row ->
  (forall q, chosen predicate q <-> passes F (point_row q) grid) ->
  reads_but (fun x => ~ passes F (segment_values x) parquet) files (streams column) ->
  exists rows items others, Permutation (saved_in (table_name m) s) (items ++ others)
    /\ (forall x, In x items -> in_time F m item_row filters x)
    /\ (forall x, In x others -> ~ in_time F m item_row filters x)
    /\ Forall2 (row_with P (fun eb => near eb (rounding size latest interval (length sent)))
                  m files position name eb) rows items
    /\ ((forall r, In r rows -> computable F m columns r) ->
        exists p, scan set_order m projection = Ok p
          /\ answers F m rows columns (fun n =>
               consume (query_poll F (grid_stored P) predicate (tag_names m) p) n
                 (query_stream p None batch_size streams))).
Proof. exact filter_any_time. Qed.
Print Assumptions c69_filter_any_time_partial.

(** A query of one field with a limit, for any files and batches of segments: it returns one row for
    each of some of the data points, and at least as many as the limit asks for; Apache DataFusion
    drops what is too much.  Missing: as above, and filters with a limit, which is given to the scan
    only if all filters are exact. *)
Theorem c69_limit_partial :
  forall hash capacity sort_points logging events limits s1 s P m size latest interval batch_size F
    set_order projection position column name eb files streams sort_segments limit,
  PipelineSpec.sorts_points sort_points -> PipelineSpec.nonneg_limits limits ->
  Pipeline.run hash capacity sort_points logging events (Pipeline.start logging limits [] [])
    = Pipeline.Next s1 ->
  PipelineSpec.along hash capacity sort_points logging PipelineSpec.usual events
    (Pipeline.start logging limits [] []) ->
  ~ In Pipeline.Crash events ->
  PipelineSpec.collision_free hash (PipelineSpec.received s1) ->
  PipelineSpec.distinct_times (PipelineSpec.received s1) ->
  Pipeline.step hash capacity sort_points logging Pipeline.Return s1 = Pipeline.Next s ->
  let sent := sent_to (table_name m) s in
  let committed := committed_to (table_name m) s in
  valid_table m -> tags_named m -> Forall (is_row_of m) sent ->
  can_store P m size latest interval sent -> field_at m position column name eb ->
  (forall l, all_segments P m position column committed = Ok l -> hold files l) ->
  enumerates_indices set_order ->
  let columns := columns_of m projection in
  selects m columns -> reads_one_field m columns name ->
  fine (streams column) -> 0 < batch_size ->
  (forall l, Permutation (sort_segments l) l) -> 0 < limit ->
  concat (batches_of (streams column)) = read_segments sort_segments (Some limit) files ->
  exists rows items others, Permutation sent (items ++ others)
    /\ Nat.min limit (length sent) <= length items
    /\ Forall2 (row_with P (fun eb => near eb (rounding size latest interval (length sent)))
                  m files position name eb) rows items
    /\ ((forall r, In r rows -> computable F m columns r) ->
        exists p, scan set_order m projection = Ok p
          /\ answers F m rows columns (fun n =>
               consume (query_poll F (grid_stored P) None (tag_names m) p) n
                 (query_stream p (Some limit) batch_size streams))).
Proof. exact limit_flushed. Qed.
Print Assumptions c69_limit_partial.

(** [SELECT ts, y FROM meters WHERE ts >= ...] for the readings of [c69_example] and of
    [c69_crash_example]: the segment of the other meter is not read, and one of the data points of the
    first segment that is read is returned. *)
Example c69_filter_case :
  let m := meters_table in
  let columns := columns_of m (Some [0; 3]) in
  let filters := since 10 in
  let p := Some (Binary (Column "end_time") GtEq (Literal (Time (second 10)))) in
  let g := Some (Binary (Column "timestamp") GtEq (Literal (Time (second 10)))) in
  field_at m 1 3 "y" (Absolute (f32_of_Z 1))
  /\ enumerates_indices any_indices /\ selects m columns /\ reads_one_field m columns "y"
  /\ fine (streams_since meters_files 10 3)
  /\ (forall f, In f filters -> time_filter (filter_schema m) f = true
        /\ supported (filter_schema m) f = true)
  /\ rewrite_and_combine_filters (filter_schema m) filters = Ok (p, g)
  /\ seen_as m item_values segment_times point_times
  /\ (forall q, chosen (since_points 10) q <-> passes products (point_times q) g)
  /\ reads_but (fun x => ~ passes products (segment_times x) p) (meters_files 3)
       (streams_since meters_files 10 3)
  /\ (forall r, computable products m columns r)
  /\ exists plan bs, scan any_indices m (Some [0; 3]) = Ok plan
       /\ consume (query_poll products (grid_stored exact_platform) (since_points 10) (tag_names m) plan)
            9 (query_stream plan None 8 (streams_since meters_files 10)) = Ok (bs, Done)
       /\ all_columns 2 bs
          = [[Time (second 10); Time (second 11)]; [Value 1084437299; Value (bits 44)]].
Proof. exact since_example. Qed.

(** [SELECT ts, y FROM meters LIMIT 1] for the readings of [c69_late_refuted]: one of three segments is
    read and its eight data points are returned. *)
Example c69_limit_case :
  let m := meters_table in
  let columns := columns_of m (Some [0; 3]) in
  (forall l, Permutation (by_insertion l) l)
  /\ concat (batches_of (limited_streams late_files 1 3))
     = read_segments by_insertion (Some 1) (late_files 3)
  /\ length (flat_map segments_in (late_files 3)) = 3
  /\ fine (limited_streams late_files 1 3)
  /\ exists plan bs, scan any_indices m (Some [0; 3]) = Ok plan
       /\ consume (query_poll products (grid_stored exact_platform) None (tag_names m) plan) 9
            (query_stream plan (Some 1) 8 (limited_streams late_files 1)) = Ok (bs, Done)
       /\ length (nth 0 (all_columns 2 bs) []) = 8.
Proof. exact limited_example. Qed.
