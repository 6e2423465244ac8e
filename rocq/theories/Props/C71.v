(** C71 - After data was transferred, the edge node and the cloud node together return what was inserted. *)
From Coq Require Import ZArith Reals Bool String List Permutation.
From Verif Require Import Model.Base Model.Float Model.ErrorBound Model.Segments
  Model.Filters Model.Aggregates Model.Streams Model.Table Model.Scan Model.DataSource Model.EndToEnd
  Spec.FiltersSpec Spec.GridSpec Spec.SwingSpec Spec.StreamsSpec Spec.TableSpec Spec.ScanSpec
  Spec.EndToEndSpec Spec.EndToEndTransferSpec
  Proofs.MacaqueVLossyProofs Proofs.QueryExample Proofs.EndToEndExample Proofs.EndToEndOneFieldExample
  Proofs.EndToEndTransfer Proofs.EndToEndTransferExample.
From Verif Require Model.Pipeline Spec.PipelineSpec Model.Transfer Spec.TransferSpec.
Import ListNotations.
Open Scope nat_scope.
Open Scope string_scope.
Open Scope list_scope.

(** Data points are inserted at an edge node and flushed as in C69, and the segments are transferred to
    the remote data folder as in C31 while they are saved.  Then a query of a field at the edge node and the
    same query at a cloud node each return one row for each of their data points, and each data point
    that was received is among those of exactly one of the two nodes.  So both results together, as a query
    that includes the other node returns them (C62), have each data point once.  Missing: the executions
    that C31 excludes (false, see below), and what is missing in [c69_filter_partial]. *)
Theorem c71_each_once_partial :
  forall hash capacity sort_points logging events limits s1 s n batch moves after P m size latest interval
    batch_size F set_order projection position column name eb segment_of of_field local remote edge cloud,
  PipelineSpec.sorts_points sort_points -> PipelineSpec.nonneg_limits limits ->
  Pipeline.run hash capacity sort_points logging events (Pipeline.start logging limits [] [])
    = Pipeline.Next s1 ->
  PipelineSpec.along hash capacity sort_points logging PipelineSpec.usual events
    (Pipeline.start logging limits [] []) ->
  ~ In Pipeline.Crash events ->
  PipelineSpec.collision_free hash (PipelineSpec.received s1) ->
  PipelineSpec.distinct_times (PipelineSpec.received s1) ->
  Pipeline.step hash capacity sort_points logging Pipeline.Return s1 = Pipeline.Next s ->
  let sent := sent_to (table_name m) s in
  let committed := committed_to (table_name m) s in
  valid_table m -> tags_named m -> Forall (is_row_of m) sent ->
  can_store P m size latest interval sent -> field_at m position column name eb ->
  enumerates_indices set_order ->
  let columns := columns_of m projection in
  selects m columns -> reads_one_field m columns name -> 0 < batch_size ->
  (forall l, all_segments P m position column committed = Ok l ->
     Permutation (map segment_of (filter of_field (TransferSpec.saved (table_name m) moves))) l) ->
  in_folder segment_of of_field (Transfer.x_local after (table_name m)) local ->
  in_folder segment_of of_field (Transfer.x_remote after (table_name m)) remote ->
  reads_but (fun _ => False) local (edge column) -> fine (edge column) ->
  reads_but (fun _ => False) remote (cloud column) -> fine (cloud column) ->
  transferred (table_name m) n batch moves after ->
  exists edge_rows edge_items cloud_rows cloud_items, Permutation sent (edge_items ++ cloud_items)
    /\ Forall2 (row_with P (fun eb => near eb (rounding size latest interval (length sent)))
                  m (local ++ remote) position name eb) edge_rows edge_items
    /\ Forall2 (row_with P (fun eb => near eb (rounding size latest interval (length sent)))
                  m (local ++ remote) position name eb) cloud_rows cloud_items
    /\ ((forall r, In r edge_rows -> computable F m columns r) ->
        exists p, scan set_order m projection = Ok p
          /\ answers F m edge_rows columns (fun n =>
               consume (query_poll F (grid_stored P) None (tag_names m) p) n
                 (query_stream p None batch_size edge)))
    /\ ((forall r, In r cloud_rows -> computable F m columns r) ->
        exists p, scan set_order m projection = Ok p
          /\ answers F m cloud_rows columns (fun n =>
               consume (query_poll F (grid_stored P) None (tag_names m) p) n
                 (query_stream p None batch_size cloud))).
Proof. exact returned_once. Qed.
Print Assumptions c71_each_once_partial.

(** With filters on the timestamp, each data point that satisfies them is returned by exactly one of the
    two nodes, and no others.  Missing: as above, and filters that are not rewritten correctly (see C34). *)
Theorem c71_filter_partial :
  forall hash capacity sort_points logging events limits s1 s n batch moves after P m size latest interval
    batch_size F set_order projection position column name eb segment_of of_field local remote edge cloud
    filters parquet grid item_row segment_values point_row predicate,
  PipelineSpec.sorts_points sort_points -> PipelineSpec.nonneg_limits limits ->
  Pipeline.run hash capacity sort_points logging events (Pipeline.start logging limits [] [])
    = Pipeline.Next s1 ->
  PipelineSpec.along hash capacity sort_points logging PipelineSpec.usual events
    (Pipeline.start logging limits [] []) ->
  ~ In Pipeline.Crash events ->
  PipelineSpec.collision_free hash (PipelineSpec.received s1) ->
  PipelineSpec.distinct_times (PipelineSpec.received s1) ->
  Pipeline.step hash capacity sort_points logging Pipeline.Return s1 = Pipeline.Next s ->
  let sent := sent_to (table_name m) s in
  let committed := committed_to (table_name m) s in
  valid_table m -> tags_named m -> Forall (is_row_of m) sent ->
  can_store P m size latest interval sent -> field_at m position column name eb ->
  enumerates_indices set_order ->
  let columns := columns_of m projection in
  selects m columns -> reads_one_field m columns name -> 0 < batch_size ->
  (forall l, all_segments P m position column committed = Ok l ->
     Permutation (map segment_of (filter of_field (TransferSpec.saved (table_name m) moves))) l) ->
  in_folder segment_of of_field (Transfer.x_local after (table_name m)) local ->
  in_folder segment_of of_field (Transfer.x_remote after (table_name m)) remote ->
  (forall f, In f filters -> time_filter (filter_schema m) f = true ->
     supported (filter_schema m) f = true) ->
  rewrite_and_combine_filters (filter_schema m) filters = Ok (parquet, grid) ->
  seen_as m item_row segment_values point_row ->
  (forall q, chosen predicate q <-> passes F (point_row q) grid) ->
  reads_but (fun x => ~ passes F (segment_values x) parquet) local (edge column) -> fine (edge column) ->
  reads_but (fun x => ~ passes F (segment_values x) parquet) remote (cloud column) ->
  fine (cloud column) ->
  transferred (table_name m) n batch moves after ->
  exists edge_rows edge_items cloud_rows cloud_items others,
    Permutation sent (edge_items ++ cloud_items ++ others)
    /\ (forall x, In x (edge_items ++ cloud_items) -> in_time F m item_row filters x)
    /\ (forall x, In x others -> ~ in_time F m item_row filters x)
    /\ Forall2 (row_with P (fun eb => near eb (rounding size latest interval (length sent)))
                  m (local ++ remote) position name eb) edge_rows edge_items
    /\ Forall2 (row_with P (fun eb => near eb (rounding size latest interval (length sent)))
                  m (local ++ remote) position name eb) cloud_rows cloud_items
    /\ ((forall r, In r edge_rows -> computable F m columns r) ->
        exists p, scan set_order m projection = Ok p
          /\ answers F m edge_rows columns (fun n =>
               consume (query_poll F (grid_stored P) predicate (tag_names m) p) n
                 (query_stream p None batch_size edge)))
    /\ ((forall r, In r cloud_rows -> computable F m columns r) ->
        exists p, scan set_order m projection = Ok p
          /\ answers F m cloud_rows columns (fun n =>
               consume (query_poll F (grid_stored P) predicate (tag_names m) p) n
                 (query_stream p None batch_size cloud))).
Proof. exact filtered_once. Qed.
Print Assumptions c71_filter_partial.

(** COUNT at the edge node and COUNT at the cloud node, each computed from the segments of a field in any
    order, add up to the number of data points received.  Missing: the executions that C31 excludes. *)
Theorem c71_count_partial :
  forall hash capacity sort_points logging events limits s1 s n batch moves after P m size latest interval
    position column name eb segment_of of_field local remote edge_read cloud_read,
  PipelineSpec.sorts_points sort_points -> PipelineSpec.nonneg_limits limits ->
  Pipeline.run hash capacity sort_points logging events (Pipeline.start logging limits [] [])
    = Pipeline.Next s1 ->
  PipelineSpec.along hash capacity sort_points logging PipelineSpec.usual events
    (Pipeline.start logging limits [] []) ->
  ~ In Pipeline.Crash events ->
  PipelineSpec.collision_free hash (PipelineSpec.received s1) ->
  PipelineSpec.distinct_times (PipelineSpec.received s1) ->
  Pipeline.step hash capacity sort_points logging Pipeline.Return s1 = Pipeline.Next s ->
  let sent := sent_to (table_name m) s in
  valid_table m -> can_store P m size latest interval sent -> field_at m position column name eb ->
  (forall l, all_segments P m position column (committed_to (table_name m) s) = Ok l ->
     Permutation (map segment_of (filter of_field (TransferSpec.saved (table_name m) moves))) l) ->
  in_folder segment_of of_field (Transfer.x_local after (table_name m)) local ->
  in_folder segment_of of_field (Transfer.x_remote after (table_name m)) remote ->
  Permutation edge_read (flat_map segments_in local) ->
  Permutation cloud_read (flat_map segments_in remote) ->
  transferred (table_name m) n batch moves after ->
  (Z.of_nat (length sent) < 2 ^ 63)%Z ->
  exists a b, model_count 0 (map st_segment edge_read) = Ok a
    /\ model_count 0 (map st_segment cloud_read) = Ok b /\ (a + b = Z.of_nat (length sent))%Z.
Proof. exact counted_once. Qed.
Print Assumptions c71_count_partial.

(** At any time, whatever crashes, fails or overlaps in the transfers, both nodes only return data points
    that were received.  Missing: the residuals after a linear function, and queries of several fields. *)
Theorem c71_only_inserted_partial :
  forall hash capacity sort_points logging events limits s1 s n batch moves after P m size latest interval
    batch_size F set_order projection position column name eb segment_of of_field local remote edge cloud,
  PipelineSpec.sorts_points sort_points -> PipelineSpec.nonneg_limits limits ->
  Pipeline.run hash capacity sort_points logging events (Pipeline.start logging limits [] [])
    = Pipeline.Next s1 ->
  PipelineSpec.along hash capacity sort_points logging PipelineSpec.usual events
    (Pipeline.start logging limits [] []) ->
  ~ In Pipeline.Crash events ->
  PipelineSpec.collision_free hash (PipelineSpec.received s1) ->
  PipelineSpec.distinct_times (PipelineSpec.received s1) ->
  Pipeline.step hash capacity sort_points logging Pipeline.Return s1 = Pipeline.Next s ->
  let sent := sent_to (table_name m) s in
  let committed := committed_to (table_name m) s in
  valid_table m -> tags_named m -> Forall (is_row_of m) sent ->
  can_store P m size latest interval sent -> field_at m position column name eb ->
  enumerates_indices set_order ->
  let columns := columns_of m projection in
  selects m columns -> reads_one_field m columns name -> 0 < batch_size ->
  (forall l, all_segments P m position column committed = Ok l ->
     Permutation (map segment_of (filter of_field (TransferSpec.saved (table_name m) moves))) l) ->
  in_folder segment_of of_field (Transfer.x_local after (table_name m)) local ->
  in_folder segment_of of_field (Transfer.x_remote after (table_name m)) remote ->
  reads_but (fun _ => False) local (edge column) -> fine (edge column) ->
  reads_but (fun _ => False) remote (cloud column) -> fine (cloud column) ->
  Transfer.run moves (Transfer.start n batch) = Transfer.Went after ->
  exists edge_rows edge_items cloud_rows cloud_items, incl (edge_items ++ cloud_items) sent
    /\ Forall2 (row_with P (fun eb => near eb (rounding size latest interval (length sent)))
                  m (local ++ remote) position name eb) edge_rows edge_items
    /\ Forall2 (row_with P (fun eb => near eb (rounding size latest interval (length sent)))
                  m (local ++ remote) position name eb) cloud_rows cloud_items
    /\ ((forall r, In r edge_rows -> computable F m columns r) ->
        exists p, scan set_order m projection = Ok p
          /\ answers F m edge_rows columns (fun n =>
               consume (query_poll F (grid_stored P) None (tag_names m) p) n
                 (query_stream p None batch_size edge)))
    /\ ((forall r, In r cloud_rows -> computable F m columns r) ->
        exists p, scan set_order m projection = Ok p
          /\ answers F m cloud_rows columns (fun n =>
               consume (query_poll F (grid_stored P) None (tag_names m) p) n
                 (query_stream p None batch_size cloud))).
Proof. exact returned_inserted. Qed.
Print Assumptions c71_only_inserted_partial.

(** The readings of [c69_example]: ten readings of one meter and one of the other are transferred, and
    the last one is not. *)
Example c71_case :
  let m := meters_table in
  let after := after_moves meter_moves in
  let local := Transfer.x_local after "meters" in
  let remote := Transfer.x_remote after "meters" in
  transferred "meters" 2 (Some 100%Z) meter_moves after
  /\ local = [22; 32]%Z /\ remote = [20; 30; 21; 31]%Z
  /\ field_at m 1 3 "y" (Absolute (f32_of_Z 1))
  /\ selects m (columns_of m (Some [0; 3])) /\ reads_one_field m (columns_of m (Some [0; 3])) "y"
  /\ (forall l, all_segments exact_platform m 1 3 (committed_to "meters" meters_state) = Ok l ->
        Permutation (map meter_row (filter of_y (TransferSpec.saved "meters" meter_moves))) l)
  /\ in_folder meter_row of_y local (folder local) /\ in_folder meter_row of_y remote (folder remote)
  /\ (reads_but (fun _ => False) (folder local) (folder_streams local 3) /\ fine (folder_streams local 3))
  /\ (reads_but (fun _ => False) (folder remote) (folder_streams remote 3)
      /\ fine (folder_streams remote 3))
  /\ y_times local [11%Z] /\ y_times remote [1; 1; 2; 3; 4; 5; 6; 7; 8; 9; 10]%Z.
Proof. exact transfer_example. Qed.

(** [WHERE ts >= ...] for these readings: one of the readings that are returned is at each node, and the
    segment of the other meter is not read. *)
Example c71_filter_case :
  let after := after_moves meter_moves in
  let local := Transfer.x_local after "meters" in
  let remote := Transfer.x_remote after "meters" in
  let p := Some (Binary (Column "end_time") GtEq (Literal (Time (second 10)))) in
  (reads_but (fun x => ~ passes products (segment_times x) p) (folder local) (since_folder local 10 3)
   /\ fine (since_folder local 10 3))
  /\ (reads_but (fun x => ~ passes products (segment_times x) p) (folder remote) (since_folder remote 10 3)
      /\ fine (since_folder remote 10 3))
  /\ y_since local 10 [11%Z] /\ y_since remote 10 [10%Z].
Proof. exact transfer_filter_example. Qed.

Example c71_count_case :
  let after := after_moves meter_moves in
  let local := flat_map segments_in (folder (Transfer.x_local after "meters")) in
  let remote := flat_map segments_in (folder (Transfer.x_remote after "meters")) in
  (Z.of_nat (length (sent_to "meters" meters_state)) < 2 ^ 63)%Z
  /\ model_count 0 (map st_segment local) = Ok 1%Z /\ model_count 0 (map st_segment remote) = Ok 11%Z.
Proof. exact transfer_count_example. Qed.

(** A buffer that is saved while another one is transferred is returned by neither node, though the flush
    returned and nothing failed: the reading of the second meter is missing. *)
Theorem c71_lost_refuted :
  let after := after_moves losing_moves in
  Transfer.run losing_moves (Transfer.start 2 (Some 100%Z)) = Transfer.Went after
  /\ TransferSpec.along TransferSpec.one_transfer_at_a_time losing_moves (Transfer.start 2 (Some 100%Z))
  /\ TransferSpec.along TransferSpec.no_failure losing_moves (Transfer.start 2 (Some 100%Z))
  /\ (forall l, all_segments exact_platform meters_table 1 3 (committed_to "meters" meters_state) = Ok l ->
        Permutation (map meter_row (filter of_y (TransferSpec.saved "meters" losing_moves))) l)
  /\ length (sent_to "meters" meters_state) = 12
  /\ y_times (Transfer.x_local after "meters") [11%Z]
  /\ y_times (Transfer.x_remote after "meters") [1; 2; 3; 4; 5; 6; 7; 8; 9; 10]%Z.
Proof. exact lost_example. Qed.
Print Assumptions c71_lost_refuted.

(** After a crash between the write to the remote data folder and the truncation of the local table, the
    cloud node returns readings twice. *)
Theorem c71_twice_refuted :
  let after := after_moves repeating_moves in
  Transfer.run repeating_moves (Transfer.start 2 (Some 100%Z)) = Transfer.Went after
  /\ TransferSpec.along TransferSpec.no_save_while_moving repeating_moves (Transfer.start 2 (Some 100%Z))
  /\ TransferSpec.along TransferSpec.one_transfer_at_a_time repeating_moves (Transfer.start 2 (Some 100%Z))
  /\ TransferSpec.along TransferSpec.no_failure repeating_moves (Transfer.start 2 (Some 100%Z))
  /\ (forall l, all_segments exact_platform meters_table 1 3 (committed_to "meters" meters_state) = Ok l ->
        Permutation (map meter_row (filter of_y (TransferSpec.saved "meters" repeating_moves))) l)
  /\ length (sent_to "meters" meters_state) = 12
  /\ y_times (Transfer.x_local after "meters") [11; 1]%Z
  /\ y_times (Transfer.x_remote after "meters") [1; 2; 3; 4; 5; 6; 7; 8; 9; 10; 1; 2; 3; 4; 5; 6; 7; 8; 9; 10]%Z.
Proof. exact repeated_example. Qed.
Print Assumptions c71_twice_refuted.
