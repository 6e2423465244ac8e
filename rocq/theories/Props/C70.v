(** C70 - Aggregates are those of what was inserted and flushed. *)
From Coq Require Import ZArith Reals Bool String List Permutation.
From Verif Require Import Model.Base Model.Float Model.ErrorBound Model.Segments Model.Aggregates
  Model.Table Model.Scan Model.DataSource Model.EndToEnd
  Spec.PlatformSpec Spec.ErrorBoundSpec Spec.PmcSpec Spec.SwingSpec Spec.SegmentsSpec Spec.GridSpec
  Spec.StreamsSpec
  Spec.TableSpec Spec.ScanSpec Spec.EndToEndSpec Spec.AggregateSpec Spec.LineSpec
  Spec.StoredAggregatesSpec
  Proofs.MacaqueVLossyProofs Proofs.EndToEndExample Proofs.EndToEndAggregates
  Proofs.EndToEndAggregatesExample Proofs.PipelineCapacity.
From Verif Require Model.Pipeline Spec.PipelineSpec Proofs.PipelineExamples.
Import ListNotations.
Open Scope nat_scope.
Open Scope string_scope.
Open Scope list_scope.

(** Data points are inserted and flushed as in C69. COUNT of any field, computed from its segments
    read from the files in any order, is the number of data points received for the table. Missing:
    what is missing in C28, and data points that cannot be stored as in C10. *)
Theorem c70_count_partial :
  forall hash capacity sort_points logging events limits s1 s P m size latest interval
    position column name eb files read,
  PipelineSpec.sorts_points sort_points -> PipelineSpec.nonneg_limits limits ->
  Pipeline.run hash capacity sort_points logging events (Pipeline.start logging limits [] [])
    = Pipeline.Next s1 ->
  PipelineSpec.along hash capacity sort_points logging PipelineSpec.usual events
    (Pipeline.start logging limits [] []) ->
  ~ In Pipeline.Crash events ->
  PipelineSpec.collision_free hash (PipelineSpec.received s1) ->
  PipelineSpec.distinct_times (PipelineSpec.received s1) ->
  Pipeline.step hash capacity sort_points logging Pipeline.Return s1 = Pipeline.Next s ->
  let sent := sent_to (table_name m) s in
  valid_table m -> can_store P m size latest interval sent ->
  field_at m position column name eb ->
  (forall l, all_segments P m position column (committed_to (table_name m) s) = Ok l ->
     hold files l) ->
  Permutation read (flat_map segments_in files) ->
  (Z.of_nat (length sent) < 2 ^ 63)%Z ->
  model_count 0 (map st_segment read) = Ok (Z.of_nat (length sent)).
Proof. exact flushed_count. Qed.
Print Assumptions c70_count_partial.

(** At any time, also after crashes and failed commits, COUNT is the number of data points that are
    committed, which are never more than those that were sent. *)
Theorem c70_count_any_time_partial :
  forall hash capacity sort_points logging events limits s P m size latest interval
    position column name eb files read,
  PipelineSpec.sorts_points sort_points ->
  Pipeline.run hash capacity sort_points logging events (Pipeline.start logging limits [] [])
    = Pipeline.Next s ->
  PipelineSpec.along hash capacity sort_points logging
    (fun e s => PipelineSpec.undisturbed e s /\ PipelineSpec.spills_written e) events
    (Pipeline.start logging limits [] []) ->
  PipelineSpec.collision_free hash (PipelineSpec.received s) ->
  PipelineSpec.distinct_times (PipelineSpec.received s) ->
  let sent := sent_to (table_name m) s in
  let stored := saved_in (table_name m) s in
  valid_table m -> can_store P m size latest interval sent ->
  field_at m position column name eb ->
  (forall l, all_segments P m position column (committed_to (table_name m) s) = Ok l ->
     hold files l) ->
  Permutation read (flat_map segments_in files) ->
  (Z.of_nat (length sent) < 2 ^ 63)%Z ->
  model_count 0 (map st_segment read) = Ok (Z.of_nat (length stored))
  /\ exists rest, Permutation sent (stored ++ rest).
Proof. exact count_any_time. Qed.
Print Assumptions c70_count_any_time_partial.

(** MIN and MAX of a field differ from the least and greatest value received by at most what each
    value may differ by: the error bound, the rounding errors of C10, and those of linear functions,
    [e]. Missing: as above, linear functions with residuals (see C14), and values that are not
    finite. *)
Theorem c70_min_max_partial :
  forall hash capacity sort_points logging events limits s1 s P m size latest interval
    position column name eb files read,
  PipelineSpec.sorts_points sort_points -> PipelineSpec.nonneg_limits limits ->
  Pipeline.run hash capacity sort_points logging events (Pipeline.start logging limits [] [])
    = Pipeline.Next s1 ->
  PipelineSpec.along hash capacity sort_points logging PipelineSpec.usual events
    (Pipeline.start logging limits [] []) ->
  ~ In Pipeline.Crash events ->
  PipelineSpec.collision_free hash (PipelineSpec.received s1) ->
  PipelineSpec.distinct_times (PipelineSpec.received s1) ->
  Pipeline.step hash capacity sort_points logging Pipeline.Return s1 = Pipeline.Next s ->
  let sent := sent_to (table_name m) s in
  let extra := rounding size latest interval (length sent) in
  valid_table m -> can_store P m size latest interval sent ->
  field_at m position column name eb ->
  (forall l, all_segments P m position column (committed_to (table_name m) s) = Ok l ->
     hold files l) ->
  Permutation read (flat_map segments_in files) ->
  forall e, sent <> [] -> (0 <= e)%R -> (size <= 2 ^ 96)%R ->
  Forall (fun x => lines_within size latest e (st_segment x)) read ->
  Forall (fun x => finite32 (value_of position x)) sent ->
  about_least eb extra e (model_min P (map st_segment read)) (map (value_of position) sent)
  /\ about_greatest eb extra e (model_max P (map st_segment read)) (map (value_of position) sent).
Proof. exact flushed_min_max. Qed.
Print Assumptions c70_min_max_partial.

(** SUM and AVG of a field: the count is that of the data points received, and the sum differs from
    the exact sum of the values received by at most what the values may differ by and the rounding of
    one f32 operation per value and segment. Missing: as above, and sums that overflow f32. *)
Theorem c70_sum_avg_partial :
  forall hash capacity sort_points logging events limits s1 s P m size latest interval
    position column name eb files read,
  PipelineSpec.sorts_points sort_points -> PipelineSpec.nonneg_limits limits ->
  Pipeline.run hash capacity sort_points logging events (Pipeline.start logging limits [] [])
    = Pipeline.Next s1 ->
  PipelineSpec.along hash capacity sort_points logging PipelineSpec.usual events
    (Pipeline.start logging limits [] []) ->
  ~ In Pipeline.Crash events ->
  PipelineSpec.collision_free hash (PipelineSpec.received s1) ->
  PipelineSpec.distinct_times (PipelineSpec.received s1) ->
  Pipeline.step hash capacity sort_points logging Pipeline.Return s1 = Pipeline.Next s ->
  let sent := sent_to (table_name m) s in
  let extra := rounding size latest interval (length sent) in
  valid_table m -> can_store P m size latest interval sent ->
  field_at m position column name eb ->
  (forall l, all_segments P m position column (committed_to (table_name m) s) = Ok l ->
     hold files l) ->
  Permutation read (flat_map segments_in files) ->
  forall e, (0 <= e)%R -> (size <= 2 ^ 96)%R -> 2 <= capacity -> (Z.of_nat capacity <= 2 ^ 24)%Z ->
  Forall (fun x => lines_within size latest e (st_segment x)) read ->
  Forall (fun x => finite32 (value_of position x)) sent -> (Z.of_nat (length sent) < 2 ^ 64)%Z ->
  let values := map (value_of position) sent in
  let factor := ((1 + unit32) ^ (length sent + length read))%R in
  let lines := (INR (length sent) * (2 * e))%R in
  let most := (magnitude values + widths eb extra values + lines)%R in
  (factor * most <= IZR (2 ^ 127))%R ->
  exists sum, model_sum P f64_zero (map st_segment read) = Ok sum
    /\ model_avg P 0 f64_zero (map st_segment read) = Ok (Z.of_nat (length sent), sum)
    /\ finite64 sum
    /\ (Rabs (R64 sum - total values) <= widths eb extra values + lines + (factor - 1) * most)%R.
Proof. exact flushed_sum_avg. Qed.
Print Assumptions c70_sum_avg_partial.

(** The segments of a field of the readings of C69 are read in the reverse order. *)
Example c70_example : exists s1,
  let s := meters_state in
  let m := meters_table in
  let sent := sent_to (table_name m) s in
  let values := map (value_of 1) sent in
  let extra := rounding 200 meters_latest 1000000 (length sent) in
  PipelineSpec.sorts_points PipelineExamples.toy_sort /\ PipelineSpec.nonneg_limits meters_limits
  /\ Pipeline.run PipelineExamples.toy_hash 10 PipelineExamples.toy_sort true meters_events
       (Pipeline.start true meters_limits [] []) = Pipeline.Next s1
  /\ PipelineSpec.along PipelineExamples.toy_hash 10 PipelineExamples.toy_sort true
       PipelineSpec.usual meters_events (Pipeline.start true meters_limits [] [])
  /\ ~ In Pipeline.Crash meters_events
  /\ PipelineSpec.collision_free PipelineExamples.toy_hash (PipelineSpec.received s1)
  /\ PipelineSpec.distinct_times (PipelineSpec.received s1)
  /\ Pipeline.step PipelineExamples.toy_hash 10 PipelineExamples.toy_sort true Pipeline.Return s1
     = Pipeline.Next s
  /\ valid_table m /\ can_store exact_platform m 200 meters_latest 1000000 sent
  /\ field_at m 1 3 "y" (Absolute (f32_of_Z 1))
  /\ (forall l, all_segments exact_platform m 1 3 (committed_to (table_name m) s) = Ok l ->
        hold (meters_files 3) l)
  /\ Permutation meters_read_y (flat_map segments_in (meters_files 3))
  /\ length sent = 12
  /\ Forall (fun x => lines_within 200 meters_latest 0 (st_segment x)) meters_read_y
  /\ Forall (fun x => finite32 (value_of 1 x)) sent
  /\ ((1 + unit32) ^ (length sent + length meters_read_y)
      * (magnitude values + widths (Absolute (f32_of_Z 1)) extra values
         + INR (length sent) * (2 * 0)) <= IZR (2 ^ 127))%R
  /\ model_count 0 (map st_segment meters_read_y) = Ok 12%Z
  /\ to_bits (model_max exact_platform (map st_segment meters_read_y)) = to_bits (f32_of_Z 44).
Proof. exact aggregates_example. Qed.

(** After the crash of C69, one of the thirteen readings is not stored and not counted. *)
Example c70_crash_example :
  length (sent_to "meters" crash_state) = 13
  /\ model_count 0 (map st_segment meters_read_y) = Ok (Z.of_nat (length (saved_in "meters" crash_state)))
  /\ length (saved_in "meters" crash_state) = 12.
Proof. exact crash_count_example. Qed.

(** No segment of data points that is compressed has more data points than a buffer can have, however
    data points are buffered, spilled, recovered, and flushed. *)
Theorem c70_capacity : forall hash capacity sort_points logging,
  PipelineSpec.sorts_points sort_points -> 2 <= capacity ->
  forall events limits s,
  Pipeline.run hash capacity sort_points logging events (Pipeline.start logging limits [] [])
    = Pipeline.Next s ->
  forall k g, In k (Pipeline.s_table s) -> In g (Pipeline.k_segments k) ->
  length (Pipeline.g_points g) <= capacity.
Proof. exact committed_small. Qed.
Print Assumptions c70_capacity.

(** Eleven readings of a meter fill a buffer of ten, and the last one is in another. *)
Example c70_capacity_example :
  map (fun g => length (Pipeline.g_points g)) (committed_to "meters" meters_state) = [10; 1; 1].
Proof. exact capacity_example. Qed.
