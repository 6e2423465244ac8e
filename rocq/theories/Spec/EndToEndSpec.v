(** What a query of a table should return after data points were ingested and flushed. *)
From Coq Require Import ZArith Reals Bool String List Permutation Sorted.
From Verif Require Import Model.Base Model.Float Model.ErrorBound Model.Segments
  Model.Filters Model.Streams Model.Table Model.Scan Model.DataSource Model.EndToEnd
  Spec.PlatformSpec Spec.ErrorBoundSpec Spec.PmcSpec Spec.SwingSpec Spec.MacaqueVSpec Spec.FiltersSpec
  Spec.SegmentsSpec Spec.GridSpec Spec.StreamsSpec Spec.TableSpec Spec.ScanSpec.
From Verif Require Model.Pipeline Spec.PipelineSpec.
Import ListNotations.
Open Scope nat_scope.
Open Scope list_scope.

Notation item := PipelineSpec.item.

(** The data points received for a table and those that were committed to it, and their tag values,
    timestamps and values. *)
Definition sent_to (name : string) (s : Pipeline.state) : list item :=
  filter (fun x => String.eqb (Pipeline.t_name (PipelineSpec.i_meta x)) name)
    (PipelineSpec.received s).
Definition saved_in (name : string) (s : Pipeline.state) : list item :=
  filter (fun x => String.eqb (Pipeline.t_name (PipelineSpec.i_meta x)) name)
    (PipelineSpec.saved s).
Definition tags_of (x : item) : list string := PipelineSpec.i_tags x.
Definition time_of (x : item) : Z := Pipeline.p_time (PipelineSpec.i_point x).
Definition value_of (position : nat) (x : item) : f32 :=
  from_bits (nth position (Pipeline.p_values (PipelineSpec.i_point x)) 0%Z).

(** A data point that was checked against the definition of the table. *)
Definition is_row_of (m : metadata) (x : item) : Prop :=
  PipelineSpec.i_meta x
    = {| Pipeline.t_name := table_name m; Pipeline.t_fields := length (field_column_indices m) |}
  /\ length (tags_of x) = length (tag_names m).

(** The stored fields of a table: their position among the fields, column, name and bound. *)
Record field_at (m : metadata) (position column : nat) (name : string) (eb : error_bound) : Prop := {
  field_column : nth_error (field_column_indices m) position = Some column;
  field_name : nth_error (schema m) column = Some (name, Float32);
  field_bound : nth_error (error_bounds m) column = Some eb
}.

(** What is assumed about the data points of a table: the hypotheses of [c10_values_near_partial].
    Their timestamps are at most [latest] and those of a time series are at least [interval] apart,
    values are not NaN, and they are at most [size] including the deviation. *)
Record can_store (P : platform) (m : metadata) (size : R) (latest interval : Z) (l : list item)
  : Prop := {
  log2_fine : good_log2 P;
  ties_fine : ties_first P;
  interval_positive : (1 <= interval)%Z;
  latest_small : (latest <= 2 ^ 52)%Z;
  size_small : (0 <= size <= 2 ^ 120)%R;
  few_points : (IZR latest / IZR interval + INR (length l) <= 2 ^ 44)%R;
  times_small : forall x, In x l -> (Z.abs (time_of x) <= latest)%Z;
  times_apart : forall x y, In x l -> In y l -> tags_of x = tags_of y -> x <> y ->
    (interval <= Z.abs (time_of x - time_of y))%Z;
  signs_fine : forall position column name e, field_at m position column name (Relative e) ->
    (R32 e < 100)%R \/ same_sign (map (value_of position) l);
  values_fine : forall position column name eb x, field_at m position column name eb -> In x l ->
    rewritable eb (value_of position x)
    /\ f32_is_nan (value_of position x) = false
    /\ (finite32 (value_of position x) ->
        (Rabs (R32 (value_of position x)) + exact_deviation eb (R32 (value_of position x)) <= size)%R)
}.

(** The files of a field contain its segments: those of all commits in any number of files with any
    modification times. *)
Definition hold (files : list (file stored_segment)) (segments : list stored_segment) : Prop :=
  exists ordered, Permutation files ordered /\ flat_map segments_in ordered = segments.

(** Apache DataFusion sorts segments by their tags and start times, time_series_table.rs l.222-265. *)
Definition total_order {A : Type} (le : A -> A -> Prop) : Prop :=
  (forall a, le a a) /\ (forall a b, le a b -> le b a -> a = b)
  /\ (forall a b c, le a b -> le b c -> le a c) /\ (forall a b, le a b \/ le b a).
Definition starts_no_later (le : list string -> list string -> Prop) (x y : stored_segment) : Prop :=
  (le (st_tags x) (st_tags y) /\ st_tags x <> st_tags y)
  \/ (st_tags x = st_tags y /\ (sg_start_time (st_segment x) <= sg_start_time (st_segment y))%Z).
Definition sorts_segments (le : list string -> list string -> Prop)
  (sort : list stored_segment -> list stored_segment) : Prop :=
  forall l, Permutation (sort l) l /\ StronglySorted (starts_no_later le) (sort l).

(** The segments in the files are read in batches that are full. *)
Record read_from (sort : list stored_segment -> list stored_segment) (batch_size : nat) (m : metadata)
  (files : nat -> list (file stored_segment)) (streams : nat -> stream (list stored_segment)) : Prop := {
  all_fine : forall k, fine (streams k);
  all_full : forall k, full batch_size (batches_of (streams k));
  all_read : forall k, In k (field_column_indices m) ->
    concat (batches_of (streams k)) = read_segments sort None (files k);
  no_others : forall k, ~ In k (field_column_indices m) -> streams k = []
}.

(** The data points of each time series were received in the order of their timestamps. *)
Definition in_time_order (l : list item) : Prop :=
  ForallOrdPairs (fun x y => PipelineSpec.i_meta x = PipelineSpec.i_meta y -> tags_of x = tags_of y ->
    (time_of x < time_of y)%Z) l.

(** Two buffers of a time series do not overlap in time. *)
Definition before (g h : Pipeline.segments) : Prop :=
  forall p q, In p (Pipeline.g_points g) -> In q (Pipeline.g_points h) ->
  (Pipeline.p_time p < Pipeline.p_time q)%Z.
Definition apart (l : list Pipeline.segments) : Prop :=
  ForallOrdPairs (fun g h => Pipeline.g_tags g = Pipeline.g_tags h -> before g h \/ before h g) l.

(** The fields are read in the same order: there is one field, no field has several files, or all
    fields have several files and buffers do not overlap. *)
Definition aligned (m : metadata) (l : list Pipeline.segments) (files : nat -> list (file stored_segment))
  : Prop :=
  length (field_column_indices m) = 1
  \/ (forall k, In k (field_column_indices m) -> length (files k) <= 1)
  \/ (apart l /\ forall k, In k (field_column_indices m) -> 2 <= length (files k)).

(** The residuals that are stored after a linear function, see C10. *)
Definition after_line (P : platform) (files : list (file stored_segment)) (tags : list string) (t : Z)
  : Prop :=
  exists x ts vs, In x (flat_map segments_in files) /\ st_tags x = tags
    /\ sg_model_type_id (st_segment x) = swing_id
    /\ grid P (st_segment x) = Ok (ts, vs)
    /\ In t (skipn (model_values (st_segment x) (length ts)) ts).

(** A row with the timestamp and the tag values of a data point, and with values that [ok] relates to
    its values. *)
Record row_for (P : platform) (ok : error_bound -> f32 -> f32 -> Prop) (m : metadata)
  (files : nat -> list (file stored_segment)) (r : data_row) (x : item) : Prop := {
  row_time : r_time r = time_of x;
  row_tags : map (r_tag r) (tag_names m) = tags_of x;
  row_values : forall position column name eb, field_at m position column name eb ->
    ok eb (value_of position x) (from_bits (r_field r name))
    \/ after_line P (files column) (tags_of x) (time_of x)
}.

(** The same for one field. *)
Record row_with (P : platform) (ok : error_bound -> f32 -> f32 -> Prop) (m : metadata)
  (files : list (file stored_segment)) (position : nat) (name : string) (eb : error_bound)
  (r : data_row) (x : item) : Prop := {
  one_time : r_time r = time_of x;
  one_tags : map (r_tag r) (tag_names m) = tags_of x;
  one_value : ok eb (value_of position x) (from_bits (r_field r name))
    \/ after_line P files (tags_of x) (time_of x)
}.

(** The schema of a table for filters, time_series_table.rs l.290-296. *)
Definition filter_schema (m : metadata) : Filters.schema :=
  map (fun c => (fst c, match snd c with
                        | Timestamp_us => Timestamp_type
                        | Float32 => Field_type
                        | _ => Tag_type
                        end)) (schema m).

(** How a filter sees data points: [item_row] are the rows of the table, [segment_values] the rows of
    the segments, and [point_row] what is reconstructed from them. *)
Record seen_as (m : metadata) (item_row : item -> row) (segment_values : stored_segment -> row)
  (point_row : point -> row) : Prop := {
  items_seen : forall x, table_row (filter_schema m) (time_of x) (item_row x);
  segments_seen : forall x, segment_row (sg_start_time (st_segment x)) (sg_end_time (st_segment x))
    (segment_values x);
  points_seen : forall q, grid_row (p_time q) (point_row q)
}.

(** A data point satisfies the filters on the timestamp. *)
Definition in_time (F : functions) (m : metadata) (item_row : item -> row) (filters : list expr)
  (x : item) : Prop :=
  forall f, In f filters -> time_filter (filter_schema m) f = true -> satisfies F (item_row x) f.

(** The predicate of [GridExec] is a filter. *)
Definition chosen (predicate : option (point -> bool)) (q : point) : Prop :=
  match predicate with Some f => f q = true | None => True end.

(** The segments of a stream are those in the files but for some that [skip] allows to be left out. *)
Definition reads_but (skip : stored_segment -> Prop) (files : list (file stored_segment))
  (s : stream (list stored_segment)) : Prop :=
  exists skipped, Permutation (concat (batches_of s) ++ skipped) (flat_map segments_in files)
    /\ forall x, In x skipped -> skip x.
