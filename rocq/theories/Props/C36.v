(** C36 - Multi-field rows are assembled from the same data point. *)
From Coq Require Import ZArith String List Permutation.
From Verif Require Import Model.Base Model.Streams Model.DataSource Spec.StreamsSpec
  Proofs.GridStreamProofs Proofs.JoinStreamProofs Proofs.JoinErrorProofs Proofs.LimitProofs
  Proofs.QueryOneField Proofs.EndToEndOneFieldExample.
Import ListNotations.
Open Scope nat_scope.
Open Scope list_scope.

(** A query of any number of fields, for any segments, batches of segments and pending polls.  If
    the data points of all fields have the same timestamps and tags in the same order, row [k] has
    the timestamp, the tags and the values of data point [k], every data point gives one row, and
    the end is reached.  Missing: batches of segments (other than the last) with fewer than
    [batch_size] segments or segments without selected data points, and fields whose data points
    are not in the same order (both false, see below). *)
Theorem c36_rows_partial :
  forall (S : Type) (grid : S -> list point) predicate limit size order tags streams,
  0 < size -> limit <> Some 0 -> streams <> [] -> Forall fine streams ->
  (forall i, In i streams ->
     full (match limit with Some l => Nat.min l size | None => size end) (batches_of i)) ->
  (forall i b s, In i streams -> In b (batches_of i) -> In s b ->
     selected predicate (grid s) <> []) ->
  (forall i j, In i streams -> In j streams ->
     same_points (points_of grid predicate i) (points_of grid predicate j)) ->
  order_fits order tags (length streams) ->
  let points := map (points_of grid predicate) streams in
  forall n, exists bs e,
    consume (join_poll (grid_poll grid predicate) order tags) n
      (join_stream_new (map (fun i => grid_stream_new limit i size) streams)) = Ok (bs, e)
    /\ prefix_columns (all_columns (length order) bs) (expected order tags (hd [] points) points)
    /\ (e = Running \/ e = Done)
    /\ (e = Done -> all_columns (length order) bs = expected order tags (hd [] points) points)
    /\ (list_sum (map (fun i => length i + length (points_of grid predicate i)) streams) < n ->
        e = Done).
Proof. exact join_grids. Qed.
Print Assumptions c36_rows_partial.

(** A predicate can leave fewer data points in a batch of segments of one field than of another:
    rows are lost and values of different data points are joined.  The result has a row for
    time 3 with the value field b has at time 4, and no row for time 4. *)
Theorem c36_filter_refuted : exists (i j : stream (list (list point))) predicate n bs,
  fine i /\ fine j /\ full 2 (batches_of i) /\ full 2 (batches_of j)
  /\ same_points (points_of id_grid (Some predicate) i) (points_of id_grid (Some predicate) j)
  /\ consume (join_poll (grid_poll id_grid (Some predicate)) two_fields []) n
       (join_stream_new [grid_stream_new None i 2; grid_stream_new None j 2]) = Ok (bs, Done)
  /\ all_columns 3 bs = [[Time_cell 2; Time_cell 3]; [Value_cell 2; Value_cell 3];
                         [Value_cell 20; Value_cell 40]]
  /\ length (points_of id_grid (Some predicate) i) = 3
  /\ (forall p, In p (points_of id_grid (Some predicate) j) -> p_time p = 3%Z -> p_value p = 30%Z).
Proof. exact filter_misaligns. Qed.
Print Assumptions c36_filter_refuted.

(** Data points that are not ingested in order give overlapping segments.  The fields of the same
    data points are then returned in different orders and joined wrongly. *)
Theorem c36_overlap_refuted : exists (i j : stream (list (list point))) n bs,
  fine i /\ fine j /\ full 8 (batches_of i) /\ full 8 (batches_of j)
  /\ Permutation (map (fun p => (p_time p, p_tags p)) (points_of id_grid None i))
                 (map (fun p => (p_time p, p_tags p)) (points_of id_grid None j))
  /\ consume (join_poll (grid_poll id_grid None) two_fields []) n
       (join_stream_new [grid_stream_new None i 8; grid_stream_new None j 8]) = Ok (bs, Done)
  /\ all_columns 3 bs
     = [[Time_cell 1; Time_cell 4; Time_cell 2; Time_cell 3];
        [Value_cell 1; Value_cell 4; Value_cell 2; Value_cell 3];
        [Value_cell 10; Value_cell 20; Value_cell 30; Value_cell 40]]
  /\ (forall p, In p (points_of id_grid None j) -> p_time p = 4%Z -> p_value p = 40%Z).
Proof. exact overlap_misaligns. Qed.
Print Assumptions c36_overlap_refuted.

(** Two fields with different segments that are ready at different times. *)
Example c36_example :
  let streams := [waiting_a; waiting_b] in
  Forall fine streams
  /\ (forall i, In i streams -> full 2 (batches_of i))
  /\ (forall i b s, In i streams -> In b (batches_of i) -> In s b -> selected None (id_grid s) <> [])
  /\ (forall i j, In i streams -> In j streams ->
        same_points (points_of id_grid None i) (points_of id_grid None j))
  /\ order_fits two_fields [] (length streams)
  /\ exists bs,
       consume (join_poll (grid_poll id_grid None) two_fields []) 16
         (join_stream_new (map (fun i => grid_stream_new None i 2) streams)) = Ok (bs, Done)
       /\ all_columns 3 bs
          = [map Time_cell [1; 2; 3; 4]; map Value_cell [1; 2; 3; 4];
             map Value_cell [10; 20; 30; 40]]%Z.
Proof. exact join_example. Qed.

(** Also if the fields have different data points or different numbers of them: row [k] has the
    [k]th data point of each field, and the rows end with those of the shortest field.  Missing:
    short batches and segments without selected data points as above. *)
Theorem c36_shortest_partial :
  forall (S : Type) (grid : S -> list point) predicate limit size order tags streams,
  0 < size -> limit <> Some 0 -> streams <> [] -> Forall fine streams ->
  (forall i, In i streams ->
     full (match limit with Some l => Nat.min l size | None => size end) (batches_of i)) ->
  (forall i b s, In i streams -> In b (batches_of i) -> In s b ->
     selected predicate (grid s) <> []) ->
  order_fits order tags (length streams) ->
  let points := map (points_of grid predicate) streams in
  let rows := map (firstn (shortest points)) points in
  forall n, exists bs e,
    consume (join_poll (grid_poll grid predicate) order tags) n
      (join_stream_new (map (fun i => grid_stream_new limit i size) streams)) = Ok (bs, e)
    /\ prefix_columns (all_columns (length order) bs) (expected order tags (hd [] rows) rows)
    /\ (e = Running \/ e = Done)
    /\ (e = Done -> all_columns (length order) bs = expected order tags (hd [] rows) rows)
    /\ (list_sum (map (fun i => length i + length (points_of grid predicate i)) streams) < n ->
        e = Done).
Proof. exact join_shortest. Qed.
Print Assumptions c36_shortest_partial.

(** A query with a limit when the segments of each field are in at most one file: however many
    segments are read for each field, the rows are the first rows of the query without the limit,
    and at least as many as the limit asks for.  Missing: several files (false, see below). *)
Theorem c36_limit_partial :
  forall (S : Type) (grid : S -> list point) sort limit size order tags fields streams,
  0 < size -> 0 < limit -> streams <> [] -> Forall fine streams ->
  Forall2 (fun files i => length files <= 1
             /\ concat (batches_of i) = read_segments sort (Some limit) files) fields streams ->
  (forall i, In i streams -> full (Nat.min limit size) (batches_of i)) ->
  (forall files f s, In files fields -> In f files -> In s (segments_in f) -> grid s <> []) ->
  (forall a b, In a fields -> In b fields -> same_points (stored grid a) (stored grid b)) ->
  order_fits order tags (length streams) ->
  let points := map (stored grid) fields in
  forall n, exists bs e,
    consume (join_poll (grid_poll grid None) order tags) n
      (join_stream_new (map (fun i => grid_stream_new (Some limit) i size) streams)) = Ok (bs, e)
    /\ prefix_columns (all_columns (length order) bs) (expected order tags (hd [] points) points)
    /\ (e = Running \/ e = Done)
    /\ (e = Done -> exists k, Nat.min limit (length (hd [] points)) <= k
          /\ all_columns (length order) bs
             = expected order tags (firstn k (hd [] points)) (map (firstn k) points))
    /\ (list_sum (map (fun i => length i + length (points_of grid None i)) streams) < n ->
        e = Done).
Proof. exact limit_rows. Qed.
Print Assumptions c36_limit_partial.

(** A query of one field, for any predicate, limit and batches of segments: the rows are the selected
    data points in their order and the end is reached. *)
Theorem c36_one_field :
  forall (S : Type) (grid : S -> list point) predicate limit size order tags i,
  0 < size -> limit <> Some 0 -> fine i -> order_fits order tags 1 ->
  let points := points_of grid predicate i in
  forall n, exists bs e got more,
    consume (join_poll (grid_poll grid predicate) order tags) n
      (join_stream_new [grid_stream_new limit i size]) = Ok (bs, e)
    /\ points = got ++ more
    /\ all_columns (length order) bs = expected order tags got [got]
    /\ (e = Running \/ e = Done)
    /\ (e = Done -> more = [])
    /\ (length i + length points < n -> e = Done).
Proof. exact one_field_columns. Qed.
Print Assumptions c36_one_field.

(** A batch of segments, one of which has no selected data points, and a batch with fewer segments:
    [c36_rows_partial] does not apply. *)
Example c36_one_field_case : fine uneven /\ ~ full 4 (batches_of uneven)
  /\ order_fits [Field; Timestamp] [] 1
  /\ exists bs, consume (join_poll (grid_poll id_grid (Some from_two)) [Field; Timestamp] []) 16
       (join_stream_new [grid_stream_new None uneven 4]) = Ok (bs, Done)
     /\ all_columns 2 bs = [map Value_cell [2; 3; 4]; map Time_cell [2; 3; 4]]%Z.
Proof. exact uneven_example. Qed.

(** A query of one field with a limit, for any files: the rows are data points of the table, none of
    them more often than it is stored, and at least as many as the limit asks for. *)
Theorem c36_limit_one_field :
  forall (S : Type) (grid : S -> list point) sort limit size order tags files i,
  (forall l, Permutation (sort l) l) ->
  0 < size -> 0 < limit -> fine i ->
  concat (batches_of i) = read_segments sort (Some limit) files ->
  full (Nat.min limit size) (batches_of i) ->
  (forall f s, In f files -> In s (segments_in f) -> grid s <> []) ->
  order_fits order tags 1 ->
  forall n, length i + length (points_of grid None i) < n ->
  exists bs got rest,
    consume (join_poll (grid_poll grid None) order tags) n
      (join_stream_new [grid_stream_new (Some limit) i size]) = Ok (bs, Done)
    /\ all_columns (length order) bs = expected order tags got [got]
    /\ Permutation (got ++ rest) (stored grid files)
    /\ Nat.min limit (length (stored grid files)) <= length got.
Proof. exact limit_single. Qed.
Print Assumptions c36_limit_one_field.

(** Two fields and several files.  The limit is the number of segments that are read for each field,
    and is applied before they are sorted, so data points of different series can be read for
    different fields.  Without the limit the fields have the same data points in the same order.
    With the limit both rows are of series x but have the values that field b has for series y. *)
Theorem c36_limit_refuted :
  exists (a b : list (file (list point))) (i j : stream (list (list point))) n bs,
  map modification_time a = map modification_time b
  /\ batches_of i = [read_segments by_series (Some 2) a]
  /\ batches_of j = [read_segments by_series (Some 2) b]
  /\ fine i /\ fine j
  /\ same_points (flat_map (fun s => s) (read_segments by_series None a))
                 (flat_map (fun s => s) (read_segments by_series None b))
  /\ consume (join_poll (grid_poll (fun s => s) None) [Timestamp; Tag "series"; Field; Field]
                ["series"%string]) n
       (join_stream_new [grid_stream_new (Some 2) i 8; grid_stream_new (Some 2) j 8])
     = Ok (bs, Done)
  /\ all_columns 4 bs
     = [[Time_cell 1; Time_cell 2]; [Tag_cell "x"; Tag_cell "x"]; [Value_cell 1; Value_cell 2];
        [Value_cell 30; Value_cell 40]]
  /\ (forall p, In p (stored (fun s => s) b) -> p_time p = 1%Z -> p_tags p = ["x"%string] ->
        p_value p = 10%Z).
Proof. exact limit_misaligns. Qed.
Print Assumptions c36_limit_refuted.

(** A limit of two for two fields with different segments, and for one field in two files. *)
Example c36_limit_example : exists (i j : stream (list (list point))) bs,
  Forall2 (fun files i => length files <= 1
             /\ concat (batches_of i) = read_segments by_series (Some 2) files)
    [file_a; file_b] [i; j]
  /\ Forall fine [i; j]
  /\ (forall s, In s [i; j] -> full 2 (batches_of s))
  /\ same_points (stored (fun s => s) file_a) (stored (fun s => s) file_b)
  /\ consume (join_poll (grid_poll (fun s => s) None) [Timestamp; Tag "series"; Field; Field]
                ["series"%string]) 16
       (join_stream_new [grid_stream_new (Some 2) i 8; grid_stream_new (Some 2) j 8])
     = Ok (bs, Done)
  /\ all_columns 4 bs
     = [[Time_cell 1; Time_cell 2]; [Tag_cell "x"; Tag_cell "x"]; [Value_cell 1; Value_cell 2];
        [Value_cell 10; Value_cell 20]].
Proof. exact limit_example. Qed.

Example c36_limit_one_field_example :
  (forall l, Permutation (by_series l) l)
  /\ exists (i : stream (list (list point))) bs,
  concat (batches_of i) = read_segments by_series (Some 2) files_a
  /\ fine i /\ full 2 (batches_of i)
  /\ consume (join_poll (grid_poll (fun s => s) None) [Timestamp; Tag "series"; Field]
                ["series"%string]) 16
       (join_stream_new [grid_stream_new (Some 2) i 8]) = Ok (bs, Done)
  /\ all_columns 3 bs
     = [[Time_cell 1; Time_cell 2; Time_cell 1; Time_cell 2];
        [Tag_cell "x"; Tag_cell "x"; Tag_cell "y"; Tag_cell "y"];
        [Value_cell 1; Value_cell 2; Value_cell 3; Value_cell 4]].
Proof. split; [exact by_series_permutation|exact limit_single_example]. Qed.
