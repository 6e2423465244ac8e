(** C34 - Time filters never drop matching data points. *)
From Coq Require Import ZArith String List.
From Verif Require Import Model.Base Model.Filters Model.Segments Spec.FiltersSpec
  Spec.TimestampsSpec Spec.SegmentsSpec Proofs.FiltersProofs.
Import ListNotations.
Open Scope Z_scope.
Open Scope list_scope.

(** For any number of filters of any shape on a table, and the data point at [time] in a segment
    from [start_time] to [end_time]: if the row of the data point satisfies all filters, its segment
    passes the filter on segments and its reconstructed row the filter of [GridExec].  The latter
    is passed exactly if the filters on the timestamp column are satisfied.  Missing: timestamps
    compared with expressions over columns, for which the rewritten filters have no meaning, and
    equality with the timestamp to the right (false, see below). *)
Theorem c34_filters_partial : forall F s filters p g,
  (forall f, In f filters -> time_filter s f = true -> supported s f = true) ->
  rewrite_and_combine_filters s filters = Ok (p, g) ->
  forall time start_time end_time point seg grid,
    start_time <= time <= end_time ->
    table_row s time point -> segment_row start_time end_time seg -> grid_row time grid ->
    ((forall f, In f filters -> satisfies F point f) -> passes F seg p /\ passes F grid g)
    /\ (passes F grid g
        <-> forall f, In f filters -> time_filter s f = true -> satisfies F point f).
Proof. exact filters_complete. Qed.
Print Assumptions c34_filters_partial.

(** In particular for the segments written by the compressor, see C10. *)
Theorem c34_compressed_partial : forall F sch filters p g,
  (forall f, In f filters -> time_filter sch f = true -> supported sch f = true) ->
  rewrite_and_combine_filters sch filters = Ok (p, g) ->
  forall s points time v point seg,
    covers s points -> strictly_increasing (map fst points) -> In (time, v) points ->
    table_row sch time point -> segment_row (sg_start_time s) (sg_end_time s) seg ->
    (forall f, In f filters -> satisfies F point f) -> passes F seg p.
Proof. exact compressed_filters. Qed.
Print Assumptions c34_compressed_partial.

(** [constant = timestamp] drops segments with matching data points as the comparisons with the
    start and end of the segment are swapped.  Unless the timestamp column is called "timestamp",
    the filter for data points uses a column that does not exist. *)
Theorem c34_equal_refuted : exists s filter p g,
  rewrite_and_combine_filters s [filter] = Ok (Some p, Some g)
  /\ exists F time start_time end_time point seg,
       start_time <= time <= end_time /\ table_row s time point
       /\ segment_row start_time end_time seg
       /\ satisfies F point filter /\ ~ satisfies F seg p
       /\ (forall grid, grid "time"%string = None -> evaluate F grid g = None).
Proof. exact equal_right_wrong. Qed.
Print Assumptions c34_equal_refuted.

(** If it is called "timestamp", the filter compares it with itself and keeps all data points. *)
Theorem c34_equal_kept_refuted : exists s filter p g,
  rewrite_and_combine_filters s [filter] = Ok (Some p, Some g)
  /\ exists F time point grid,
       table_row s time point /\ grid_row time grid
       /\ ~ satisfies F point filter /\ satisfies F grid g.
Proof. exact equal_right_kept. Qed.
Print Assumptions c34_equal_kept_refuted.

(** Rewriting panics exactly if a filter has an operand that is not a column of the schema. *)
Theorem c34_panics : forall s filters,
  rewrite_and_combine_filters s filters = Panic
  <-> exists f name, In f filters /\ In name (operand_columns f) /\ field_with_name s name = None.
Proof. exact filters_panic. Qed.
Print Assumptions c34_panics.

(** A scan rewrites filters with the schema of the stored columns, so every filter that compares a
    generated column panics. *)
Theorem c34_generated_refuted : forall columns name op e,
  ~ In name (map fst (stored_schema columns)) ->
  scan_filters columns [Binary (Column name) op e] = Panic.
Proof. exact generated_filter_panics. Qed.
Print Assumptions c34_generated_refuted.

(** time >= 5 AND 9 > time AND f = 1. *)
Example c34_example :
  let s := [("tag", Tag_type); ("time", Timestamp_type); ("f", Field_type)]%string in
  let filters := [Binary (Column "time") GtEq (Literal (Time 5));
                  Binary (Literal (Time 9)) Gt (Column "time");
                  Binary (Column "f") Eq (Literal (Value 1))]%string in
  (forall f, In f filters -> time_filter s f = true -> supported s f = true)
  /\ (forall f name, In f filters -> In name (operand_columns f) -> field_with_name s name <> None)
  /\ rewrite_and_combine_filters s filters
     = Ok (Some (Binary (Binary (Column "end_time") GtEq (Literal (Time 5))) And
                        (Binary (Literal (Time 9)) Gt (Column "start_time"))),
           Some (Binary (Binary (Column "timestamp") GtEq (Literal (Time 5))) And
                        (Binary (Literal (Time 9)) Gt (Column "timestamp"))))%string.
Proof. exact filters_example. Qed.

(** g is generated from f: the filter g > 1 aborts the server. *)
Example c34_generated_example :
  let columns := [("time", Timestamp_type, false); ("f", Field_type, false);
                  ("g", Field_type, true)]%string in
  In "g"%string (map (fun c => fst (fst c)) columns)
  /\ ~ In "g"%string (map fst (stored_schema columns))
  /\ scan_filters columns [Binary (Column "g") Gt (Literal (Value 1))] = Panic.
Proof. repeat split; cbn; intuition discriminate. Qed.
