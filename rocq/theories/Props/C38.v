(** C38 - Projections return the requested columns. *)
From Coq Require Import ZArith String List.
From Verif Require Import Model.Base Model.Float Model.ErrorBound Model.Filters Model.Streams
  Model.Table Model.Scan Spec.FiltersSpec Spec.StreamsSpec Spec.TableSpec Spec.ScanSpec
  Proofs.DefinitionExample Proofs.JoinErrorProofs Proofs.QueryProofs Proofs.QueryExample
  Proofs.QueryOneField Proofs.EndToEndOneFieldExample.
Import ListNotations.
Open Scope nat_scope.
Open Scope string_scope.
Open Scope list_scope.

(** A query of any columns of any table, in any order, with any files of the kind [c36_rows_partial]
    applies to.  The result has the requested columns in the requested order: the timestamps, tags
    and fields of the rows, and for generated columns the value of their expression for the row.
    Missing: generated columns that are not fields, tags named timestamp or value, queries that read
    no stored column, and queries without fields on tables with a generated column before the first
    stored field (all are false, see below and [C39]); generated columns that cannot be computed are
    below. *)
Theorem c38_columns_partial :
  forall (S : Type) (grid : S -> list point) predicate limit size F m rows set_order projection
    streams,
  valid_table m -> tags_named m -> enumerates_indices set_order ->
  let l := columns_of m projection in
  selects m l -> (exists i, reads m l i) ->
  (exists i, reads m l i /\ type_at (query_schema m) i Float32) \/ stored_field_first m ->
  0 < size -> limit <> Some 0 ->
  files_contain grid predicate limit size m rows streams ->
  (forall r, In r rows -> computable F m l r) ->
  exists p, scan set_order m projection = Ok p
    /\ answers F m rows l (fun n =>
         consume (query_poll F grid predicate (tag_names m) p) n
           (query_stream p limit size streams)).
Proof. exact query_ok. Qed.
Print Assumptions c38_columns_partial.

(** If generated columns cannot be computed for some rows, then the query ends with an error if there
    is such a row and with all rows otherwise, and what is returned before are the first rows. *)
Theorem c38_errors_partial :
  forall (S : Type) (grid : S -> list point) predicate limit size F m rows set_order projection
    streams,
  valid_table m -> tags_named m -> enumerates_indices set_order ->
  let l := columns_of m projection in
  selects m l -> (exists i, reads m l i) ->
  (exists i, reads m l i /\ type_at (query_schema m) i Float32) \/ stored_field_first m ->
  0 < size -> limit <> Some 0 ->
  files_contain grid predicate limit size m rows streams ->
  (forall r, In r rows -> attempted F m l r) ->
  exists p, scan set_order m projection = Ok p
    /\ answers_or_fails F m rows l (fun n =>
         consume (query_poll F grid predicate (tag_names m) p) n
           (query_stream p limit size streams)).
Proof. exact query_answered. Qed.
Print Assumptions c38_errors_partial.

(** A query that reads one field, for any predicate, limit and batches of segments.  Missing: generated
    columns that cannot be computed, and as in the first theorem. *)
Theorem c38_one_field_partial :
  forall (S : Type) (grid : S -> list point) predicate limit size F m rows set_order projection
    streams column name,
  valid_table m -> tags_named m -> enumerates_indices set_order ->
  let l := columns_of m projection in
  selects m l -> nth_error (schema m) column = Some (name, Float32) -> reads_one_field m l name ->
  0 < size -> limit <> Some 0 -> fine (streams column) ->
  points_of grid predicate (streams column) = map (point_of m column) rows ->
  (forall r, In r rows -> computable F m l r) ->
  exists p, scan set_order m projection = Ok p
    /\ answers F m rows l (fun n =>
         consume (query_poll F grid predicate (tag_names m) p) n
           (query_stream p limit size streams)).
Proof. exact @one_field_query. Qed.
Print Assumptions c38_one_field_partial.

(** The wind turbine table, [SELECT torque, park WHERE ts >= ...]: the data points are in batches with
    one segment and one of them is not selected. *)
Example c38_one_field_case :
  let m := turbine_table in
  valid_table m /\ tags_named m /\ enumerates_indices any_indices /\ selects m [5; 1]
  /\ nth_error (schema m) 4 = Some ("torque", Float32) /\ reads_one_field m [5; 1] "torque"
  /\ fine (torque_streams 4)
  /\ points_of id_grid (Some from_hundred) (torque_streams 4) = map (point_of m 4) turbine_rows
  /\ (forall r, computable products m [5; 1] r)
  /\ exists p bs, scan any_indices m (Some [5; 1]) = Ok p
       /\ consume (query_poll products id_grid (Some from_hundred) (tag_names m) p) 9
            (query_stream p None 8 torque_streams) = Ok (bs, Done)
       /\ all_columns 2 bs = [[Value 5; Value 7]; [Text "north"; Text "north"]].
Proof. exact torque_example. Qed.

(** A field can be defined as a tag, [FIELD AS (park)]: queries of the field panic. *)
Theorem c38_type_refuted : exists defs m p,
  create_table same_order "t" defs = Ok m
  /\ scan any_indices m (Some [3]) = Ok p
  /\ forall F, consume (query_poll F id_grid None (tag_names m) p) 9
       (query_stream p None 8 (files_of m turbine_rows)) = Panic.
Proof. exact wrong_type. Qed.
Print Assumptions c38_type_refuted.

(** A tag can be named value: queries of the tag panic. *)
Theorem c38_tag_refuted : exists defs m p,
  create_table same_order "t" defs = Ok m
  /\ scan any_indices m (Some [2]) = Ok p
  /\ forall F, consume (query_poll F id_grid None (tag_names m) p) 9
       (query_stream p None 8 (files_of m turbine_rows)) = Panic.
Proof. exact tag_value. Qed.
Print Assumptions c38_tag_refuted.

(** A field can be defined as a constant, [FIELD AS (1)]: queries of only the field panic although
    the field can be computed for all rows. *)
Theorem c38_constant_refuted : exists defs m p,
  create_table same_order "t" defs = Ok m
  /\ (forall F r, computable F m [2] r)
  /\ scan any_indices m (Some [2]) = Ok p
  /\ forall F, consume (query_poll F id_grid None (tag_names m) p) 9
       (query_stream p None 8 (files_of m turbine_rows)) = Panic.
Proof. exact constant_column. Qed.
Print Assumptions c38_constant_refuted.

(** The wind turbine table, [SELECT torque, power, park, ts] where power is generated from torque
    and from speed, which is not selected. *)
Example c38_example_hypotheses : valid_table turbine_table /\ tags_named turbine_table
  /\ enumerates_indices any_indices
  /\ selects turbine_table [5; 2; 1; 0]
  /\ (exists i, reads turbine_table [5; 2; 1; 0] i
        /\ type_at (query_schema turbine_table) i Float32)
  /\ files_contain id_grid None None 8 turbine_table turbine_rows
       (files_of turbine_table turbine_rows)
  /\ forall l r, computable products turbine_table l r.
Proof.
  exact (conj turbine_valid (conj turbine_tags (conj any_indices_enumerates
    (conj turbine_selects (conj turbine_reads
      (conj (files_of_contain _ turbine_rows 8 ltac:(discriminate)) turbine_computable)))))).
Qed.
Example c38_example : exists p bs, scan any_indices turbine_table (Some [5; 2; 1; 0]) = Ok p
  /\ consume (query_poll products id_grid None (tag_names turbine_table) p) 9
       (query_stream p None 8 (files_of turbine_table turbine_rows)) = Ok (bs, Done)
  /\ all_columns 4 bs = [[Value 5; Value 7]; [Value 15; Value 28]; [Text "north"; Text "north"];
                         [Time 100; Time 200]].
Proof. exact turbine_query. Qed.
(** The same query if power can only be computed for the first of the two rows. *)
Example c38_errors_case : (forall l r, attempted small_products turbine_table l r)
  /\ files_contain id_grid None None 1 turbine_table turbine_rows
       (files_of turbine_table turbine_rows)
  /\ exists p bs, scan any_indices turbine_table (Some [5; 2; 1; 0]) = Ok p
  /\ consume (query_poll small_products id_grid None (tag_names turbine_table) p) 9
       (query_stream p None 1 (files_of turbine_table turbine_rows)) = Ok (bs, Error 0)
  /\ all_columns 4 bs = [[Value 5]; [Value 15]; [Text "north"]; [Time 100]].
Proof.
  exact (conj turbine_attempted (conj (files_of_contain _ turbine_rows 1 ltac:(discriminate))
           turbine_fails)).
Qed.
