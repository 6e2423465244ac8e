(** C39 - Queries without stored fields still return rows. *)
From Coq Require Import ZArith String List.
From Verif Require Import Model.Base Model.Float Model.ErrorBound Model.Filters Model.Streams
  Model.Table Model.Scan Spec.FiltersSpec Spec.StreamsSpec Spec.TableSpec Spec.ScanSpec
  Proofs.DefinitionExample Proofs.JoinErrorProofs Proofs.QueryProofs Proofs.QueryExample.
Import ListNotations.
Open Scope nat_scope.
Open Scope string_scope.
Open Scope list_scope.

(** A query of timestamps and tags returns a row per data point if no generated column is before the
    first stored field.  Missing: other tables and queries of no columns (both false, see below). *)
Theorem c39_rows_partial :
  forall (S : Type) (grid : S -> list point) predicate limit size F m rows set_order projection
    streams,
  valid_table m -> tags_named m -> enumerates_indices set_order ->
  let l := columns_of m projection in
  selects m l -> l <> [] ->
  (forall i, In i l -> stored_at (generated_columns m) i /\ ~ type_at (query_schema m) i Float32) ->
  stored_field_first m ->
  0 < size -> limit <> Some 0 ->
  files_contain grid predicate limit size m rows streams ->
  exists p, scan set_order m projection = Ok p
    /\ answers F m rows l (fun n =>
         consume (query_poll F grid predicate (tag_names m) p) n
           (query_stream p limit size streams)).
Proof. exact query_without_fields. Qed.
Print Assumptions c39_rows_partial.

(** With a generated column before the first stored field, [SELECT ts] returns no rows: the position
    of the stored field among all columns is used as its position among the stored columns. *)
Theorem c39_position_refuted : exists defs m rows p,
  create_table same_order "wind_turbine" defs = Ok m /\ length rows = 2
  /\ files_contain id_grid None None 8 m rows (files_of m rows)
  /\ scan any_indices m (Some [0]) = Ok p
  /\ forall F n, consume (query_poll F id_grid None (tag_names m) p) (S n)
       (query_stream p None 8 (files_of m rows)) = Ok ([], Done).
Proof. exact timestamps_lost. Qed.
Print Assumptions c39_position_refuted.

(** A query of no columns, as Apache DataFusion plans for [COUNT( * )], panics. *)
Theorem c39_count_refuted : exists defs m rows p,
  create_table same_order "t" defs = Ok m /\ stored_field_first m /\ length rows = 2
  /\ files_contain id_grid None None 8 m rows (files_of m rows)
  /\ scan any_indices m (Some []) = Ok p
  /\ forall F, consume (query_poll F id_grid None (tag_names m) p) 9
       (query_stream p None 8 (files_of m rows)) = Panic.
Proof. exact no_columns. Qed.
Print Assumptions c39_count_refuted.

(** [SELECT park, ts] *)
Example c39_example : valid_table plain_table /\ tags_named plain_table
  /\ selects plain_table [2; 0]
  /\ (forall i, In i [2; 0] -> stored_at (generated_columns plain_table) i
        /\ ~ type_at (query_schema plain_table) i Float32)
  /\ stored_field_first plain_table
  /\ files_contain id_grid None None 8 plain_table turbine_rows (files_of plain_table turbine_rows)
  /\ exists p bs, scan any_indices plain_table (Some [2; 0]) = Ok p
     /\ consume (query_poll products id_grid None (tag_names plain_table) p) 9
          (query_stream p None 8 (files_of plain_table turbine_rows)) = Ok (bs, Done)
     /\ all_columns 2 bs = [[Text "north"; Text "north"]; [Time 100; Time 200]].
Proof. exact plain_example. Qed.
