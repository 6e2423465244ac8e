(** C41 - Accepted table definitions are well formed. *)
From Coq Require Import ZArith String List.
From Verif Require Import Model.Base Model.Float Model.ErrorBound Model.Filters Model.Table
  Spec.ErrorBoundSpec Spec.TableSpec Proofs.TableProofs Proofs.DefinitionProofs
  Proofs.StoredDefinitionProofs Proofs.DefinitionExample.
Import ListNotations.
Open Scope nat_scope.
Open Scope string_scope.
Open Scope list_scope.

(** A definition is accepted exactly if it is well formed. *)
Theorem c41_accepted_iff : forall name columns bounds generated,
  (exists m, try_new name columns bounds generated = Ok m)
  <-> well_formed columns bounds generated.
Proof. exact accepted_iff. Qed.
Print Assumptions c41_accepted_iff.

(** The metadata of an accepted definition describes it, and the files of the table have the columns
    of a segment followed by the tags. *)
Theorem c41_described : forall name columns bounds generated m,
  try_new name columns bounds generated = Ok m ->
  describes columns bounds generated m /\ table_name m = name
  /\ compressed_schema m = base_compressed_schema ++ columns_at (schema m) (tag_column_indices m).
Proof. exact accepted_described. Qed.
Print Assumptions c41_described.

(** No definition whose generated columns are computed from columns of the table panics. *)
Theorem c41_no_panic : forall name columns bounds generated,
  (forall i g s, nth_error generated i = Some (Some g) -> In s (source_columns g) ->
     s < length columns) ->
  try_new name columns bounds generated <> Panic.
Proof. exact try_new_no_panic. Qed.
Print Assumptions c41_no_panic.

(** A statement that is accepted creates the table it asks for, whose columns have different names,
    whose error bounds are valid and whose generated columns are fields. *)
Theorem c41_statement : forall order name defs m, enumerates order ->
  create_table order name defs = Ok m ->
  valid_table m /\ table_name m = name /\ created_as defs m.
Proof. exact created_valid. Qed.
Print Assumptions c41_statement.

(** Exactly one column has timestamps only if generated columns are not counted: without a
    statement, a table with two columns of timestamps or twice the same name is accepted. *)
Theorem c41_timestamps_refuted : exists columns bounds generated m i j,
  try_new "t" columns bounds generated = Ok m /\ i <> j
  /\ type_at (query_schema m) i Timestamp_us /\ type_at (query_schema m) j Timestamp_us
  /\ exists g, nth_error (generated_columns m) j = Some (Some g)
       /\ sources_match (query_schema m) g.
Proof. exact two_timestamps. Qed.
Print Assumptions c41_timestamps_refuted.

Theorem c41_names_refuted : exists columns bounds generated m,
  try_new "t" columns bounds generated = Ok m /\ ~ NoDup (map fst (query_schema m)).
Proof. exact duplicate_names. Qed.
Print Assumptions c41_names_refuted.

(** A table with a generated column before the two fields it is computed from. *)
Example c41_example :
  create_table same_order "wind_turbine" turbine_defs = Ok turbine_table
  /\ enumerates same_order
  /\ well_formed (query_schema turbine_table) (repeat Lossless 6) (generated_columns turbine_table).
Proof.
  split; [exact turbine_created|]. split; [exact same_order_enumerates|].
  apply (c41_accepted_iff "wind_turbine"). eexists. reflexivity.
Qed.
