(** C54: A CREATE TIME SERIES TABLE statement creates the table that is written. *)
From Coq Require Import ZArith Bool Ascii String List.
From Verif Require Import Model.Base Model.Float Model.ErrorBound Model.Filters Model.Table Model.Sql
  Model.Statements Spec.TableSpec Spec.StatementSpec Proofs.DefinitionExample Model.CreateSql
  Spec.CreateSqlSpec Proofs.CreateSqlProofs Proofs.CreateSqlExample.
Import ListNotations.
Open Scope string_scope.
Open Scope list_scope.

(** The parser accepts exactly the statements that are written as specified, and returns the name
    and the columns that are written. *)
Theorem c54_parsed_partial : forall parse_f32 parse_expr tokens name columns,
  takes_first parse_expr ->
  (parse_create parse_f32 parse_expr tokens = Ok (name, columns)
   <-> create_written parse_f32 parse_expr tokens name columns).
Proof. intros f e tokens name columns H. exact (create_iff f e H tokens name columns). Qed.
Print Assumptions c54_parsed_partial.

(** A statement that is accepted is written as specified, and the table has the name in lower case
    and exactly the columns, error bounds, and expressions that are written. *)
Theorem c54_created_partial : forall parse_f32 parse_expr reserved order sql m,
  takes_first parse_expr -> enumerates order ->
  create_statement parse_f32 parse_expr reserved order sql = Ok m ->
  exists tokens value columns, tokens_of sql = Ok tokens
    /\ create_written parse_f32 parse_expr tokens value columns
    /\ table_name m = map_string to_lower value /\ valid_table m /\ created_as columns m.
Proof. exact statement_creates. Qed.
Print Assumptions c54_created_partial.

(** The text of a statement is read back as the name and the columns it was written for. *)
Theorem c54_text_partial : forall parse_f32 parse_expr reserved order name asked columns,
  takes_first parse_expr -> can_be_written name -> asked <> [] ->
  Forall2 (column_asked parse_f32 parse_expr) asked columns ->
  create_statement parse_f32 parse_expr reserved order (create_text name asked)
  = (let? n := create_name reserved (fst name) in create_table order n columns).
Proof. exact text_creates. Qed.
Print Assumptions c54_text_partial.

(** No text makes the parser panic. *)
Theorem c54_no_panic_partial : forall parse_f32 parse_expr reserved order sql,
  (forall digits, parse_f32 digits <> Panic) -> (forall tokens, parse_expr tokens <> Panic) ->
  enumerates order -> create_statement parse_f32 parse_expr reserved order sql <> Panic.
Proof. exact create_no_panic. Qed.
Print Assumptions c54_no_panic_partial.

(** Names in quotes that only differ in their case create the same table. *)
Theorem c54_case_refuted : forall parse_f32 parse_expr order, exists m,
  create_statement parse_f32 parse_expr (fun _ => false) order
    "CREATE TIME SERIES TABLE ""A"" (""TS"" TIMESTAMP, value FIELD)" = Ok m
  /\ create_statement parse_f32 parse_expr (fun _ => false) order
       "CREATE TIME SERIES TABLE ""a"" (""ts"" TIMESTAMP, value FIELD)" = Ok m
  /\ table_name m = "a".
Proof.
  intros f e order. exists (small_table "a" "ts").
  split; [exact (small_created f e order "A" "TS" (or_introl eq_refl))|].
  split; [exact (small_created f e order "a" "ts" (or_intror (or_introl eq_refl)))|reflexivity].
Qed.
Print Assumptions c54_case_refuted.

(** A table and a column without a name are accepted. *)
Theorem c54_empty_refuted : forall parse_f32 parse_expr order, exists m,
  create_statement parse_f32 parse_expr (fun _ => false) order
    "CREATE TIME SERIES TABLE """" ("""" TIMESTAMP, value FIELD)" = Ok m
  /\ table_name m = "" /\ map fst (schema m) = [""; "value"].
Proof.
  intros f e order. exists (small_table "" "").
  split; [exact (small_created f e order "" "" (or_intror (or_intror (or_introl eq_refl))))|].
  split; reflexivity.
Qed.
Print Assumptions c54_empty_refuted.

(** A statement in different cases, with a quoted name, an expression, and an error bound. *)
Example c54_example :
  takes_first product /\ (forall tokens, product tokens <> Panic)
  /\ (forall digits, integer digits <> Panic) /\ enumerates same_order
  /\ create_statement integer product (fun _ => false) same_order
       "create Time series TABLE Wind_Turbine (ts TIMESTAMP, ""park"" tag,
     power FIELD AS (speed * torque), Speed field, turbine TAG, torque FIELD(5%));"
     = Ok turbine_table.
Proof.
  split; [exact product_takes_first|]. split; [exact product_no_panic|].
  split; [exact integer_no_panic|]. split; [exact same_order_enumerates|exact turbine_statement].
Qed.

(** What is asked for in the statement of the example, and its text. *)
Example c54_text_example :
  can_be_written ("wind_turbine", false)
  /\ Forall2 (column_asked integer product) turbine_asked turbine_defs
  /\ create_text ("wind_turbine", false) turbine_asked
     = "CREATE TIME SERIES TABLE wind_turbine(ts TIMESTAMP, ""park"" TAG, power FIELD AS (speed * torque), Speed FIELD, turbine TAG, torque FIELD(5%))".
Proof.
  split; [exact (SqlProofs.plain_bool "w"%char "ind_turbine" eq_refl eq_refl)|].
  split; [exact turbine_columns|reflexivity].
Qed.
