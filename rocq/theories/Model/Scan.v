(** Model of the planning of queries on time series tables,
    crates/modelardb_storage/src/query/time_series_table.rs l.504-672, and of the operator that
    computes generated columns, crates/modelardb_storage/src/query/generated_as_exec.rs l.256-320.
    The other operators are in Model/Streams.v and filters in Model/Filters.v. *)
From Coq Require Import ZArith Bool String List.
From Verif Require Import Model.Base Model.ErrorBound Model.Filters Model.Streams
  Model.Table Spec.FiltersSpec.
Import ListNotations.
Open Scope nat_scope.
Open Scope list_scope.

(** Apache DataFusion's [PhysicalExpr]: columns are found by their position. *)
Inductive physical :=
| Column_at (index : nat)
| Literal_value (v : value)
| Binary_expr (left : physical) (op : operator) (right : physical)
| Apply_expr (id : nat) (arguments : list physical).

(** Apache DataFusion's [planner::create_physical_expr]: columns are found by name. Simplified: it
    does not fail for other reasons, e.g., types that do not match. *)
Fixpoint create_physical (columns : list column) (e : expr) : outcome physical :=
  match e with
  | Column name =>
      match index_of columns name with Some index => Ok (Column_at index) | None => Err end
  | Literal v => Ok (Literal_value v)
  | Binary l op r =>
      let? l := create_physical columns l in
      let? r := create_physical columns r in
      Ok (Binary_expr l op r)
  | Apply id arguments =>
      let? arguments :=
        (fix all (l : list expr) : outcome (list physical) :=
           match l with
           | [] => Ok []
           | e :: l => let? p := create_physical columns e in let? ps := all l in Ok (p :: ps)
           end) arguments in
      Ok (Apply_expr id arguments)
  end.

(** [convert_logical_expr_to_physical_expr], time_series_table.rs l.401-407. *)
Definition convert (e : expr) (columns : list column) : outcome physical :=
  let? columns := to_dfschema columns in create_physical columns e.

(** Apache DataFusion's [PhysicalExpr::evaluate] for one row. Operators and functions are computed
    as described in Spec/FiltersSpec.v. *)
Section Evaluate.
  Variable F : functions.
  Variable row : list value.
  Fixpoint evaluate_physical (p : physical) : option value :=
    match p with
    | Column_at index => nth_error row index
    | Literal_value v => Some v
    | Binary_expr l op r =>
        match evaluate_physical l, evaluate_physical r with
        | Some a, Some b => operate F op a b
        | _, _ => None
        end
    | Apply_expr id arguments =>
        match (fix all (l : list physical) : option (list value) :=
                 match l with
                 | [] => Some []
                 | e :: l => match evaluate_physical e, all l with
                             | Some v, Some vs => Some (v :: vs)
                             | _, _ => None
                             end
                 end) arguments with
        | Some vs => apply F id vs
        | None => None
        end
    end.
End Evaluate.

(** The value in a column that is returned by [SortedJoinExec]. *)
Definition cell_value (c : cell) : value :=
  match c with Time_cell t => Time t | Value_cell v => Value v | Tag_cell s => Text s end.

(** [PhysicalExpr::evaluate] for a batch: a value per row, an error if there is one for any row. A
    batch is a list of columns and has as many rows as its first column. *)
Definition num_rows {A} (batch : list (list A)) : nat := length (hd [] batch).
Definition row_at (batch : list (list value)) (i : nat) : list value :=
  map (fun c => nth i c Null) batch.
Fixpoint all_some {A} (l : list (option A)) : option (list A) :=
  match l with
  | [] => Some []
  | Some a :: l => option_map (cons a) (all_some l)
  | None :: _ => None
  end.
Definition evaluate_batch (F : functions) (p : physical) (batch : list (list value))
  : option (list value) :=
  all_some (map (fun i => evaluate_physical F (row_at batch i) p) (seq 0 (num_rows batch))).

(** The loops of generated_as_exec.rs l.270-272 and l.299-301: push the columns
    [index - generated] of the batch for the next [count] values of [index]. [RecordBatch::column]
    panics if there is no such column. [index - generated] cannot be negative as [index] is at least
    the number of columns so far. *)
Fixpoint copy (batch : list (list value)) (generated index count : nat)
  : outcome (list (list value)) :=
  match count with
  | O => Ok []
  | S count =>
      match nth_error batch (index - generated) with
      | None => Panic
      | Some c => let? cs := copy batch generated (S index) count in Ok (c :: cs)
      end
  end.

(** The loop over [columns_to_generate], l.268-296. Returns the columns and the number of generated
    columns. An error when computing a column is returned. *)
Fixpoint add_columns (F : functions) (batch : list (list value)) (todo : list (nat * physical))
  (columns : list (list value)) (generated : nat) : outcome (list (list value) * nat) :=
  match todo with
  | [] => Ok (columns, generated)
  | (index, p) :: todo =>
      let? stored := copy batch generated (length columns) (index - length columns) in
      match evaluate_batch F p batch with
      | None => Err
      | Some vs => add_columns F batch todo (columns ++ stored ++ [vs]) (S generated)
      end
  end.

(** The values that are in an Apache Arrow array of a type; fields of time series tables are not
    nullable. *)
Definition has_type (t : arrow_type) (v : value) : bool :=
  match t, v with
  | Timestamp_us, Time _ | Float32, Value _ | Utf8View, Text _ => true
  | _, _ => false
  end.
(** [RecordBatch::try_new], whose errors are panics, l.306-308. *)
Fixpoint types_match (columns : list column) (batch : list (list value)) : bool :=
  match columns, batch with
  | [], [] => true
  | (_, t) :: columns, c :: batch => forallb (has_type t) c && types_match columns batch
  | _, _ => false
  end.
Definition new_batch (columns : list column) (batch : list (list value))
  : outcome (list (list value)) :=
  if types_match columns batch then Ok batch else Panic.

(** [GeneratedAsStream::poll_next], l.263-308, for a batch. *)
Definition generate (F : functions) (columns : list column) (todo : list (nat * physical))
  (batch : list (list value)) : outcome (list (list value)) :=
  let? (result, generated) := add_columns F batch todo [] 0 in
  let? rest := copy batch generated (length result) (length columns - length result) in
  new_batch columns (firstn (length columns) (result ++ rest)).

(** What is computed by [scan]. *)
Record plan := Plan {
  result_schema : list column;                  (* query_schema_after_projection *)
  join_schema : list column;                    (* schema_after_projection *)
  join_order : list column_type;                (* stored_columns_in_projection *)
  join_fields : list nat;                       (* stored_field_columns_in_projection *)
  columns_to_generate : list (nat * physical)   (* generated_columns_in_projection *)
}.

(** [Schema::project]. *)
Fixpoint project (columns : list column) (projection : list nat) : outcome (list column) :=
  match projection with
  | [] => Ok []
  | index :: projection =>
      match nth_error columns index with
      | None => Err
      | Some c => let? cs := project columns projection in Ok (c :: cs)
      end
  end.

(** The sources of the generated columns in the projection, time_series_table.rs l.546-552. *)
Definition sources_of (m : metadata) (projection : list nat) : list nat :=
  flat_map (fun index => match nth_error (generated_columns m) index with
                         | Some (Some g) => source_columns g
                         | _ => []
                         end) projection.

(** l.554-558. *)
Fixpoint extend (projection sources : list nat) : list nat :=
  match sources with
  | [] => projection
  | source :: sources =>
      extend (if existsb (Nat.eqb source) projection then projection else projection ++ [source])
        sources
  end.

(** [apply_query_schema_projection_to_schema], l.173-191. *)
Fixpoint joined_columns (m : metadata) (projection : list nat) : outcome (list column) :=
  match projection with
  | [] => Ok []
  | index :: projection =>
      match nth_error (generated_columns m) index with
      | None => Panic
      | Some (Some _) => joined_columns m projection
      | Some None =>
          match nth_error (query_schema m) index with
          | None => Panic
          | Some c => let? cs := joined_columns m projection in Ok (c :: cs)
          end
      end
  end.

(** The loop of l.570-597. The casts to [u16] do not change the indices as there are at most 32767
    columns. *)
Fixpoint plan_columns (m : metadata) (join_schema : list column) (result_index : nat)
  (projection : list nat) : outcome (list column_type * list nat * list (nat * physical)) :=
  match projection with
  | [] => Ok ([], [], [])
  | index :: projection =>
      match nth_error (query_schema m) index, nth_error (generated_columns m) index with
      | Some (_, Timestamp_us), _ =>
          let? (order, fields, todo) := plan_columns m join_schema (S result_index) projection in
          Ok (Timestamp :: order, fields, todo)
      | Some (name, Utf8View), _ =>
          let? (order, fields, todo) := plan_columns m join_schema (S result_index) projection in
          Ok (Tag name :: order, fields, todo)
      | Some _, Some (Some g) =>
          let? p := convert (generated_expr g) join_schema in
          let? (order, fields, todo) := plan_columns m join_schema (S result_index) projection in
          Ok (order, fields, (result_index, p) :: todo)
      | Some (name, _), Some None =>
          match index_of (schema m) name with
          | None => Err
          | Some schema_index =>
              let? (order, fields, todo) :=
                plan_columns m join_schema (S result_index) projection in
              Ok (Field :: order, schema_index :: fields, todo)
          end
      | _, _ => Panic
      end
  end.

(** The field that is read by queries without fields, [TimeSeriesTable::new], l.97-109: an index in
    the query schema. *)
Fixpoint first_stored_field (columns : list column) (generated : list (option generated_column))
  : option nat :=
  match columns, generated with
  | (_, Float32) :: _, None :: _ => Some 0
  | _ :: columns, _ :: generated => option_map S (first_stored_field columns generated)
  | _, _ => None
  end.
Definition fallback_field_column (m : metadata) : outcome nat :=
  match first_stored_field (query_schema m) (generated_columns m) with
  | Some index => Ok index
  | None => Panic
  end.

(** [TimeSeriesTable::scan], l.504-672, without filters. [set_order] is the order of the [HashSet]
    of sources. *)
Definition scan (set_order : list nat -> list nat) (m : metadata) (projection : option (list nat))
  : outcome plan :=
  let? fallback := fallback_field_column m in
  let projection := match projection with
                    | Some projection => projection
                    | None => seq 0 (length (query_schema m))
                    end in
  let? result_schema := project (query_schema m) projection in
  let sources := set_order (nodup Nat.eq_dec (sources_of m projection)) in
  let projection := extend projection sources in
  let? join_schema := joined_columns m projection in
  let? (order, fields, todo) := plan_columns m join_schema 0 projection in
  let fields := match fields with [] => [fallback] | _ => fields end in
  Ok (Plan result_schema join_schema order fields todo).

(** The names of the tags in [grid_schema], l.142-147. *)
Definition tag_names (m : metadata) : list string :=
  map fst (columns_at (schema m) (tag_column_indices m)).

(** The types of the columns that [SortedJoinExec] returns must be those of its schema,
    sorted_join_exec.rs l.306-307. *)
Definition column_arrow_type (c : column_type) : arrow_type :=
  match c with Timestamp => Timestamp_us | Field => Float32 | Tag _ => Utf8View end.
Fixpoint types_eqb (a b : list arrow_type) : bool :=
  match a, b with
  | [], [] => true
  | x :: a, y :: b => arrow_type_eqb x y && types_eqb a b
  | _, _ => false
  end.

(** Polling the plan: [GridExec] for each field, [SortedJoinExec] and [GeneratedAsExec] if there are
    columns to generate, l.659-671. The error of a generated column has the number 0. *)
Section Execute.
  Context {S : Type}.
  Variable F : functions.
  Variable grid : S -> list point.
  Variable predicate : option (point -> bool).
  Variable tags : list string.
  Variable p : plan.

  Definition finish (batch : list (list cell)) : outcome (list (list value)) :=
    if types_eqb (map column_arrow_type (join_order p)) (map snd (join_schema p)) then
      let batch := map (map cell_value) batch in
      match columns_to_generate p with
      | [] => Ok batch
      | todo => generate F (result_schema p) todo batch
      end
    else Panic.

  Definition query_poll (s : join_stream (grid_stream S point))
    : outcome (poll (list (list value)) * join_stream (grid_stream S point)) :=
    let? (r, s) := join_poll (grid_poll grid predicate) (join_order p) tags s in
    match r with
    | Pending => Ok (Pending, s)
    | Failed e => Ok (Failed e, s)
    | Finished => Ok (Finished, s)
    | Batch batch =>
        match finish batch with
        | Ok columns => Ok (Batch columns, s)
        | Err => Ok (Failed 0, s)
        | Panic => Panic
        end
    end.

  (** The execution of the plan: [streams] are the segments in the files of each field column. *)
  Definition query_stream (limit : option nat) (size : nat) (streams : nat -> stream (list S))
    : join_stream (grid_stream S point) :=
    join_stream_new (map (fun k => grid_stream_new limit (streams k) size) (join_fields p)).
End Execute.
