(** Creating time series tables from C and Python: crates/modelardb_embedded/src/capi.rs,
    crates/modelardb_embedded/bindings/python/modelardb/, and
    crates/modelardb_embedded/src/operations/mod.rs. *)
From Coq Require Import ZArith Bool String List.
From Flocq Require Import IEEE754.Binary IEEE754.Bits.
From Verif Require Import Model.Base Model.Float Model.ErrorBound Model.Filters Model.Table.
Import ListNotations.
Open Scope nat_scope.
Open Scope list_scope.

(** [-x] for f32 and f64. *)
Definition f32_neg (x : f32) : f32 := b32_opp x.
Definition f64_neg (x : f64) : f64 := b64_opp x.

(** [HashMap::insert] and [HashMap::get]. *)
Fixpoint insert {V} (key : string) (value : V) (map : list (string * V)) : list (string * V) :=
  match map with
  | [] => [(key, value)]
  | (k, v) :: map => if String.eqb k key then (key, value) :: map
                     else (k, v) :: insert key value map
  end.
Fixpoint get {V} (key : string) (map : list (string * V)) : option V :=
  match map with
  | [] => None
  | (k, v) :: map => if String.eqb k key then Some v else get key map
  end.

(** [Result::expect]. *)
Definition expect {A} (o : outcome A) : outcome A :=
  match o with Ok a => Ok a | Err | Panic => Panic end.

(** The error bound of an entry, capi.rs l.390-396. The process is aborted by a panic. *)
Definition entry_to_error_bound (value : f32) : outcome error_bound :=
  if f32_lt value f32_zero then expect (try_new_relative (f32_neg value))
  else expect (try_new_absolute value).

(** [error_bounds_array_to_error_bounds], capi.rs l.378-401. Simplified: the array has the types
    string and f32 and has no nulls. *)
Fixpoint error_bounds_loop (entries : list (string * f32)) (map : list (string * error_bound))
  : outcome (list (string * error_bound)) :=
  match entries with
  | [] => Ok map
  | (name, value) :: entries =>
      let? error_bound := entry_to_error_bound value in
      error_bounds_loop entries (insert name error_bound map)
  end.
Definition error_bounds_array_to_error_bounds (entries : list (string * f32))
  : outcome (list (string * error_bound)) := error_bounds_loop entries [].

(** [map_array_to_map_of_string_to_string], capi.rs l.855-869. *)
Definition map_array_to_map (entries : list (string * string)) : list (string * string) :=
  fold_left (fun map entry => insert (fst entry) (snd entry) map) entries [].

(** The loop of [try_new_time_series_table_metadata], operations/mod.rs l.164-178. [parse] is
    [tokenize_and_parse_sql_expression]. Removing an error bound from the map is not modelled: the
    names of columns are unique. *)
Fixpoint columns_loop (set_order : list string -> list string) (parse : string -> outcome expr)
  (df_schema fields : list column) (bounds : list (string * error_bound))
  (generated : list (string * string))
  : outcome (list error_bound * list (option generated_column)) :=
  match fields with
  | [] => Ok ([], [])
  | (name, _) :: fields =>
      let error_bound := match get name bounds with Some b => b | None => Lossless end in
      let? column :=
        match get name generated with
        | None => Ok None
        | Some text =>
            let? e := parse text in
            let? g := try_from_expr set_order df_schema e in
            Ok (Some g)
        end in
      let? rest := columns_loop set_order parse df_schema fields bounds generated in
      Ok (error_bound :: fst rest, column :: snd rest)
  end.

(** [try_new_time_series_table_metadata], operations/mod.rs l.153-186. *)
Definition try_new_time_series_table_metadata (set_order : list string -> list string)
  (parse : string -> outcome expr) (name : string) (schema : list column)
  (bounds : list (string * error_bound)) (generated : list (string * string)) : outcome metadata :=
  let? df_schema := to_dfschema schema in
  let? all := columns_loop set_order parse df_schema schema bounds generated in
  try_new name schema (fst all) (snd all).

(** [create], capi.rs l.332-375, for a time series table, and the definition that
    [DataFolder::create], operations/data_folder.rs l.138-144, and [Client::create],
    operations/client.rs l.102-108, then make. Simplified: the pointers are valid. *)
Definition c_create (set_order : list string -> list string) (parse : string -> outcome expr)
  (name : string) (schema : list column) (error_bounds : list (string * f32))
  (generated_columns : list (string * string)) : outcome metadata :=
  let? bounds := error_bounds_array_to_error_bounds error_bounds in
  try_new_time_series_table_metadata set_order parse name schema bounds
    (map_array_to_map generated_columns).

(** Python: what is passed to a constructor of an error bound, and the object. Simplified: a number
    is a Python float. *)
Inductive python_bound : Type :=
| AbsoluteErrorBound (value : f64)
| RelativeErrorBound (value : f64).

Definition f64_100 : f64 := f64_of_Z 100.

(** [AbsoluteErrorBound.__init__] and [RelativeErrorBound.__init__], error_bound.py l.28-32 and
    l.44-50. [Err] is an exception. *)
Definition make_bound (bound : python_bound) : outcome python_bound :=
  match bound with
  | AbsoluteErrorBound value =>
      if negb (f64_is_finite value) || f64_le value f64_zero then Err else Ok bound
  | RelativeErrorBound value =>
      if negb (f64_lt f64_zero value && f64_le value f64_100) then Err else Ok bound
  end.
Fixpoint make_bounds (bounds : list (string * python_bound)) : outcome (list (string * python_bound)) :=
  match bounds with
  | [] => Ok []
  | (name, bound) :: bounds =>
      let? bound := make_bound bound in
      let? bounds := make_bounds bounds in
      Ok ((name, bound) :: bounds)
  end.

(** [TimeSeriesTable.__check_if_column_exists], table.py l.67-75. [Schema.get_field_index] is -1
    also if the schema has several columns with the name. *)
Definition occurs_once (schema : list column) (name : string) : bool :=
  length (filter (fun c => String.eqb (fst c) name) schema) =? 1.
Definition check_if_column_exists (names : list string) (schema : list column) : bool :=
  forallb (occurs_once schema) names.

(** How [Operations.create], operations.py l.286-293, encodes an error bound, and the conversion to
    float32 when the array is created, l.298-300. *)
Definition encoded (bound : python_bound) : f32 :=
  f32_of_f64 (match bound with
              | AbsoluteErrorBound value => value
              | RelativeErrorBound value => f64_neg value
              end).

(** Constructing the error bounds and the [TimeSeriesTable], table.py l.55-65, and
    [Operations.create], operations.py l.264-319. The arguments with error bounds and generated
    columns are dictionaries. [dict_order] is the order of the Python set of l.288-293. *)
Definition python_create (set_order : list string -> list string) (parse : string -> outcome expr)
  (dict_order : list (string * f32) -> list (string * f32)) (name : string) (schema : list column)
  (error_bounds : list (string * python_bound)) (generated_columns : list (string * string))
  : outcome metadata :=
  let? objects := make_bounds error_bounds in
  if negb (check_if_column_exists (map fst objects) schema) then Err
  else if negb (check_if_column_exists (map fst generated_columns) schema) then Err
  else c_create set_order parse name schema
         (dict_order (map (fun entry => (fst entry, encoded (snd entry))) objects))
         generated_columns.
