(** Model of the rewriting of filters in
    crates/modelardb_storage/src/query/time_series_table.rs l.261-392. *)
From Coq Require Import ZArith Bool String List.
From Verif Require Import Model.Base.
Import ListNotations.
Open Scope Z_scope.
Open Scope list_scope.

(** Data types of the columns of a time series table, modelardb_types/src/types.rs l.163-176:
    timestamps, fields and tags. *)
Inductive data_type := Timestamp_type | Field_type | Tag_type.

Definition data_type_eqb (a b : data_type) : bool :=
  match a, b with
  | Timestamp_type, Timestamp_type | Field_type, Field_type | Tag_type, Tag_type => true
  | _, _ => false
  end.

(** A [Schema]: names and types of the columns. *)
Definition schema := list (string * data_type).

(** [Schema::field_with_name]: the first column with the name. *)
Fixpoint field_with_name (s : schema) (name : string) : option data_type :=
  match s with
  | [] => None
  | (n, t) :: s => if String.eqb n name then Some t else field_with_name s name
  end.

(** [Operator]; those that are not comparisons, [And] or [Or] are kept apart by a number. *)
Inductive operator :=
| Eq | NotEq | Lt | LtEq | Gt | GtEq | And | Or | Operator (id : nat).

(** Apache DataFusion's [Expr] as far as [rewrite_filter] distinguishes its cases: columns, binary
    expressions and anything else, i.e., literals, casts, functions, negations, BETWEEN, IN, etc.
    Simplified: a column has no qualifier, only [column.name] is read, l.294 and l.333. *)
Inductive value := Time (t : Z) | Boolean (b : bool) | Null | Value (v : Z) | Text (s : string).
Inductive expr :=
| Column (name : string)
| Literal (v : value)
| Binary (left : expr) (op : operator) (right : expr)
| Apply (id : nat) (arguments : list expr).

(** [rewrite_filter], l.290-373. [Panic] is the [expect] of l.295 and l.334. *)
Definition rewrite_filter (s : schema) (filter : expr) : outcome (option (expr * expr)) :=
  match filter with
  | Binary l op r =>
      match l, r with
      | Column name, _ =>
          match field_with_name s name with
          | None => Panic
          | Some Timestamp_type =>
              Ok match op with
                 | Gt | GtEq => Some (Binary (Column "end_time") op r,
                                      Binary (Column "timestamp") op r)
                 | Lt | LtEq => Some (Binary (Column "start_time") op r,
                                      Binary (Column "timestamp") op r)
                 | Eq => Some (Binary (Binary (Column "start_time") LtEq r) And
                                      (Binary (Column "end_time") GtEq r),
                               Binary (Column "timestamp") op r)
                 | _ => None
                 end
          | Some _ => Ok None
          end
      | _, Column name =>
          match field_with_name s name with
          | None => Panic
          | Some Timestamp_type =>
              Ok match op with
                 | Gt | GtEq => Some (Binary l op (Column "start_time"),
                                      Binary l op (Column "timestamp"))
                 | Lt | LtEq => Some (Binary l op (Column "end_time"),
                                      Binary l op (Column "timestamp"))
                 | Eq => Some (Binary (Binary l LtEq (Column "start_time")) And
                                      (Binary l GtEq (Column "end_time")),
                               Binary r op (Column "timestamp"))
                 | _ => None
                 end
          | Some _ => Ok None
          end
      | _, _ => Ok None
      end
  | _ => Ok None
  end.

(** The [filter_map] and [unzip] of [rewrite_and_combine_filters], l.266-271. *)
Fixpoint rewrite_filters (s : schema) (filters : list expr) : outcome (list expr * list expr) :=
  match filters with
  | [] => Ok ([], [])
  | filter :: filters =>
      let? rewritten := rewrite_filter s filter in
      let? (parquet, grid) := rewrite_filters s filters in
      Ok match rewritten with
         | Some (p, g) => (p :: parquet, g :: grid)
         | None => (parquet, grid)
         end
  end.

(** [utils::conjunction]: the filters joined by AND from the left, [None] without filters. *)
Definition conjunction (filters : list expr) : option expr :=
  match filters with
  | [] => None
  | filter :: filters => Some (fold_left (fun e f => Binary e And f) filters filter)
  end.

(** [rewrite_and_combine_filters], l.265-285. *)
Definition rewrite_and_combine_filters (s : schema) (filters : list expr)
  : outcome (option expr * option expr) :=
  let? (parquet, grid) := rewrite_filters s filters in
  Ok (conjunction parquet, conjunction grid).

(** A table: the columns of the query schema and whether each is generated,
    [TimeSeriesTableMetadata], types.rs l.74-97; [schema] is the query schema without the generated
    columns, l.178-198. *)
Definition stored_schema (columns : list (string * data_type * bool)) : schema :=
  map fst (filter (fun c => negb (snd c)) columns).

(** The filters of a scan are rewritten with [schema], l.504-512 and l.597-598. *)
Definition scan_filters (columns : list (string * data_type * bool)) (filters : list expr)
  : outcome (option expr * option expr) :=
  rewrite_and_combine_filters (stored_schema columns) filters.
