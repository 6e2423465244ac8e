(** Model of the definitions of time series tables: crates/modelardb_types/src/types.rs, how they
    are stored, crates/modelardb_storage/src/data_folder/mod.rs, and how they are sent to other
    nodes, crates/modelardb_types/src/flight/mod.rs. *)
From Coq Require Import ZArith Bool String List.
From Verif Require Import Model.Base Model.Float Model.ErrorBound Model.Filters.
Import ListNotations.
Open Scope nat_scope.
Open Scope list_scope.

(** Arrow's [DataType], as far as it is distinguished: the types of timestamps, fields and tags,
    and all others. *)
Inductive arrow_type := Timestamp_us | Float32 | Utf8View | Other_type (id : nat).

Definition arrow_type_eqb (a b : arrow_type) : bool :=
  match a, b with
  | Timestamp_us, Timestamp_us | Float32, Float32 | Utf8View, Utf8View => true
  | Other_type i, Other_type j => i =? j
  | _, _ => false
  end.

(** Arrow's [Field]. Simplified: without nullability and metadata. *)
Definition column := (string * arrow_type)%type.

(** [Schema::index_of]: the first column with the name. *)
Fixpoint index_of (columns : list column) (name : string) : option nat :=
  match columns with
  | [] => None
  | (n, _) :: columns => if String.eqb n name then Some 0
                         else option_map S (index_of columns name)
  end.

(** [ToDFSchema::to_dfschema]: names must be unique. *)
Fixpoint unique (names : list string) : bool :=
  match names with
  | [] => true
  | n :: names => negb (existsb (String.eqb n) names) && unique names
  end.
Definition to_dfschema (columns : list column) : outcome (list column) :=
  if unique (map fst columns) then Ok columns else Err.

(** The names of the columns in an expression, each once, [Expr::column_refs]. They are returned in
    a [HashSet] whose order is arbitrary. *)
Fixpoint names_in (e : expr) : list string :=
  match e with
  | Column name => [name]
  | Literal _ => []
  | Binary l _ r => names_in l ++ names_in r
  | Apply _ arguments => flat_map names_in arguments
  end.
Definition column_refs (e : expr) : list string := nodup string_dec (names_in e).

(** [GeneratedColumn], types.rs l.338-345. *)
Record generated_column := GeneratedColumn {
  generated_expr : expr;
  source_columns : list nat
}.

(** [GeneratedColumn::try_from_expr], l.350-361. [set_order] is the order of the [HashSet]. *)
Fixpoint indices_of (columns : list column) (names : list string) : outcome (list nat) :=
  match names with
  | [] => Ok []
  | name :: names =>
      match index_of columns name with
      | None => Err
      | Some index => let? indices := indices_of columns names in Ok (index :: indices)
      end
  end.
Definition try_from_expr (set_order : list string -> list string) (columns : list column)
  (e : expr) : outcome generated_column :=
  let? sources := indices_of columns (set_order (column_refs e)) in
  Ok (GeneratedColumn e sources).

(** [TimeSeriesTableMetadata], l.74-97. *)
Record metadata := Metadata {
  table_name : string;
  timestamp_column_index : nat;
  field_column_indices : list nat;
  tag_column_indices : list nat;
  error_bounds : list error_bound;
  generated_columns : list (option generated_column);
  schema : list column;
  query_schema : list column;
  query_schema_to_schema : list nat;
  compressed_schema : list column
}.

(** The check of l.133-142. Indexing outside [generated_columns] panics. *)
Fixpoint check_sources (all : list (option generated_column)) (sources : list nat)
  : outcome unit :=
  match sources with
  | [] => Ok tt
  | source :: sources =>
      match nth_error all source with
      | None => Panic
      | Some (Some _) => Err
      | Some None => check_sources all sources
      end
  end.
Fixpoint check_generated (all generated : list (option generated_column)) : outcome unit :=
  match generated with
  | [] => Ok tt
  | None :: generated => check_generated all generated
  | Some g :: generated =>
      let? _ := check_sources all (source_columns g) in check_generated all generated
  end.

(** l.156-168. *)
Definition supported (t : arrow_type) : bool :=
  match t with Other_type _ => false | _ => true end.

(** The elements of columns that are not generated, l.173-182. *)
Fixpoint without_generated {A} (generated : list (option generated_column)) (l : list A) : list A :=
  match generated, l with
  | None :: generated, a :: l => a :: without_generated generated l
  | Some _ :: generated, _ :: l => without_generated generated l
  | _, _ => []
  end.

(** [compute_indices_of_columns_with_data_type], l.289-295. *)
Definition indices_with_type (columns : list column) (t : arrow_type) : list nat :=
  filter (fun index => match nth_error columns index with
                       | Some (_, u) => arrow_type_eqb u t
                       | None => false
                       end) (seq 0 (length columns)).

(** [COMPRESSED_SCHEMA], modelardb_types/src/schemas.rs l.31-50; the types Int8, Int16 and
    BinaryView have the numbers 0, 1 and 2. *)
Definition base_compressed_schema : list column :=
  [("model_type_id", Other_type 0); ("start_time", Timestamp_us); ("end_time", Timestamp_us);
   ("timestamps", Other_type 2); ("min_value", Float32); ("max_value", Float32);
   ("values", Other_type 2); ("residuals", Other_type 2); ("error", Float32);
   ("field_column", Other_type 1)]%string.

(** The columns with the given indices. *)
Definition columns_at (columns : list column) (indices : list nat) : list column :=
  flat_map (fun index => match nth_error columns index with Some c => [c] | None => [] end)
    indices.

(** [TimeSeriesTableMetadata::try_new], l.110-239. *)
Definition try_new (name : string) (query_schema : list column) (bounds : list error_bound)
  (generated : list (option generated_column)) : outcome metadata :=
  if negb (length query_schema =? length bounds) then Err
  else if negb (length query_schema =? length generated) then Err
  else
    let? _ := check_generated generated generated in
    if (32767 <? Z.of_nat (length query_schema))%Z then Err
    else if negb (forallb (fun c => supported (snd c)) query_schema) then Err
    else
      let schema := without_generated generated query_schema in
      match indices_with_type schema Timestamp_us with
      | [timestamp] =>
          let fields := indices_with_type schema Float32 in
          let tags := indices_with_type schema Utf8View in
          match fields with
          | [] => Err
          | _ =>
              Ok (Metadata name timestamp fields tags
                    (without_generated generated bounds) generated schema query_schema
                    (without_generated generated (seq 0 (length query_schema)))
                    (base_compressed_schema ++ columns_at schema tags))
          end
      | _ => Err
      end.

(** The column definitions of CREATE TIME SERIES TABLE, crates/modelardb_storage/src/parser.rs
    l.247-303. The name of a column has been converted to lower case, which both
    [SqlToRel::build_schema] and l.1073 do since [Ident::new] removes quotes. An error bound is a
    positive literal and whether it is relative; without one it is zero. *)
Inductive column_kind :=
| Timestamp_column
| Field_column (error_bound : f32) (is_relative : bool)
| Generated_column (e : expr)
| Tag_column.
Definition column_def := (string * column_kind)%type.

(** [parse_columns], l.266-272, adds no option for an error bound of zero. *)
Definition has_error_bound (bound : f32) : bool := f32_lt f32_zero bound.

(** [extract_error_bounds_for_all_columns], l.1125-1155. Simplified: [f32::to_string] and then
    parsing, l.378-381 and l.1166, does not change the error bound. *)
Fixpoint extract_error_bounds (defs : list column_def) : outcome (list error_bound) :=
  match defs with
  | [] => Ok []
  | (_, kind) :: defs =>
      let? bound := match kind with
                    | Field_column bound is_relative =>
                        if has_error_bound bound then
                          if is_relative then try_new_relative bound else try_new_absolute bound
                        else Ok Lossless
                    | _ => Ok Lossless
                    end in
      let? bounds := extract_error_bounds defs in
      Ok (bound :: bounds)
  end.

(** [column_defs_to_time_series_table_query_schema], l.1057-1121. *)
Definition query_schema_of (defs : list column_def) : list column :=
  map (fun d => (fst d, match snd d with
                        | Timestamp_column => Timestamp_us
                        | Field_column _ _ | Generated_column _ => Float32
                        | Tag_column => Utf8View
                        end)) defs.

(** [extract_generation_exprs_for_all_columns], l.1180-1229. Simplified: an expression is accepted
    if its columns exist; Apache DataFusion also rejects others, e.g., unknown functions. *)
Fixpoint extract_exprs (set_order : list string -> list string) (columns : list column)
  (defs : list column_def) : outcome (list (option generated_column)) :=
  match defs with
  | [] => Ok []
  | (_, kind) :: defs =>
      let? g := match kind with
                | Generated_column e =>
                    let? g := try_from_expr set_order columns e in Ok (Some g)
                | _ => Ok None
                end in
      let? gs := extract_exprs set_order columns defs in
      Ok (g :: gs)
  end.

(** [semantic_checks_for_create_time_series_table], l.872-896. *)
Definition create_table (set_order : list string -> list string) (name : string)
  (defs : list column_def) : outcome metadata :=
  let? bounds := extract_error_bounds defs in
  let? columns := to_dfschema (query_schema_of defs) in
  let? generated := extract_exprs set_order columns defs in
  try_new name (query_schema_of defs) bounds generated.

(** Converting logical expressions to and from bytes is done by Apache DataFusion, [Expr::to_bytes]
    and [Expr::from_bytes]. *)
Record serializer := Serializer {
  to_bytes : expr -> list Z;
  from_bytes : list Z -> outcome expr
}.

(** A row of the metadata table [time_series_table_metadata]. Simplified: the query schema is
    stored as is; [try_convert_schema_to_bytes] and [try_convert_bytes_to_schema],
    modelardb_types/src/functions.rs l.31-45, are Apache Arrow's. *)
Definition table_row := (string * list column)%type.

(** A row of the metadata table [time_series_table_field_columns]. The index is an [Int16]. *)
Record field_row := FieldRow {
  row_table : string;
  row_column : string;
  row_index : nat;
  row_error_bound : f32;
  row_relative : bool;
  row_expr : option (list Z)
}.

(** The error bound that is saved, data_folder/mod.rs l.503-513. Indexing [error_bounds] outside
    its length panics. *)
Definition saved_bound (m : metadata) (name : string) : outcome (f32 * bool) :=
  match index_of (schema m) name with
  | None => Ok (f32_zero, false)
  | Some index =>
      match nth_error (error_bounds m) index with
      | None => Panic
      | Some (Absolute e) => Ok (e, false)
      | Some (Relative e) => Ok (e, true)
      | Some Lossless => Ok (f32_zero, false)
      end
  end.

(** The loop of [save_time_series_table_metadata], l.480-529: the rows that are added, one after
    another, for the columns from [index]. *)
Fixpoint field_rows (ser : serializer) (m : metadata) (index : nat) (columns : list column)
  : outcome (list field_row) :=
  match columns with
  | [] => Ok []
  | (name, t) :: columns =>
      if arrow_type_eqb t Float32 then
        let expr := match nth_error (generated_columns m) index with
                    | Some (Some g) => Some (to_bytes ser (generated_expr g))
                    | _ => None
                    end in
        let? (bound, relative) := saved_bound m name in
        let? rows := field_rows ser m (S index) columns in
        Ok (FieldRow (table_name m) name index bound relative expr :: rows)
      else field_rows ser m (S index) columns
  end.

(** The rows of both metadata tables. *)
Record store := Store {
  table_rows : list table_row;
  rows_of_fields : list field_row
}.

(** [save_time_series_table_metadata], l.456-529, without failures; see Model/Catalog.v for crashes
    between the writes. *)
Definition save (ser : serializer) (m : metadata) (s : store) : outcome store :=
  let? rows := field_rows ser m 0 (query_schema m) in
  Ok (Store (table_rows s ++ [(table_name m, query_schema m)]) (rows_of_fields s ++ rows)).

(** Creating tables one after another. *)
Fixpoint save_all (ser : serializer) (ms : list metadata) (s : store) : outcome store :=
  match ms with
  | [] => Ok s
  | m :: ms => let? s := save ser m s in save_all ser ms s
  end.

(** Setting an element of a vector; indexing outside it panics. *)
Fixpoint set_at {A} (l : list A) (index : nat) (a : A) : outcome (list A) :=
  match l, index with
  | [], _ => Panic
  | _ :: l, O => Ok (a :: l)
  | b :: l, S index => let? l := set_at l index a in Ok (b :: l)
  end.

(** [WHERE table_name = '{table_name}']. Simplified: the name is not interpreted as SQL and
    the rows are not ordered by column index. *)
Definition rows_for (name : string) (s : store) : list field_row :=
  filter (fun r => String.eqb (row_table r) name) (rows_of_fields s).

(** [error_bounds], l.994-1030. *)
Fixpoint load_error_bounds (rows : list field_row) (bounds : list error_bound)
  : outcome (list error_bound) :=
  match rows with
  | [] => Ok bounds
  | r :: rows =>
      if f32_eq (row_error_bound r) f32_zero then load_error_bounds rows bounds
      else
        let? bound := if row_relative r then try_new_relative (row_error_bound r)
                      else try_new_absolute (row_error_bound r) in
        let? bounds := set_at bounds (row_index r) bound in
        load_error_bounds rows bounds
  end.

(** [generated_columns], l.1034-1066. A missing expression is read as no bytes. *)
Fixpoint load_generated (ser : serializer) (set_order : list string -> list string)
  (columns : list column) (rows : list field_row) (generated : list (option generated_column))
  : outcome (list (option generated_column)) :=
  match rows with
  | [] => Ok generated
  | r :: rows =>
      match row_expr r with
      | None | Some [] => load_generated ser set_order columns rows generated
      | Some bytes =>
          let? e := from_bytes ser bytes in
          let? g := try_from_expr set_order columns e in
          let? generated := set_at generated (row_index r) (Some g) in
          load_generated ser set_order columns rows generated
      end
  end.

(** [time_series_table_metadata_row_to_time_series_table_metadata], l.965-990. *)
Definition load_row (ser : serializer) (set_order : list string -> list string) (s : store)
  (r : table_row) : outcome metadata :=
  let '(name, columns) := r in
  let? bounds := load_error_bounds (rows_for name s) (repeat Lossless (length columns)) in
  let? columns := to_dfschema columns in
  let? generated := load_generated ser set_order columns (rows_for name s)
                      (repeat None (length columns)) in
  try_new name columns bounds generated.

(** [time_series_table_metadata], l.900-923: all tables; one that cannot be loaded is an error. *)
Fixpoint load_rows (ser : serializer) (set_order : list string -> list string) (s : store)
  (rows : list table_row) : outcome (list metadata) :=
  match rows with
  | [] => Ok []
  | r :: rows =>
      let? m := load_row ser set_order s r in
      let? ms := load_rows ser set_order s rows in
      Ok (m :: ms)
  end.
Definition load_all (ser : serializer) (set_order : list string -> list string) (s : store)
  : outcome (list metadata) := load_rows ser set_order s (table_rows s).

(** The message for a time series table, flight/mod.rs l.58-88. The type of an error bound is an
    integer, 0 for Absolute, 1 for Relative and 2 for Lossless. *)
Record message := Message {
  message_name : string;
  message_schema : list column;
  message_bounds : list (Z * f32);
  message_exprs : list (list Z)
}.

(** [encode_error_bounds], l.92-132. *)
Fixpoint encode_error_bounds (m : metadata) (columns : list column) : outcome (list (Z * f32)) :=
  match columns with
  | [] => Ok []
  | (name, _) :: columns =>
      let? bound :=
        match index_of (schema m) name with
        | None => Ok (2, f32_zero)%Z
        | Some index =>
            match nth_error (error_bounds m) index with
            | None => Panic
            | Some (Absolute e) => Ok (0, e)%Z
            | Some (Relative e) => Ok (1, e)%Z
            | Some Lossless => Ok (2, f32_zero)%Z
            end
        end in
      let? bounds := encode_error_bounds m columns in
      Ok (bound :: bounds)
  end.

(** [encode_and_serialize_time_series_table_metadata], l.59-88. *)
Definition encode (ser : serializer) (m : metadata) : outcome message :=
  let? bounds := encode_error_bounds m (query_schema m) in
  Ok (Message (table_name m) (query_schema m) bounds
        (map (fun g => match g with
                       | Some g => to_bytes ser (generated_expr g)
                       | None => []
                       end) (generated_columns m))).

(** [decode_error_bounds], l.167-195. *)
Fixpoint decode_error_bounds (bounds : list (Z * f32)) : outcome (list error_bound) :=
  match bounds with
  | [] => Ok []
  | (t, value) :: bounds =>
      let? bound := match t with
                    | 0 => Ok (Absolute value)
                    | 1 => Ok (Relative value)
                    | 2 => Ok Lossless
                    | _ => Err
                    end%Z in
      let? bounds := decode_error_bounds bounds in
      Ok (bound :: bounds)
  end.

(** [decode_generated_column_expressions], l.199-216. *)
Fixpoint decode_exprs (ser : serializer) (set_order : list string -> list string)
  (columns : list column) (exprs : list (list Z)) : outcome (list (option generated_column)) :=
  match exprs with
  | [] => Ok []
  | bytes :: exprs =>
      let? g := match bytes with
                | [] => Ok None
                | _ => let? e := from_bytes ser bytes in
                       let? g := try_from_expr set_order columns e in Ok (Some g)
                end in
      let? gs := decode_exprs ser set_order columns exprs in
      Ok (g :: gs)
  end.

(** [deserialize_and_extract_table_metadata] for time series tables, l.136-162. *)
Definition decode (ser : serializer) (set_order : list string -> list string) (msg : message)
  : outcome metadata :=
  let? bounds := decode_error_bounds (message_bounds msg) in
  let? columns := to_dfschema (message_schema msg) in
  let? generated := decode_exprs ser set_order columns (message_exprs msg) in
  try_new (message_name msg) (message_schema msg) bounds generated.
