(** Importing and exporting data with the bulk loader: /repo/crates/modelardb_bulkloader/src/main.rs.

    Simplified: a stream of record batches is the list of its columns and the list of its batches,
    a batch is the list of its rows; reading a batch can fail. The SQL that is executed before and
    after an import or export is empty: it is executed by DataFusion and cannot register time
    series tables. The user answers yes. *)
From Coq Require Import ZArith String List Bool.
From Verif Require Import Model.Base Model.Float Model.ErrorBound Model.Segments Model.Multivariate.
Import ListNotations.
Open Scope Z_scope.

(** The types of columns in Apache Parquet files that matter, [DataType] in arrow. Columns with
    strings are read as [Utf8View]; the columns the files are partitioned by are read as [Utf8],
    l.309-356. *)
Inductive column_type : Type :=
| Seconds | Milliseconds | Microseconds | Nanoseconds
| Half | Single | Double
| View | Utf8 | Other.

(** An entry of an array: if it is valid, i.e., not null, and what is in the buffer for it, which
    an array also has for null. Every [f16] is represented by the [f32] with the same value. *)
Inductive buffer : Type :=
| Instant (t : Z) | Number (v : f32) | Wide (v : f64) | Str (s : text) | Unknown.
Record entry : Type := Entry { valid : bool; content : buffer }.

Definition columns : Type := list (string * column_type).
Definition raw_row : Type := list entry.

(** A stream: [None] is an error when a batch is read. *)
Record stream : Type := Stream { st_columns : columns; st_batches : list (option (list raw_row)) }.

(** [cast_record_batch], l.374-414, for the type of a column. *)
Definition cast_type (cast_double_to_float : bool) (ty : column_type) : column_type :=
  match ty with
  | Seconds | Milliseconds => Microseconds
  | Half => Single
  | Double => if cast_double_to_float then Single else Double
  | ty => ty
  end.

(** [kernels::cast] of a timestamp makes it null if the result is too large, and
    [RecordBatch::try_new], l.413, returns an error as the column cannot be null. *)
Definition to_microseconds (factor t : Z) : option entry :=
  let z := factor * t in
  if ((- 2 ^ 63 <=? z) && (z <? 2 ^ 63))%bool then Some (Entry true (Instant z)) else None.

(** [cast_record_batch], l.374-414, for an entry of a column. Columns that are cast cannot be null
    afterwards, l.390, 396 and 402. *)
Definition cast_entry (cast_double_to_float : bool) (ty : column_type) (e : entry) : option entry :=
  match ty with
  | Seconds => match e with Entry true (Instant t) => to_microseconds 1000000 t | _ => None end
  | Milliseconds => match e with Entry true (Instant t) => to_microseconds 1000 t | _ => None end
  | Half => if valid e then Some e else None
  | Double => if cast_double_to_float
              then match e with
                   | Entry true (Wide v) => Some (Entry true (Number (f32_of_f64 v)))
                   | _ => None
                   end
              else Some e
  | _ => Some e
  end.

Fixpoint cast_row (cast : bool) (cs : columns) (r : raw_row) : option raw_row :=
  match cs, r with
  | (_, ty) :: cs, e :: r =>
      match cast_entry cast ty e, cast_row cast cs r with
      | Some e, Some r => Some (e :: r)
      | _, _ => None
      end
  | _, _ => Some []
  end.

Fixpoint cast_rows (cast : bool) (cs : columns) (rows : list raw_row) : option (list raw_row) :=
  match rows with
  | [] => Some []
  | r :: rows =>
      match cast_row cast cs r, cast_rows cast cs rows with
      | Some r, Some rows => Some (r :: rows)
      | _, _ => None
      end
  end.

(** How the compression reads an entry: the buffer without checking if the entry is null,
    modelardb_compression/src/compression.rs l.49-67 and l.155-176. Entries of other types are not
    read, see [has_types]. *)
Definition cell_of (e : entry) : cell :=
  match content e with
  | Instant t => Time t
  | Number v => Value v
  | Str s => Tag s
  | _ => Time 0
  end.

(** The types that the macro [array!] expects, modelardb_types/src/macros.rs: it panics for other
    types. Columns are found by their index, compression.rs l.50, 113-117 and 156-165. *)
Definition type_is (cs : columns) (ty : column_type) (c : nat) : bool :=
  match nth_error cs c with
  | Some (_, ty') =>
      match ty, ty' with
      | Microseconds, Microseconds | Single, Single | View, View => true
      | _, _ => false
      end
  | None => false
  end.
Definition has_types (t : table) (cs : columns) : bool :=
  forallb (type_is cs View) (tag_column_indices t)
  && type_is cs Microseconds (timestamp_column_index t)
  && forallb (type_is cs Single) (field_column_indices t).

Definition cast_columns (cast : bool) (cs : columns) : columns :=
  map (fun c => (fst c, cast_type cast (snd c))) cs.

(** What the environment decides: for each batch if so much memory is used that the batches are
    compressed, for each write of compressed data if it succeeds, and if the commit succeeds. *)
Record environment : Type := Environment {
  memory_full : list bool;
  writes : list bool;
  commits : bool }.

(** [import_and_clear_time_series_table_batch], l.420-439. [current] are the batches read since
    the last write and [written] is what is in the writer. Simplified: batches have columns, so
    [current_batch_size] is zero if and only if there are no batches. A column with another type
    that arrow cannot sort by gives an error instead of a panic. *)
Definition import_and_clear (P : platform) (lexsort : list (list cell) -> list nat) (t : table)
  (cs : columns) (write_succeeds : bool) (current : list (list raw_row)) (written : list compressed)
  : outcome (list compressed) :=
  match current with
  | [] => Ok written
  | _ =>
      if has_types t cs then
        let? compressed := compress_multivariate P lexsort t (map (map cell_of) (concat current)) in
        if write_succeeds then Ok (written ++ compressed) else Err
      else Panic
  end.

(** The loop of [import_time_series_table], l.245-277. *)
Fixpoint import_loop (P : platform) (lexsort : list (list cell) -> list nat) (t : table)
  (cast : bool) (cs : columns) (full successes : list bool) (batches : list (option (list raw_row)))
  (current : list (list raw_row)) (written : list compressed) : outcome (list compressed) :=
  match batches with
  | [] => import_and_clear P lexsort t (cast_columns cast cs) (hd true successes) current written
  | None :: _ => Err
  | Some rows :: batches =>
      match cast_rows cast cs rows with
      | None => Err
      | Some rows =>
          if hd false full then
            let? written := import_and_clear P lexsort t (cast_columns cast cs) (hd true successes)
                              (current ++ [rows]) written in
            import_loop P lexsort t cast cs (tl full) (tl successes) batches [] written
          else import_loop P lexsort t cast cs (tl full) successes batches (current ++ [rows]) written
      end
  end.

(** [import_time_series_table], l.233-282: the segments that are committed. If anything fails,
    nothing is committed. *)
Definition import_time_series_table (P : platform) (lexsort : list (list cell) -> list nat)
  (env : environment) (t : table) (cast : bool) (s : stream) : outcome (list compressed) :=
  let? written :=
    import_loop P lexsort t cast (st_columns s) (memory_full env) (writes env) (st_batches s) [] [] in
  if commits env then Ok written else Err.

(** ** Data folders *)

(** A table in a data folder: a time series table with its segments and the rows written to it
    without being compressed, or a normal table with its columns and rows. *)
Inductive stored : Type :=
| Series (t : table) (segments : list compressed) (rows : list raw_row)
| Normal (cs : columns) (rows : list raw_row).

Definition data_folder : Type := list (string * stored).

Fixpoint lookup {A : Type} (name : string) (l : list (string * A)) : option A :=
  match l with
  | [] => None
  | (n, a) :: l => if String.eqb n name then Some a else lookup name l
  end.

Fixpoint replace {A : Type} (name : string) (a : A) (l : list (string * A)) : list (string * A) :=
  match l with
  | [] => []
  | (n, b) :: l => if String.eqb n name then (n, a) :: l else (n, b) :: replace name a l
  end.

(** An open data folder: the tables on disk and the tables registered with DataFusion, with the
    definition for time series tables. *)
Record open_folder : Type := OpenFolder {
  tables : data_folder;
  registered : list (string * option table) }.

(** [create_data_folder], l.521-535, and the functions it calls, [DataFolder::open_local_url],
    [open_memory], [open_local], [open_remote_url] and [try_new], modelardb_storage
    data_folder/mod.rs l.84-276: only the metadata tables are registered. *)
Definition create_data_folder (f : data_folder) : open_folder := OpenFolder f [].

(** The column time series tables are partitioned by, modelardb_types/src/schemas.rs l.28. *)
Definition field_column : string := "field_column"%string.

(** Writing a batch with [DeltaTableWriter::write]: the writer of a time series table, which
    [table_writer] selects by the partition columns, data_folder/mod.rs l.687-695, needs the column
    it partitions by. *)
Definition accepts (s : stored) (cs : columns) : bool :=
  match s with
  | Series _ _ _ => existsb (fun c => String.eqb (fst c) field_column) cs
  | Normal _ _ => true
  end.

Definition append (s : stored) (rows : list raw_row) : stored :=
  match s with
  | Series t segments more => Series t segments (more ++ rows)
  | Normal cs more => Normal cs (more ++ rows)
  end.

(** The loop of [import_normal_table], l.293-299. *)
Fixpoint normal_loop (s : stored) (cs : columns) (successes : list bool)
  (batches : list (option (list raw_row))) (written : list raw_row) : outcome (list raw_row) :=
  match batches with
  | [] => Ok written
  | None :: _ => Err
  | Some rows :: batches =>
      if accepts s cs && hd true successes
      then normal_loop s cs (tl successes) batches (written ++ rows)
      else Err
  end.

(** [import_normal_table], l.286-303. *)
Definition import_normal_table (env : environment) (s : stored) (input : stream) : outcome stored :=
  let? rows := normal_loop s (st_columns input) (writes env) (st_batches input) [] in
  if commits env then Ok (append s rows) else Err.

(** [DataFolder::time_series_table_metadata_for_registered_time_series_table], data_folder/mod.rs
    l.958-964. *)
Definition registered_metadata (f : open_folder) (name : string) : option table :=
  match lookup name (registered f) with Some (Some t) => Some t | _ => None end.

(** [import], l.172-227: the result and the tables afterwards. *)
Definition import (P : platform) (lexsort : list (list cell) -> list nat) (env : environment)
  (f : open_folder) (name : string) (cast : bool) (input : stream) : outcome unit * data_folder :=
  match registered_metadata f name with
  | Some t =>
      match lookup name (tables f) with
      | Some (Series _ segments rows) =>
          match import_time_series_table P lexsort env t cast input with
          | Ok written => (Ok tt, replace name (Series t (segments ++ written) rows) (tables f))
          | Err => (Err, tables f)
          | Panic => (Panic, tables f)
          end
      | _ => (Err, tables f)
      end
  | None =>
      if cast then (Err, tables f)
      else match lookup name (tables f) with
           | Some s =>
               match import_normal_table env s input with
               | Ok s => (Ok tt, replace name s (tables f))
               | Err => (Err, tables f)
               | Panic => (Panic, tables f)
               end
           | None => (Err, tables f)
           end
  end.

(** [export], l.446-516: the result and the rows in the table created at [output_path], if it is
    created. [DataFolder::schema], modelardb_embedded/src/operations/data_folder.rs l.172-185, finds
    time series tables if they are registered and normal tables in the metadata tables. The query,
    l.496-497, finds only registered tables. [query] is the result of the query for a table. *)
Definition export (query : stored -> outcome (list raw_row)) (env : environment) (f : open_folder)
  (name : string) : outcome unit * option (list raw_row) :=
  match registered_metadata f name, lookup name (tables f) with
  | None, None | None, Some (Series _ _ _) => (Err, None)
  | _, maybe_table =>
      match lookup name (registered f), maybe_table with
      | Some _, Some s =>
          match query s with
          | Ok rows => if commits env then (Ok tt, Some rows) else (Err, Some [])
          | Err => (Err, Some [])
          | Panic => (Panic, Some [])
          end
      | _, _ => (Err, Some [])
      end
  end.
