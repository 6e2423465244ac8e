(** Writing rows to tables: from a program to a table of a data folder, from a program to a table of
    a node, with INSERT, and by copying the result of a query.

    Simplified: a time series table has the rows it was given instead of segments (how rows become
    segments is Model/Multivariate.v for data folders and Model/Pipeline.v for nodes); batches that
    were received are ingested at once; one request is executed at a time; a table that is dropped
    meanwhile is Model/Lifetimes.v. *)
From Coq Require Import ZArith Bool Ascii String List.
From Verif Require Import Model.Base Model.Sql.
Import ListNotations.
Open Scope string_scope.
Open Scope list_scope.

(** The types of columns, of which only those of 32 and 64 bits and strings are distinguished. *)
Inductive column_type :=
| Seconds | Milliseconds | Microseconds | Nanoseconds
| Int32 | Int64 | Float32 | Float64 | View.
Scheme Equality for column_type.

(** An entry of an array: if it is not null, and what is in the buffer for it, which an array also
    has if it is null. *)
Inductive buffer := Word32 (bits : Z) | Word64 (bits : Z) | Str (s : string).
Record entry := Entry { valid : bool; content : buffer }.
Definition row := list entry.

(** Arrow's [Field] and [RecordBatch]. *)
Record column := Column { name : string; type : column_type; nullable : bool }.
Record batch := Batch { columns : list column; rows : list row }.
Definition column_eqb (a b : column) : bool :=
  String.eqb (name a) (name b) && column_type_beq (type a) (type b)
  && Bool.eqb (nullable a) (nullable b).
Fixpoint columns_eqb (a b : list column) : bool :=
  match a, b with
  | [], [] => true
  | c :: a, d :: b => column_eqb c d && columns_eqb a b
  | _, _ => false
  end.

(** A table: is it a time series table, its columns with those that are generated marked (only time
    series tables have them), the rows that were written to it, and batches that are in the
    write-ahead log although ingesting them has stopped the process. *)
Record table := Table {
  series : bool;
  query_columns : list (column * bool);
  stored : list row;
  logged : list (list row)
}.
(** [schema] without generated columns, crates/modelardb_types/src/types.rs l.173-182. *)
Definition schema_of (t : table) : list column :=
  map fst (filter (fun c => negb (snd c)) (query_columns t)).
Definition add_rows (rs : list row) (t : table) : table :=
  Table (series t) (query_columns t) (stored t ++ rs) (logged t).

(** The tables of a data folder or a node. *)
Definition tables := list (string * table).
Fixpoint lookup (x : string) (ts : tables) : option table :=
  match ts with
  | [] => None
  | (y, t) :: ts => if String.eqb y x then Some t else lookup x ts
  end.
Fixpoint replace (x : string) (t : table) (ts : tables) : tables :=
  match ts with
  | [] => []
  | (y, u) :: ts => if String.eqb y x then (y, t) :: ts else (y, u) :: replace x t ts
  end.

(** What goes wrong when a batch is written: nothing, the batch cannot be written, it is written but
    an error is returned, or it is written but the table can then not be transferred. *)
Inductive fault := No_fault | Not_written | Reported | Not_transferred.

(** [write_record_batches], crates/modelardb_storage/src/data_folder/mod.rs l.700-710, see
    Model/TableWriter.v. *)
Definition write_record_batches (f : fault) (batches : list (list row)) (t : table)
    : table * outcome unit :=
  match f with
  | Not_written => (t, Err)
  | Reported => (add_rows (concat batches) t, Err)
  | _ => (add_rows (concat batches) t, Ok tt)
  end.

(** [schemas_are_compatible], crates/modelardb_embedded/src/operations/data_folder.rs l.547-570. *)
Fixpoint schemas_are_compatible (source target : list column) : bool :=
  match source, target with
  | [], [] => true
  | s :: source, t :: target =>
      column_type_beq (type s) (type t) && negb (nullable s && negb (nullable t))
      && schemas_are_compatible source target
  | _, _ => false
  end.

(** A time series table stores what is in the buffers, modelardb_compression/src/compression.rs
    l.138-165 and modelardb_server/src/storage/uncompressed_data_manager.rs l.150-157. *)
Definition taken (r : row) : row := map (fun e => Entry true (content e)) r.

(** [DataFolder::write], data_folder.rs l.191-236. *)
Definition data_folder_write (f : fault) (x : string) (b : batch) (ts : tables)
    : tables * outcome unit :=
  match rows b with
  | [] => (ts, Err)
  | _ =>
      match lookup x ts with
      | None => (ts, Err)
      | Some t =>
          if schemas_are_compatible (columns b) (schema_of t) then
            let rs := if series t then map taken (rows b) else rows b in
            let (t, r) := write_record_batches f [rs] t in
            (replace x t ts, r)
          else (ts, Err)
      end
  end.

(** A record batch in Arrow's IPC format has the lengths and buffers of its columns, but not their
    names and types. *)
Inductive layout := Layout32 | Layout64 | Layout_view.
Scheme Equality for layout.
Definition layout_of (ty : column_type) : layout :=
  match ty with
  | Int32 | Float32 => Layout32
  | View => Layout_view
  | _ => Layout64
  end.
Record message := Message { layouts : list layout; body : list row }.

Fixpoint layouts_eqb (a b : list layout) : bool :=
  match a, b with
  | [], [] => true
  | x :: a, y :: b => layout_beq x y && layouts_eqb a b
  | _, _ => false
  end.

(** [RecordBatch::try_new]: no column has a null that must not. *)
Fixpoint nulls_allowed (cs : list column) (r : row) : bool :=
  match cs, r with
  | c :: cs, e :: r => (nullable c || valid e) && nulls_allowed cs r
  | _, _ => true
  end.

Section Writes.
(** How arrow reads a message with buffers of other sizes. *)
Variable mismatched : list column -> message -> outcome (list row).

(** [flight_data_to_record_batch], crates/modelardb_server/src/remote.rs l.230-239. *)
Definition decode (cs : list column) (m : message) : outcome (list row) :=
  if layouts_eqb (map (fun c => layout_of (type c)) cs) (layouts m) then
    if forallb (nulls_allowed cs) (body m) then Ok (body m) else Err
  else mismatched cs m.

(** [insert_record_batch], crates/modelardb_server/src/storage/compressed_data_manager.rs
    l.78-108. *)
Definition insert_record_batch (f : fault) (rs : list row) (t : table) : table * outcome unit :=
  let (t, r) := write_record_batches f [rs] t in
  match r, f with
  | Ok _, Not_transferred => (t, Err)
  | r, _ => (t, r)
  end.

(** [insert_data_points], uncompressed_data_manager.rs l.130-180: a null in the column with
    timestamps, of which there is one, panics, l.159-160. *)
Fixpoint null_timestamp (cs : list column) (r : row) : bool :=
  match cs, r with
  | c :: cs, e :: r => column_type_beq (type c) Microseconds && negb (valid e) || null_timestamp cs r
  | _, _ => false
  end.
Definition ingest (rs : list row) (t : table) : outcome table :=
  if existsb (null_timestamp (schema_of t)) rs then Panic else Ok (add_rows (map taken rs) t).

(** [insert_data_points], crates/modelardb_server/src/storage/mod.rs l.246-293: the batch is written
    to the log before it is ingested. *)
Definition insert_data_points (f : fault) (rs : list row) (t : table) : table * outcome unit :=
  match f with
  | Not_written => (t, Err)
  | _ =>
      match ingest rs t with
      | Ok t => (t, Ok tt)
      | _ => (Table (series t) (query_columns t) (stored t) (logged t ++ [rs]), Panic)
      end
  end.
Definition insert_batch (f : fault) (rs : list row) (t : table) : table * outcome unit :=
  if series t then insert_data_points f rs t else insert_record_batch f rs t.

(** [ingest_into_normal_table] and [ingest_into_time_series_table], remote.rs l.473-525. *)
Fixpoint ingest_into_table (faults : list fault) (ms : list message) (t : table)
    : table * outcome unit :=
  match ms with
  | [] => (t, Ok tt)
  | m :: ms =>
      match decode (schema_of t) m with
      | Ok rs =>
          match insert_batch (hd No_fault faults) rs t with
          | (t, Ok _) => ingest_into_table (tl faults) ms t
          | (t, e) => (t, e)
          end
      | Err => (t, Err)
      | Panic => (t, Panic)
      end
  end.
(** [do_put], remote.rs l.750-792. The first message has the name of the table and the schema of
    the data, which is not used. *)
Definition do_put (faults : list fault) (x : string) (ms : list message) (ts : tables)
    : tables * outcome unit :=
  let x := map_string to_lower x in
  match lookup x ts with
  | None => (ts, Err)
  | Some t => let (t, r) := ingest_into_table faults ms t in (replace x t ts, r)
  end.

(** [FlightDataEncoder] makes several messages of a batch that is large. *)
Fixpoint chunks (sizes : list nat) (rs : list row) : list (list row) :=
  match sizes with
  | [] => [rs]
  | n :: sizes => match skipn n rs with [] => [rs] | rest => firstn n rs :: chunks sizes rest end
  end.
(** [Client::write], crates/modelardb_embedded/src/operations/client.rs l.163-181. *)
Definition client_write (sizes : list nat) (faults : list fault) (x : string) (b : batch)
    (ts : tables) : tables * outcome unit :=
  do_put faults x
    (map (Message (map (fun c => layout_of (type c)) (columns b))) (chunks sizes (rows b))) ts.

(** The result of a query: [None] is an error when the next batch is read. *)
Definition result := list (option (list row)).

(** [write_all] of [NormalTableDataSink] and [TimeSeriesTableDataSink],
    crates/modelardb_server/src/storage/data_sinks.rs l.79-98 and l.156-193. The batches have the
    columns of the table, including generated columns, as DataFusion makes sure. *)
Fixpoint project (query : list (column * bool)) (r : row) : row :=
  match query, r with
  | (_, g) :: query, e :: r => if g : bool then project query r else e :: project query r
  | _, _ => []
  end.
Fixpoint write_all (faults : list fault) (data : result) (t : table) : table * outcome unit :=
  match data with
  | [] => (t, Ok tt)
  | None :: _ => (t, Err)
  | Some rs :: data =>
      let rs := if series t then map (project (query_columns t)) rs else rs in
      if series t && negb (forallb (nulls_allowed (schema_of t)) rs) then (t, Err)
      else
        match insert_batch (hd No_fault faults) rs t with
        | (t, Ok _) => write_all (tl faults) data t
        | (t, e) => (t, e)
        end
  end.
Definition insert_into (faults : list fault) (x : string) (data : result) (ts : tables)
    : tables * outcome unit :=
  match lookup x ts with
  | None => (ts, Err)
  | Some t => let (t, r) := write_all faults data t in (replace x t ts, r)
  end.

(** [DataFolder::copy], data_folder.rs l.254-290, of the result of a query. *)
Fixpoint collect (data : result) : outcome (list (list row)) :=
  match data with
  | [] => Ok []
  | None :: _ => Err
  | Some rs :: data => let? more := collect data in Ok (rs :: more)
  end.
Definition data_folder_copy (f : fault) (x : string) (cs : list column) (data : result)
    (ts : tables) : tables * outcome unit :=
  match lookup x ts with
  | None => (ts, Err)
  | Some t =>
      if series t then (ts, Err)
      else if columns_eqb cs (schema_of t) then
        match collect data with
        | Ok batches =>
            let (t, r) := write_record_batches f batches t in (replace x t ts, r)
        | _ => (ts, Err)
        end
      else (ts, Err)
  end.

(** [Client::copy], client.rs l.205-219, to a data folder or, with [sizes] for each batch, to a
    node. *)
Inductive target := Folder | Node (sizes : list (list nat)).
Definition next_target (to : target) : target :=
  match to with Folder => Folder | Node sizes => Node (tl sizes) end.
Definition write_to (to : target) (faults : list fault) (x : string) (b : batch) (ts : tables)
    : tables * outcome unit :=
  match to with
  | Folder => data_folder_write (hd No_fault faults) x b ts
  | Node sizes => client_write (hd [] sizes) faults x b ts
  end.
Fixpoint client_copy (to : target) (faults : list (list fault)) (x : string) (cs : list column)
    (data : result) (ts : tables) : tables * outcome unit :=
  match data with
  | [] => (ts, Ok tt)
  | None :: _ => (ts, Err)
  | Some rs :: data =>
      match write_to to (hd [] faults) x (Batch cs rs) ts with
      | (ts, Ok _) => client_copy (next_target to) (tl faults) x cs data ts
      | (ts, e) => (ts, e)
      end
  end.

(** The ways to write. *)
Inductive request :=
| Folder_write (f : fault) (x : string) (b : batch)
| Client_write (sizes : list nat) (faults : list fault) (x : string) (b : batch)
| Insert (faults : list fault) (x : string) (data : result)
| Folder_copy (f : fault) (x : string) (cs : list column) (data : result)
| Client_copy (to : target) (faults : list (list fault)) (x : string) (cs : list column)
    (data : result).
Definition perform (r : request) (ts : tables) : tables * outcome unit :=
  match r with
  | Folder_write f x b => data_folder_write f x b ts
  | Client_write sizes faults x b => client_write sizes faults x b ts
  | Insert faults x data => insert_into faults x data ts
  | Folder_copy f x cs data => data_folder_copy f x cs data ts
  | Client_copy to faults x cs data => client_copy to faults x cs data ts
  end.
End Writes.

(** [replay_write_ahead_log], crates/modelardb_server/src/context.rs l.266-310, when a server is
    started: the batches that are in the log are ingested again. *)
Fixpoint replay (batches : list (list row)) (t : table) : outcome table :=
  match batches with
  | [] => Ok t
  | rs :: batches => let? t := ingest rs t in replay batches t
  end.
Definition start (t : table) : outcome table := replay (logged t) t.
