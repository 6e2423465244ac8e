(** Creating and dropping tables: the changes that are made on disk and in memory, one after another,
    with a crash between any two of them. Simplified: a node that is not part of a cluster and uses
    a write-ahead log, operations run one at a time, and input and output operations do not fail. *)
From Coq Require Import Bool Ascii String List Arith.
From Verif Require Import Model.Base Model.Table.
Import ListNotations.
Open Scope nat_scope.
Open Scope list_scope.

(** The files in the folder of a Delta Lake table: the commits in its log, with whether the table is
    partitioned by [FIELD_COLUMN], and its data. *)
Inductive file :=
| Log (partitioned : bool) (version : nat)
| Data (number : nat).

(** A data folder, crates/modelardb_storage/src/data_folder/mod.rs: the files in the folders of the
    tables, the rows of the three metadata tables, and the folders of the write-ahead log. *)
Record disk := Disk {
  files : list (string * file);
  normal_rows : list string;
  series_rows : store;
  log_folders : list string
}.

(** What is lost in a crash: the tables that are registered with Apache DataFusion, and the logs in
    [WriteAheadLog::table_logs]. *)
Record server := Server {
  on_disk : disk;
  registered : list string;
  open_logs : list string
}.

Definition files_of_table (name : string) (d : disk) : list file :=
  map snd (filter (fun f => String.eqb (fst f) name) (files d)).
Definition is_log (f : file) : bool := match f with Log _ _ => true | Data _ => false end.

(** [LogStore::is_delta_table_location] of deltalake: there is a commit in the log. *)
Definition delta_table_exists (name : string) (d : disk) : bool :=
  existsb is_log (files_of_table name d).

(** [is_time_series_delta_table], data_folder/mod.rs l.1069-1074, of the table that is opened. *)
Definition is_time_series_table (name : string) (d : disk) : bool :=
  existsb (fun f => match f with Log partitioned _ => partitioned | Data _ => false end)
    (files_of_table name d).

Definition contains (name : string) (l : list string) : bool := existsb (String.eqb name) l.
Definition remove_name (name : string) (l : list string) : list string :=
  filter (fun n => negb (String.eqb n name)) l.

(** Whether [TableReference::from] of Apache DataFusion splits a name, so that it also has a schema.
    Simplified: names with a quote, which are not split, have no dot. *)
Definition dotted (name : string) : bool :=
  existsb (Ascii.eqb ".") (list_ascii_of_string name).

(** The changes. Those of Delta Lake tables are one commit each. *)
Inductive action :=
| Create_delta_table (name : string) (partitioned : bool)
| Add_normal_row (name : string)
| Add_table_row (row : table_row)
| Add_field_row (row : field_row)
| Register (name : string)
| Create_log (name : string)
| Deregister (name : string)
| Remove_log (name : string)
| Delete_normal_rows (name : string)
| Delete_table_rows (name : string)
| Delete_field_rows (name : string)
| Delete_file (name : string) (f : file).

Definition file_eqb (f g : file) : bool :=
  match f, g with
  | Log p v, Log q w => Bool.eqb p q && (v =? w)
  | Data n, Data m => n =? m
  | _, _ => false
  end.

Definition with_disk (s : server) (d : disk) : server := Server d (registered s) (open_logs s).
Definition with_files (d : disk) (fs : list (string * file)) : disk :=
  Disk fs (normal_rows d) (series_rows d) (log_folders d).
Definition with_normal_rows (d : disk) (rows : list string) : disk :=
  Disk (files d) rows (series_rows d) (log_folders d).
Definition with_series_rows (d : disk) (rows : store) : disk :=
  Disk (files d) (normal_rows d) rows (log_folders d).
Definition with_log_folders (d : disk) (folders : list string) : disk :=
  Disk (files d) (normal_rows d) (series_rows d) folders.

Definition act (a : action) (s : server) : outcome server :=
  let d := on_disk s in
  let rows := series_rows d in
  match a with
  | Create_delta_table name partitioned =>
      (* [create_delta_lake_table], l.535-575, with [SaveMode::ErrorIfExists]. *)
      if delta_table_exists name d then Err
      else Ok (with_disk s (with_files d (files d ++ [(name, Log partitioned 0)])))
  | Add_normal_row name =>
      (* [save_normal_table_metadata], l.418-426. *)
      Ok (with_disk s (with_normal_rows d (normal_rows d ++ [name])))
  | Add_table_row row =>
      (* [save_time_series_table_metadata], l.464-474. *)
      Ok (with_disk s (with_series_rows d
            (Store (table_rows rows ++ [row]) (rows_of_fields rows))))
  | Add_field_row row =>
      (* [save_time_series_table_metadata], l.510-525. *)
      Ok (with_disk s (with_series_rows d
            (Store (table_rows rows) (rows_of_fields rows ++ [row]))))
  | Register name =>
      (* [register_normal_table] and [register_time_series_table], context.rs l.187-262, and
         modelardb_storage/src/lib.rs l.100-127. Simplified: of a name with a dot the schema does
         not exist, unlike that of [public.x], which is registered as [x]. *)
      if delta_table_exists name d && negb (dotted name) then Ok (Server d (registered s ++ [name]) (open_logs s)) else Err
  | Create_log name =>
      (* [create_table_log], write_ahead_log.rs l.108-136. *)
      if contains name (open_logs s) then Err
      else Ok (Server (with_log_folders d (log_folders d ++ [name])) (registered s)
                 (open_logs s ++ [name]))
  | Deregister name =>
      (* [drop_table], context.rs l.316-317. *)
      Ok (Server d (remove_name name (registered s)) (open_logs s))
  | Remove_log name =>
      (* [remove_table_log], write_ahead_log.rs l.140-163. *)
      if contains name (open_logs s)
      then Ok (Server (with_log_folders d (remove_name name (log_folders d))) (registered s)
                 (remove_name name (open_logs s)))
      else Err
  | Delete_normal_rows name =>
      (* [delete_table_metadata], data_folder/mod.rs l.593-599. *)
      Ok (with_disk s (with_normal_rows d (remove_name name (normal_rows d))))
  | Delete_table_rows name =>
      (* l.601-606. *)
      Ok (with_disk s (with_series_rows d
            (Store (filter (fun r => negb (String.eqb (fst r) name)) (table_rows rows))
               (rows_of_fields rows))))
  | Delete_field_rows name =>
      (* l.608-613. *)
      Ok (with_disk s (with_series_rows d
            (Store (table_rows rows)
               (filter (fun r => negb (String.eqb (row_table r) name)) (rows_of_fields rows)))))
  | Delete_file name f =>
      (* [delete_table_files], l.625-635. *)
      Ok (with_disk s (with_files d
            (filter (fun g => negb (String.eqb (fst g) name && file_eqb (snd g) f)) (files d))))
  end.

(** Actions one after another; an error ends the operation but not the process. *)
Fixpoint perform (actions : list action) (s : server) : server * outcome unit :=
  match actions with
  | [] => (s, Ok tt)
  | a :: actions =>
      match act a s with
      | Ok s => perform actions s
      | Err => (s, Err)
      | Panic => (s, Panic)
      end
  end.

Inductive operation :=
| Create_series (m : metadata)
| Create_normal (name : string)
| Drop (name : string).

Section Operations.
Variable ser : serializer.
(** The order in which the files of a table are deleted. *)
Variable delete_order : list file -> list file.

(** [create_time_series_table], context.rs l.107-151 and data_folder/mod.rs l.433-451. Simplified:
    the rows are computed first. *)
Definition create_series (m : metadata) (s : server) : outcome (list action) :=
  let name := table_name m in
  if contains name (registered s) then Err
  else
    let? rows := field_rows ser m 0 (query_schema m) in
    Ok (Create_delta_table name true :: Add_table_row (name, query_schema m)
        :: map Add_field_row rows ++ [Register name; Create_log name]).

(** [create_normal_table], context.rs l.75-103 and data_folder/mod.rs l.394-413. Simplified: the
    schema is not modelled, so it has no unsupported types. *)
Definition create_normal (name : string) (s : server) : outcome (list action) :=
  if contains name (registered s) then Err
  else Ok [Create_delta_table name false; Add_normal_row name; Register name].

(** [drop_table], context.rs l.306-335 and data_folder/mod.rs l.582-640. Simplified: flushing the
    storage engine has been done, see [write]. *)
Definition drop (name : string) (s : server) : outcome (list action) :=
  if negb (contains name (registered s)) then Err
  else
    let d := on_disk s in
    let deletes := map (Delete_file name) (delete_order (files_of_table name d)) in
    if is_time_series_table name d
    then Ok (Deregister name :: Remove_log name :: Delete_table_rows name
             :: Delete_field_rows name :: deletes)
    else Ok (Deregister name :: Delete_normal_rows name :: deletes).

Definition program (o : operation) (s : server) : outcome (list action) :=
  match o with
  | Create_series m => create_series m s
  | Create_normal name => create_normal name s
  | Drop name => drop name s
  end.

(** An operation and what the client is told. *)
Definition execute (o : operation) (s : server) : server * outcome unit :=
  match program o s with
  | Ok actions => perform actions s
  | Err => (s, Err)
  | Panic => (s, Panic)
  end.

(** The disk after a crash when [k] changes have been made. *)
Definition crash (o : operation) (k : nat) (s : server) : disk :=
  match program o s with
  | Ok actions => on_disk (fst (perform (firstn k actions) s))
  | _ => on_disk s
  end.
End Operations.

Section Starting.
Variable ser : serializer.
Variable set_order : list string -> list string.

(** The folders of the logs that are created or opened, write_ahead_log.rs l.69-101. *)
Fixpoint open_all (names : list string) (folders opened : list string)
  : outcome (list string * list string) :=
  match names with
  | [] => Ok (folders, opened)
  | name :: names =>
      if contains name opened then Err
      else open_all names (if contains name folders then folders else folders ++ [name])
             (opened ++ [name])
  end.

(** [register_normal_tables] and [register_time_series_tables], context.rs l.167-233. *)
Fixpoint register_all (names : list string) (d : disk) : outcome (list string) :=
  match names with
  | [] => Ok []
  | name :: names =>
      if delta_table_exists name d && negb (dotted name) then let? rest := register_all names d in Ok (name :: rest)
      else Err
  end.

(** Starting a server, main.rs l.135-165: the write-ahead log is opened for all time series tables,
    and all tables are registered. *)
Definition start (d : disk) : outcome server :=
  let? tables := load_all ser set_order (series_rows d) in
  let? (folders, opened) := open_all (map table_name tables) (log_folders d) [] in
  let d := with_log_folders d folders in
  let? normal := register_all (normal_rows d) d in
  let? series := register_all (map table_name tables) d in
  Ok (Server d (normal ++ series) opened).
End Starting.

(** Data that is saved in a table, [write_record_batches], data_folder/mod.rs l.694-712: a commit
    and a file. *)
Definition write (name : string) (number : nat) (s : server) : server :=
  let d := on_disk s in
  if contains name (registered s) then
    with_disk s (with_files d (files d
      ++ [(name, Data number);
          (name, Log (is_time_series_table name d) (length (files_of_table name d)))]))
  else s.

(** Histories of a node. *)
Inductive event :=
| Execute (o : operation)
| Crash (o : operation) (k : nat)
| Write (name : string) (number : nat).

Section Histories.
Variable ser : serializer.
Variable set_order : list string -> list string.
Variable delete_order : list file -> list file.

Definition step (s : server) (e : event) : outcome server :=
  match e with
  | Execute o => Ok (fst (execute ser delete_order o s))
  | Crash o k => start ser set_order (crash ser delete_order o k s)
  | Write name number => Ok (write name number s)
  end.

Fixpoint history (s : server) (events : list event) : outcome server :=
  match events with
  | [] => Ok s
  | e :: events => let? s := step s e in history s events
  end.
End Histories.

(** An empty data folder. *)
Definition new_server : server := Server (Disk [] [] (Store [] []) []) [] [].
