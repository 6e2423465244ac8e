(** What statements that name tables do to the tables of a node. *)
From Coq Require Import ZArith Bool Ascii String List.
From Verif Require Import Model.Base Model.Sql.
Import ListNotations.
Open Scope char_scope.
Open Scope list_scope.

(** A table: its definition, the files with its data, and the files that are no longer used by it
    with the number of seconds since then. *)
Record table := Table {
  definition : Z;
  used : list Z;
  stale : list (Z * Z)
}.
(** The tables that are registered with Apache DataFusion and saved in the local data folder. *)
Definition database := list (string * table).

Definition lookup (x : string) (db : database) : option table :=
  option_map snd (find (fun p => String.eqb (fst p) x) db).

(** The folder of a table is the name of it, and [Path::from] of object_store removes the segments
    that are empty. *)
Definition segments (name : string) : list string :=
  let '(first, rest) := split "/" name in
  filter (fun s => negb (String.eqb s EmptyString)) (first :: rest).
Fixpoint starts_with (prefix l : list string) : bool :=
  match prefix, l with
  | [], _ => true
  | a :: prefix, b :: l => String.eqb a b && starts_with prefix l
  | _, [] => false
  end.

(** [delete_table_files], crates/modelardb_storage/src/data_folder/mod.rs l.625-645: all files in
    the folder of the table are deleted, so also those in folders in it. Simplified: the log of a
    table is not modelled, so a table whose files are deleted is empty. *)
Definition delete_files (x : string) (p : string * table) : string * table :=
  let '(y, t) := p in
  if starts_with (segments x) (segments y) then (y, Table (definition t) [] []) else (y, t).

Definition exists_table (x : string) (db : database) : bool :=
  match lookup x db with Some _ => true | None => false end.

(** [drop_table], crates/modelardb_server/src/context.rs l.306-335. *)
Definition drop_table (x : string) (db : database) : outcome database :=
  if exists_table x db
  then Ok (map (delete_files x) (filter (fun p => negb (String.eqb (fst p) x)) db))
  else Err.

Definition change (x : string) (f : table -> table) (db : database) : database :=
  map (fun p => let '(y, t) := p in if String.eqb y x then (y, f t) else p) db.

(** [truncate_table], context.rs l.340-366 and data_folder/mod.rs l.647-652: a commit in which no
    file is used. *)
Definition truncated (t : table) : table :=
  Table (definition t) [] (map (fun f => (f, 0%Z)) (used t) ++ stale t).
Definition truncate_table (x : string) (db : database) : outcome database :=
  if exists_table x db then Ok (change x truncated db) else Err.

(** [TimeDelta::new] of chrono, for whole seconds. *)
Definition as_i64 (z : Z) : Z := ((z + 2 ^ 63) mod 2 ^ 64 - 2 ^ 63)%Z.
Definition time_delta (seconds : Z) : option Z :=
  if ((seconds <? - max_retention - 1) || (seconds >? max_retention))%Z then None else Some seconds.

(** [vacuum_table], context.rs l.387-406 and data_folder/mod.rs l.659-684. *)
Definition vacuumed (period : Z) (t : table) : table :=
  Table (definition t) (used t) (filter (fun f => (snd f <=? period)%Z) (stale t)).
Definition vacuum_table (retention : option Z) (x : string) (db : database) : outcome database :=
  if exists_table x db then
    let period := match retention with Some period => period | None => 60 * 60 * 24 * 7 end%Z in
    match time_delta (as_i64 period) with
    | Some period => Ok (change x (vacuumed period) db)
    | None => Err
    end
  else Err.

(** [drop_tables], [truncate_tables], and [vacuum_tables], crates/modelardb_server/src/remote.rs
    l.381-470: the tables one after another until there is an error. *)
Fixpoint each (f : string -> database -> outcome database) (names : list string) (db : database)
  : database * outcome unit :=
  match names with
  | [] => (db, Ok tt)
  | x :: names =>
      match f x db with
      | Ok db => each f names db
      | Err => (db, Err)
      | Panic => (db, Panic)
      end
  end.

(** The part of [do_get] for these statements, remote.rs l.699-728, by a node that is not part of a
    cluster. *)
Definition execute (s : statement) (db : database) : database * outcome unit :=
  match s with
  | Drop_table names => each drop_table names db
  | Truncate_table names cluster => if cluster then (db, Err) else each truncate_table names db
  | Vacuum names retention cluster =>
      let names := match names with [] => map fst db | _ => names end in
      if cluster then (db, Err) else each (vacuum_table retention) names db
  end.

Definition run (parsed : outcome statement) (db : database) : database * outcome unit :=
  match parsed with
  | Ok s => execute s db
  | Err => (db, Err)
  | Panic => (db, Panic)
  end.

(** [PathPart::parse] of object_store. *)
Definition valid_part (s : string) : bool :=
  negb (String.eqb s "." || String.eqb s "..")%string
  && forallb (fun c => (32 <=? nat_of_ascii c)%nat && negb (nat_of_ascii c =? 127)%nat)
       (list_ascii_of_string s).

(** The name of a table that is created, [semantic_checks_for_create_table], parser.rs l.799-830.
    Simplified: segments that are empty are accepted, the columns of the table are not modelled, and
    neither are crashes, see Model/Catalog.v. *)
Section Create.
Variable reserved : string -> bool.

Definition create_name (value : string) : outcome string :=
  let name := map_string to_lower value in
  if existsb whitespace (list_ascii_of_string name) then Err
  else if reserved (map_string to_upper name) then Err
  else if forallb valid_part (segments name) then Ok name
  else Err.

(** [create_normal_table] and [create_time_series_table], context.rs l.75-151. *)
Definition create (value : string) (t : table) (db : database) : outcome database :=
  let? name := create_name value in
  if exists_table name db then Err else Ok (db ++ [(name, t)]).

(** What clients do: statements, the creation of tables, and the ingestion of data, which adds files
    to a table that exists and lets files become stale. *)
Inductive request :=
| Create (value : string) (t : table)
| Execute (sql : string)
| Ingest (x : string) (t : table).

Definition step (db : database) (r : request) : database :=
  match r with
  | Create value t => match create value t db with Ok db => db | _ => db end
  | Execute sql => fst (run (parse_sql sql) db)
  | Ingest x t => change x (fun _ => t) db
  end.
Definition history (requests : list request) : database := fold_left step requests [].
End Create.
