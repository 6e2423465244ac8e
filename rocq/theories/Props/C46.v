(** C46 - Statements affect exactly the named tables. *)
From Coq Require Import ZArith Bool Ascii String List.
From Verif Require Import Model.Base Model.Sql Model.Statements Spec.StatementSpec Proofs.SqlProofs
  Proofs.StatementProofs Proofs.StatementExample.
Import ListNotations.
Open Scope string_scope.
Open Scope list_scope.

(** DROP TABLE drops exactly the tables that are named, and stops at the first that does not exist.
    Missing: names with several parts, and tables in the folders of others, see below. *)
Theorem c46_drop_partial : forall names tokens db,
  drop_statement (map (fun n => [n]) names) tokens -> own_folders (map fst names) db ->
  carried_out (map fst names) dropped db (fst (run (parse_tokens tokens) db))
    (snd (run (parse_tokens tokens) db)).
Proof. exact drop_written. Qed.
Print Assumptions c46_drop_partial.

(** TRUNCATE empties exactly the tables that are named. *)
Theorem c46_truncate : forall names tokens db, truncate_statement names false tokens ->
  carried_out (map fst names) emptied db (fst (run (parse_tokens tokens) db))
    (snd (run (parse_tokens tokens) db)).
Proof. exact truncate_written. Qed.
Print Assumptions c46_truncate.

(** VACUUM deletes exactly the files that have not been used for the retention period, or for a
    week, of the tables that are named, or of all tables if none is. Missing: names with semicolons,
    and a name at the end that is empty, see below. *)
Theorem c46_vacuum_partial : forall names retention tokens db,
  vacuum_statement names retention false tokens ->
  Forall (fun n => ~ has_char ";" (fst n)) names ->
  (names <> [] -> last (map fst names) EmptyString <> EmptyString) ->
  carried_out (match names with [] => map fst db | _ => map fst names end)
    (cleaned (match retention with Some period => period | None => 604800 end)) db
    (fst (run (parse_tokens tokens) db)) (snd (run (parse_tokens tokens) db)).
Proof. exact vacuum_written. Qed.
Print Assumptions c46_vacuum_partial.

(** Statements for a cluster do not affect tables of a node that is not in a cluster. *)
Theorem c46_cluster : forall names retention tokens db,
  truncate_statement names true tokens \/ vacuum_statement names retention true tokens ->
  run (parse_tokens tokens) db = (db, Err).
Proof.
  exact (fun names retention tokens db H => match H with
    | or_introl t => cluster_refused names tokens db t
    | or_intror v => cluster_vacuum_refused names retention tokens db v
    end).
Qed.
Print Assumptions c46_cluster.

(** Which tokens are accepted as which statement; all others are refused. The names of a DROP TABLE
    are those whose parts are together as they are written, and the names of a VACUUM are those
    separated by semicolons in the names that are written. *)
Theorem c46_accepted : forall tokens,
  (forall names, parse_tokens tokens = Ok (Drop_table names) <->
     exists written, drop_statement written tokens
       /\ names = map (fun n => fold_left String.append (map fst n) EmptyString) written)
  /\ (forall names cluster, parse_tokens tokens = Ok (Truncate_table names cluster) <->
        exists written, truncate_statement written cluster tokens /\ names = map fst written)
  /\ (forall names retention cluster, parse_tokens tokens = Ok (Vacuum names retention cluster) <->
        exists written, vacuum_statement written retention cluster tokens
          /\ names = split_terminator ";" (join ";" (map fst written))).
Proof.
  exact (fun tokens =>
           conj (accepted_drop tokens) (conj (accepted_truncate tokens) (accepted_vacuum tokens))).
Qed.
Print Assumptions c46_accepted.

(** Names without special characters can be written without quotes. *)
Theorem c46_text : forall names, names <> [] -> Forall plain names ->
  parse_sql ("DROP TABLE " ++ join ", " names) = Ok (Drop_table names)
  /\ ((forall n l, names = n :: l -> map_string to_upper n <> "CLUSTER") ->
      parse_sql ("TRUNCATE " ++ join ", " names) = Ok (Truncate_table names false))
  /\ ((forall n l, names = n :: l ->
         map_string to_upper n <> "CLUSTER" /\ map_string to_upper n <> "RETAIN") ->
      parse_sql ("VACUUM " ++ join ", " names) = Ok (Vacuum names None false)).
Proof.
  exact (fun names N F =>
           conj (drop_text names N F) (conj (truncate_text names N F) (vacuum_text names N F))).
Qed.
Print Assumptions c46_text.

(** DROP TABLE with a name with two parts drops the table whose name is both parts together. *)
Theorem c46_multipart_refuted : exists sql a b db,
  sql = ("DROP TABLE " ++ a ++ "." ++ b)%string /\ (a ++ b)%string <> a /\ (a ++ b)%string <> b
  /\ lookup (a ++ b) db <> None
  /\ snd (run (parse_sql sql) db) = Ok tt /\ lookup (a ++ b) (fst (run (parse_sql sql) db)) = None.
Proof. exact multipart_dropped. Qed.
Print Assumptions c46_multipart_refuted.

(** DROP TABLE deletes the files of other tables: all those in folders in the folder of the table,
    and all of them if the name of the table is empty. *)
Theorem c46_nested_refuted : forall reserved, (forall x, reserved x = false) ->
  exists requests x y t, let db := history reserved requests in
  x <> y /\ lookup y db = Some t /\ used t <> []
  /\ snd (execute (Drop_table [x]) db) = Ok tt
  /\ lookup y (fst (execute (Drop_table [x]) db)) = Some (Table (definition t) [] []).
Proof. exact nested_deleted. Qed.
Print Assumptions c46_nested_refuted.
Theorem c46_empty_name_refuted : forall db y t, lookup EmptyString db <> None ->
  y <> EmptyString -> lookup y db = Some t ->
  lookup y (fst (run (parse_sql "DROP TABLE """"") db)) = Some (Table (definition t) [] []).
Proof. exact empty_name_deletes. Qed.
Print Assumptions c46_empty_name_refuted.

(** VACUUM with a name that has a semicolon affects other tables than the one that is named. *)
Theorem c46_semicolon_refuted : exists db, lookup "a;b" db = None
  /\ let '(db', r) := run (parse_sql "VACUUM ""a;b""") db in
     r = Ok tt /\ affects ["a"; "b"] (cleaned 604800) db db' /\ lookup "a" db <> lookup "a" db'
     /\ lookup "b" db <> lookup "b" db'.
Proof. exact semicolon_vacuums. Qed.
Print Assumptions c46_semicolon_refuted.

(** VACUUM with an empty name affects all tables. *)
Theorem c46_empty_refuted : forall db,
  run (parse_sql "VACUUM """"") db = run (parse_sql "VACUUM") db.
Proof. exact empty_vacuums. Qed.
Print Assumptions c46_empty_refuted.

(** A table that was created with upper case letters in its name can never be dropped with the name
    it was created with. *)
Theorem c46_case_refuted : forall reserved requests x c t db', plain x -> upper_case c = true ->
  has_char c x -> create reserved x t (history reserved requests) = Ok db' ->
  lookup (map_string to_lower x) db' = Some t
  /\ run (parse_sql ("DROP TABLE " ++ x)) db' = (db', Err).
Proof. exact upper_created. Qed.
Print Assumptions c46_case_refuted.

Example c46_example :
  drop_statement [[("wind", false)]; [("hydro", true)]]
    [Word "drop" false; Word "TABLE" false; Word "wind" false; Comma; Word "hydro" true; Semicolon]
  /\ own_folders ["wind"; "hydro"] farm
  /\ parse_sql "drop TABLE wind, ""hydro"";" = Ok (Drop_table ["wind"; "hydro"])
  /\ run (parse_sql "drop TABLE wind, ""hydro"";") farm
     = ([("solar", Table 2 [21] [(20, 3)])%Z], Ok tt)
  /\ run (parse_sql "DROP TABLE solar, sun, wind") farm
     = ([("wind", Table 1 [11; 12] [(10, 700000); (9, 5)])%Z; ("hydro", Table 3 [31] [])%Z], Err)
  /\ run (parse_sql "TRUNCATE solar") farm
     = ([("wind", Table 1 [11; 12] [(10, 700000); (9, 5)])%Z; ("solar", Table 2 [] [(21, 0); (20, 3)])%Z;
         ("hydro", Table 3 [31] [])%Z], Ok tt)
  /\ run (parse_sql "VACUUM wind") farm
     = ([("wind", Table 1 [11; 12] [(9, 5)])%Z; ("solar", Table 2 [21] [(20, 3)])%Z;
         ("hydro", Table 3 [31] [])%Z], Ok tt)
  /\ run (parse_sql "VACUUM RETAIN 4") farm
     = ([("wind", Table 1 [11; 12] [])%Z; ("solar", Table 2 [21] [(20, 3)])%Z;
         ("hydro", Table 3 [31] [])%Z], Ok tt)
  /\ run (parse_sql "TRUNCATE CLUSTER wind") farm = (farm, Err).
Proof. exact farm_example. Qed.

(** A table that is created with an upper case letter. *)
Example c46_case_example :
  plain "Wind" /\ upper_case "W" = true /\ has_char "W" "Wind"
  /\ create (fun _ => false) "Wind" (Table 1 [] []) (history (fun _ => false) [])
     = Ok [("wind", Table 1 [] [])].
Proof. exact case_example. Qed.

(** A table with an empty name. *)
Example c46_empty_name_example :
  let db := history (fun _ => false) [Create "" (Table 1 [] []); Create "solar" (Table 2 [21%Z] [])] in
  lookup EmptyString db <> None /\ lookup "solar" db = Some (Table 2 [21%Z] [])
  /\ run (parse_sql "DROP TABLE """"") db = ([("solar", Table 2 [] [])], Ok tt).
Proof. exact empty_name_example. Qed.
