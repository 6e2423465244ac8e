(** C53 - A table is dropped, truncated and vacuumed in the same way through a client as in a data
    folder. *)
From Coq Require Import ZArith Bool Ascii String List.
From Verif Require Import Model.Base Model.Sql Model.Statements Model.EmbeddedTables
  Spec.StatementSpec Spec.EmbeddedTablesSpec Proofs.EmbeddedTablesProofs.
Import ListNotations.
Open Scope string_scope.
Open Scope list_scope.

(** In a data folder exactly the table with the name, if it exists, is changed, whatever the name. *)
Theorem c53_folder : forall o x db, allowed o -> (o = Drop_it -> own_folders [x] db) ->
  one_table x (effect o) db (folder o x db).
Proof. exact folder_done. Qed.
Print Assumptions c53_folder.

(** So is it through a client if the name can be written without quotes. Missing: other names, see
    below. *)
Theorem c53_client_partial : forall o x db, plain x -> not_in_statement o x -> allowed o ->
  (o = Drop_it -> own_folders [x] db) -> one_table x (effect o) db (client o x db).
Proof. exact client_done. Qed.
Print Assumptions c53_client_partial.

(** The two implementations do the same, also for retention periods that are refused. Missing: other
    names, and retention periods that are negative as numbers of type i64, see below. *)
Theorem c53_same_partial : forall o x db, plain x -> not_in_statement o x -> not_negative o ->
  client o x db = folder o x db.
Proof. exact same_operations. Qed.
Print Assumptions c53_same_partial.

(** A data folder accepts the largest retention periods and deletes all files that are not used,
    however recent; a client refuses these periods. *)
Theorem c53_retention_refuted : forall z x db t,
  (2 ^ 64 - (2 ^ 63 - 1) / 1000 - 1 <= z < 2 ^ 64)%Z ->
  plain x -> not_in_statement (Vacuum_it (Some z)) x -> lookup x db = Some t ->
  Forall (fun f => (0 <= snd f)%Z) (stale t) ->
  client (Vacuum_it (Some z)) x db = (db, Err)
  /\ snd (folder (Vacuum_it (Some z)) x db) = Ok tt
  /\ lookup x (fst (folder (Vacuum_it (Some z)) x db)) = Some (Table (definition t) (used t) []).
Proof. exact negative_period. Qed.
Print Assumptions c53_retention_refuted.

(** A client drops and truncates other tables than the one with the name. *)
Theorem c53_name_refuted : exists x db, lookup x db = None
  /\ snd (folder Drop_it x db) = Err /\ client Drop_it x db = ([], Ok tt) /\ db <> []
  /\ snd (folder Truncate_it x db) = Err
  /\ (exists db', client Truncate_it x db = (db', Ok tt) /\ Forall (fun p => used (snd p) = []) db').
Proof. exact other_names. Qed.
Print Assumptions c53_name_refuted.

(** A client vacuums all tables if the name is empty. *)
Theorem c53_empty_name_refuted : exists db, lookup "" db = None
  /\ (exists db', client (Vacuum_it None) "" db = (db', Ok tt)
        /\ lookup "wind" db' <> lookup "wind" db /\ lookup "solar" db' <> lookup "solar" db)
  /\ folder (Vacuum_it None) "" db = (db, Err).
Proof. exact empty_name_all. Qed.
Print Assumptions c53_empty_name_refuted.

Example c53_example :
  plain "wind" /\ not_in_statement (Vacuum_it (Some 4%Z)) "wind" /\ allowed (Vacuum_it (Some 4%Z))
  /\ own_folders ["wind"] stock
  /\ sent (Vacuum_it (Some 86400%Z)) "wind" = "VACUUM wind RETAIN 86400"
  /\ client (Vacuum_it (Some 4%Z)) "wind" stock
     = ([("wind", Table 1 [11; 12] []); ("solar", Table 2 [21] [(20, 700001)])]%Z, Ok tt)
  /\ client Drop_it "wind" stock = ([("solar", Table 2 [21] [(20, 700001)])]%Z, Ok tt)
  /\ client (Vacuum_it (Some 18446744073709551615%Z)) "wind" stock = (stock, Err)
  /\ folder (Vacuum_it (Some 18446744073709551615%Z)) "wind" stock
     = ([("wind", Table 1 [11; 12] []); ("solar", Table 2 [21] [(20, 700001)])]%Z, Ok tt).
Proof. exact stock_example. Qed.
