(** C62: a query that includes other nodes returns the rows of all of them. *)
From Coq Require Import Ascii String List Permutation.
From Verif Require Import Model.Base Model.Includes Spec.IncludesSpec Proofs.IncludesProofs
  Proofs.IncludesWitnesses.
Import ListNotations.
Open Scope nat_scope.
Open Scope list_scope.

(** The addresses and the query are read as they are written. *)
Theorem c62_parsed : forall sql addresses query,
  parse_include sql = Ok (addresses, query) <-> written addresses query sql.
Proof. exact parse_include_iff. Qed.
Print Assumptions c62_parsed.

Example c62_parsed_example : written two_addresses two_query two_sql.
Proof. exact two_written. Qed.

(** The query is what is sent to the addresses if and only if the last address is not in it. *)
Theorem c62_sent_iff : forall addresses query sql,
  written addresses query sql -> ~ In quote (last addresses []) -> starts_character query ->
  (sql_select sql addresses = Ok query <-> ~ occurs (last addresses []) query).
Proof. exact sent_iff. Qed.
Print Assumptions c62_sent_iff.

Example c62_sent_example : written two_addresses two_query two_sql
  /\ ~ In quote (last two_addresses []) /\ starts_character two_query
  /\ ~ occurs (last two_addresses []) two_query.
Proof. exact (conj two_written (conj two_no_quote (conj two_starts two_not_in))). Qed.

(** A complete response has the rows of the query at this node and at every address, and the columns
    of the query at this node. *)
Theorem c62_rows_partial : forall V (local : text -> outcome (result V)) answer sql addresses query
    columns rows,
  written addresses query sql -> ~ In quote (last addresses []) -> starts_character query ->
  ~ occurs (last addresses []) query ->
  responds local answer sql columns rows true ->
  exists l rs own others, local query = Ok l /\ columns = Includes.columns l /\ all_rows l own
    /\ Forall2 (fun a r => answer a query = Ok r) addresses rs /\ Forall2 all_rows rs others
    /\ Permutation rows (own ++ concat others).
Proof. exact response_rows. Qed.
Print Assumptions c62_rows_partial.

Example c62_rows_example : exists rows, responds local_answer other_answer two_sql
  ["timestamp"; "value"]%string rows true /\ length rows = 5.
Proof. exact two_response. Qed.

(** If the results have the same columns at all nodes, so do the values. *)
Theorem c62_named_partial : forall V (local : text -> outcome (result V)) answer sql addresses query
    columns rows,
  written addresses query sql -> ~ In quote (last addresses []) -> starts_character query ->
  ~ occurs (last addresses []) query ->
  (forall a l r, local query = Ok l -> answer a query = Ok r ->
     Includes.columns r = Includes.columns l) ->
  responds local answer sql columns rows true ->
  exists l rs own others, local query = Ok l /\ all_rows l own
    /\ Forall2 (fun a r => answer a query = Ok r) addresses rs /\ Forall2 all_rows rs others
    /\ Permutation (named columns rows)
         (named (Includes.columns l) own
          ++ concat (map (fun p => named (Includes.columns (fst p)) (snd p)) (combine rs others))).
Proof. exact response_named. Qed.
Print Assumptions c62_named_partial.

Example c62_named_example : forall a l r, local_answer two_query = Ok l ->
  other_answer a two_query = Ok r -> columns r = columns l.
Proof. exact two_same. Qed.

(** A response is complete if and only if none of the nodes had an error. *)
Theorem c62_errors_partial : forall V (local : text -> outcome (result V)) answer sql addresses query
    columns rows ok,
  written addresses query sql -> ~ In quote (last addresses []) -> starts_character query ->
  ~ occurs (last addresses []) query ->
  responds local answer sql columns rows ok ->
  exists l rs, local query = Ok l /\ Forall2 (fun a r => answer a query = Ok r) addresses rs
    /\ (ok = true <-> Forall (fun r => exists own, all_rows r own) (l :: rs)).
Proof. exact response_ok. Qed.
Print Assumptions c62_errors_partial.

(** A statement is answered if the query is at this node and every address. *)
Theorem c62_answered_partial : forall V (local : text -> outcome (result V)) answer sql addresses
    query l,
  written addresses query sql -> ~ In quote (last addresses []) -> starts_character query ->
  ~ occurs (last addresses []) query ->
  local query = Ok l -> (forall a, In a addresses -> exists r, answer a query = Ok r) ->
  exists rows ok, responds local answer sql (columns l) rows ok.
Proof. exact response_exists. Qed.
Print Assumptions c62_answered_partial.

Example c62_answered_example : forall a, In a two_addresses ->
  exists r, other_answer a two_query = Ok r.
Proof. exact two_answered. Qed.

(** A statement stops the server if and only if the last occurrence of the last address in the query
    is at its end or before a character that is not ASCII. *)
Theorem c62_aborts_iff : forall V (local : text -> outcome (result V)) answer sql addresses query l,
  written addresses query sql -> ~ In quote (last addresses []) -> starts_character query ->
  local query = Ok l -> (forall a q, answer a q <> Panic) ->
  (include_query local answer sql = Panic <->
   exists after, last_occurrence (last addresses []) query after
     /\ (after = [] \/ within_character after)).
Proof. exact statement_aborts_iff. Qed.
Print Assumptions c62_aborts_iff.

Example c62_aborts_example : written end_addresses end_query end_sql
  /\ ~ In quote (last end_addresses []) /\ starts_character end_query
  /\ last_occurrence (last end_addresses []) end_query [].
Proof. exact (conj end_written (conj end_no_quote (conj end_starts end_last))). Qed.

(** Not every statement is answered: two that stop the server. *)
Theorem c62_aborts_refuted : forall V (local : text -> outcome (result V)) answer l,
  (local (of " SELECT * FROM turbines") = Ok l ->
   include_query local answer (of "INCLUDE 'turbines' SELECT * FROM turbines") = Panic)
  /\ (local (of " SELECT 1") = Ok l ->
      include_query local answer (of "INCLUDE '' SELECT 1") = Panic).
Proof. exact (fun V local answer l => conj (end_panics V local answer l) (empty_panics V local answer l)). Qed.
Print Assumptions c62_aborts_refuted.

(** Not every statement sends its query: an address that is compared with, and one in a comment. *)
Theorem c62_sent_refuted :
  (exists addresses query, written addresses query tag_sql
    /\ query = of " SELECT * FROM readings WHERE url = 'grpc://b:9999' AND value > 5"
    /\ sql_select tag_sql addresses = Ok (of " AND value > 5"))
  /\ (exists addresses query, written addresses query comment_sql
    /\ query = of " SELECT * FROM readings -- not at grpc://b:9999 DROP TABLE readings"
    /\ sql_select comment_sql addresses = Ok (of "DROP TABLE readings")).
Proof. exact (conj tag_sent comment_sent). Qed.
Print Assumptions c62_sent_refuted.

(** Values are not always returned in their column: the columns of the other node are in another
    order. *)
Theorem c62_named_refuted :
  (forall r, other_order (of "grpc://b:9999") two_query = Ok r -> forall rows, all_rows r rows ->
     named (columns r) rows = [[("value", 30); ("timestamp", 3)]]%string)
  /\ responds local_answer other_order (of "INCLUDE 'grpc://b:9999'" ++ two_query)
       ["timestamp"; "value"]%string [[1; 10]; [2; 20]; [30; 3]] true
  /\ named ["timestamp"; "value"]%string [[1; 10]; [2; 20]; [30; 3]]
     = [[("timestamp", 1); ("value", 10)]; [("timestamp", 2); ("value", 20)];
        [("timestamp", 30); ("value", 3)]]%string.
Proof. exact other_order_response. Qed.
Print Assumptions c62_named_refuted.
