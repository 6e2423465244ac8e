(** Statements that include other nodes. *)
From Coq Require Import Arith Bool Ascii String List Permutation Lia.
From Verif Require Import Model.Base Model.Includes Spec.IncludesSpec Proofs.IncludesProofs.
Import ListNotations.
Open Scope nat_scope.
Open Scope list_scope.

Definition of (s : string) : text := list_ascii_of_string s.

Lemma no_quote : forall a, forallb (fun c => negb (Ascii.eqb c quote)) a = true -> ~ In quote a.
Proof.
  intros a H I. rewrite forallb_forall in H. specialize (H _ I). cbn in H. discriminate.
Qed.

Lemma first_character : forall t,
  match t with d :: _ => continues d = false | [] => True end -> starts_character t.
Proof.
  intros t H c t' -> C. apply continues_iff in C. congruence.
Qed.

(** Two addresses and a query of a table. *)
Definition two_sql : text :=
  of "include 'grpc://b:9999', 'grpc://c:9999' SELECT * FROM readings WHERE name = 'it''s'".
Definition two_addresses : list text := [of "grpc://b:9999"; of "grpc://c:9999"].
Definition two_query : text := of " SELECT * FROM readings WHERE name = 'it''s'".

Lemma two_written : written two_addresses two_query two_sql.
Proof. apply parse_include_iff. vm_compute. reflexivity. Qed.
Lemma two_no_quote : ~ In quote (last two_addresses []).
Proof. apply no_quote. vm_compute. reflexivity. Qed.
Lemma two_starts : starts_character two_query.
Proof. apply first_character. vm_compute. reflexivity. Qed.
Lemma two_not_in : ~ occurs (last two_addresses []) two_query.
Proof. apply rfind_none. vm_compute. reflexivity. Qed.

(** The answers of the nodes. *)
Definition local_answer (q : text) : outcome (result nat) :=
  Ok (Result ["timestamp"; "value"]%string [Ok [[1; 10]; [2; 20]]]).
Definition other_answer (a q : text) : outcome (result nat) :=
  if list_eq_dec ascii_dec q two_query then
    Ok (Result ["timestamp"; "value"]%string
          (if list_eq_dec ascii_dec a (of "grpc://b:9999") then [Ok [[3; 30]]; Ok [[4; 40]]]
           else [Ok [[5; 50]]]))
  else Err.

Lemma two_response : exists rows, responds local_answer other_answer two_sql
  ["timestamp"; "value"]%string rows true /\ length rows = 5.
Proof.
  eexists. split.
  - eexists _, _. split; [vm_compute; reflexivity|]. split; [apply merged_exists|].
    vm_compute. reflexivity.
  - reflexivity.
Qed.

Lemma two_same : forall a l r, local_answer two_query = Ok l -> other_answer a two_query = Ok r ->
  columns r = columns l.
Proof.
  intros a l r L R. injection L as <-. unfold other_answer in R.
  destruct (list_eq_dec ascii_dec two_query two_query); [|discriminate].
  injection R as <-. reflexivity.
Qed.

Lemma two_answered : forall a, In a two_addresses -> exists r, other_answer a two_query = Ok r.
Proof.
  intros a _. unfold other_answer.
  destruct (list_eq_dec ascii_dec two_query two_query) as [|N]; [|now elim N]. eauto.
Qed.

(** The address is also in the query. *)
Definition tag_sql : text :=
  of "INCLUDE 'grpc://b:9999' SELECT * FROM readings WHERE url = 'grpc://b:9999' AND value > 5".
Lemma tag_sent : exists addresses query, written addresses query tag_sql
  /\ query = of " SELECT * FROM readings WHERE url = 'grpc://b:9999' AND value > 5"
  /\ sql_select tag_sql addresses = Ok (of " AND value > 5").
Proof.
  exists [of "grpc://b:9999"], (of " SELECT * FROM readings WHERE url = 'grpc://b:9999' AND value > 5").
  split; [apply parse_include_iff; vm_compute; reflexivity|]. split; [reflexivity|].
  vm_compute. reflexivity.
Qed.

(** The address is also in a comment. *)
Definition comment_sql : text :=
  of "INCLUDE 'grpc://b:9999' SELECT * FROM readings -- not at grpc://b:9999 DROP TABLE readings".
Lemma comment_sent : exists addresses query, written addresses query comment_sql
  /\ query = of " SELECT * FROM readings -- not at grpc://b:9999 DROP TABLE readings"
  /\ sql_select comment_sql addresses = Ok (of "DROP TABLE readings").
Proof.
  exists [of "grpc://b:9999"],
    (of " SELECT * FROM readings -- not at grpc://b:9999 DROP TABLE readings").
  split; [apply parse_include_iff; vm_compute; reflexivity|]. split; [reflexivity|].
  vm_compute. reflexivity.
Qed.

(** The query ends with the address. *)
Definition end_sql : text := of "INCLUDE 'turbines' SELECT * FROM turbines".
Definition end_addresses : list text := [of "turbines"].
Definition end_query : text := of " SELECT * FROM turbines".
Lemma end_written : written end_addresses end_query end_sql.
Proof. apply parse_include_iff. vm_compute. reflexivity. Qed.
Lemma end_no_quote : ~ In quote (last end_addresses []).
Proof. apply no_quote. vm_compute. reflexivity. Qed.
Lemma end_starts : starts_character end_query.
Proof. apply first_character. vm_compute. reflexivity. Qed.
Lemma end_panics : forall V (local : text -> outcome (result V)) answer l,
  local end_query = Ok l -> include_query local answer end_sql = Panic.
Proof.
  intros V local answer l L. unfold include_query.
  replace (parse_include end_sql) with (Ok (end_addresses, end_query)) by (vm_compute; reflexivity).
  cbn [bind]. rewrite L. cbn [bind].
  replace (sql_select end_sql end_addresses) with (@Panic text) by (vm_compute; reflexivity).
  reflexivity.
Qed.
Lemma end_last : last_occurrence (last end_addresses []) end_query [].
Proof.
  split; [|intros; cbn; lia]. exists (of " SELECT * FROM "). vm_compute. reflexivity.
Qed.

(** An empty address. *)
Definition empty_sql : text := of "INCLUDE '' SELECT 1".
Lemma empty_panics : forall V (local : text -> outcome (result V)) answer l,
  local (of " SELECT 1") = Ok l -> include_query local answer empty_sql = Panic.
Proof.
  intros V local answer l L. unfold include_query.
  replace (parse_include empty_sql) with (Ok ([of ""], of " SELECT 1")) by (vm_compute; reflexivity).
  cbn [bind]. rewrite L. cbn [bind].
  replace (sql_select empty_sql [of ""]) with (@Panic text) by (vm_compute; reflexivity).
  reflexivity.
Qed.

(** The columns of the other node are in another order. *)
Definition other_order (a q : text) : outcome (result nat) :=
  Ok (Result ["value"; "timestamp"]%string [Ok [[30; 3]]]).
Lemma other_order_response :
  (forall r, other_order (of "grpc://b:9999") two_query = Ok r -> forall rows, all_rows r rows ->
     named (columns r) rows = [[("value", 30); ("timestamp", 3)]]%string)
  /\ responds local_answer other_order (of "INCLUDE 'grpc://b:9999'" ++ two_query)
       ["timestamp"; "value"]%string [[1; 10]; [2; 20]; [30; 3]] true
  /\ named ["timestamp"; "value"]%string [[1; 10]; [2; 20]; [30; 3]]
     = [[("timestamp", 1); ("value", 10)]; [("timestamp", 2); ("value", 20)];
        [("timestamp", 30); ("value", 3)]]%string.
Proof.
  split; [|split].
  - intros r R rows (batches & B & ->). injection R as <-. cbn in B.
    destruct batches as [|b [|c batches]]; try discriminate. injection B as <-. reflexivity.
  - eexists _, _. split; [vm_compute; reflexivity|]. split; [apply merged_exists|].
    vm_compute. reflexivity.
  - reflexivity.
Qed.
