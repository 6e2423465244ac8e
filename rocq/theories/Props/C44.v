(** C44 - Creating or dropping a table is atomic with respect to crashes. *)
From Coq Require Import ZArith String List Permutation.
From Verif Require Import Model.Base Model.ErrorBound Model.Filters Model.Table Model.Catalog
  Spec.TableSpec Spec.CatalogSpec Proofs.SerializerExample Proofs.DefinitionExample
  Proofs.CatalogProofs Proofs.CatalogTheorems Proofs.CatalogExample.
Import ListNotations.
Open Scope nat_scope.
Open Scope string_scope.
Open Scope list_scope.

(** Wherever operations are interrupted, the server can be started again, if no name has a dot. *)
Theorem c44_starts : forall ser order deletes events, faithful ser -> enumerates order ->
  (forall l, Permutation (deletes l) l) -> Forall valid_event events ->
  exists s, history ser order deletes new_server events = Ok s.
Proof. exact (fun ser ord del events Hs Ho Hd => starts ser ord del Hs Ho Hd events). Qed.
Print Assumptions c44_starts.

(** A table whose creation was completed exists with its definition until it is dropped, wherever
    other operations are interrupted. *)
Theorem c44_completed : forall ser order deletes events s m s1 later s', faithful ser ->
  enumerates order -> (forall l, Permutation (deletes l) l) -> Forall valid_event events ->
  history ser order deletes new_server events = Ok s -> valid_operation (Create_series m) ->
  execute ser deletes (Create_series m) s = (s1, Ok tt) ->
  Forall valid_event later -> Forall (keeps (table_name m)) later ->
  history ser order deletes s1 later = Ok s' ->
  exists n, existing ser order s' (table_name m) n /\ same_definition m n.
Proof.
  exact (fun ser ord del events s m s1 later s' Hs Ho Hd =>
           completed ser ord del Hs Ho Hd events s m s1 later s').
Qed.
Print Assumptions c44_completed.

(** A crash during the creation of a table after [k] changes, in any state. Missing: creation is
    atomic only if no change, or all those to the metadata, have been made; see below. *)
Theorem c44_create_partial : forall ser order deletes events s m k, faithful ser ->
  enumerates order -> (forall l, Permutation (deletes l) l) -> Forall valid_event events ->
  history ser order deletes new_server events = Ok s -> valid_operation (Create_series m) ->
  snd (execute ser deletes (Create_series m) s) = Ok tt ->
  exists s', start ser order (crash ser deletes (Create_series m) k s) = Ok s'
    /\ (k = 0 -> absent s' (table_name m) /\ creatable ser order deletes s' (table_name m))
    /\ (k = 1 -> absent s' (table_name m)
         /\ forall later s'', Forall valid_event later ->
              history ser order deletes s' later = Ok s'' ->
              absent s'' (table_name m) /\ blocked ser deletes s'' (table_name m))
    /\ (forall i, i <= length (query_schema m) -> k = 2 + fields (firstn i (query_schema m)) ->
          exists n, existing ser order s' (table_name m) n /\ interrupted i m n)
    /\ (2 + fields (query_schema m) <= k ->
          exists n, existing ser order s' (table_name m) n /\ same_definition m n)
    /\ (forall y n, y <> table_name m ->
          (existing ser order s y n <-> existing ser order s' y n)).
Proof.
  exact (fun ser ord del events s m k Hs Ho Hd => create_crash ser ord del Hs Ho Hd events s m k).
Qed.
Print Assumptions c44_create_partial.

(** A crash while a table is dropped after [k] changes. Missing: the table can be created again
    only if no change has been made to the metadata, or all commits have been deleted. *)
Theorem c44_drop_partial : forall ser order deletes events s x n k, faithful ser ->
  enumerates order -> (forall l, Permutation (deletes l) l) -> Forall valid_event events ->
  history ser order deletes new_server events = Ok s -> existing ser order s x n ->
  exists s', start ser order (crash ser deletes (Drop x) k s) = Ok s'
    /\ (k <= 2 -> existing ser order s' x n)
    /\ (3 <= k -> absent s' x
         /\ (creatable ser order deletes s' x
             \/ forall later s'', Forall valid_event later ->
                  history ser order deletes s' later = Ok s'' ->
                  absent s'' x /\ blocked ser deletes s'' x))
    /\ (k = 3 -> forall later s'', Forall valid_event later ->
                  history ser order deletes s' later = Ok s'' ->
                  absent s'' x /\ blocked ser deletes s'' x)
    /\ (4 + length (files_of_table x (on_disk s)) <= k -> creatable ser order deletes s' x)
    /\ (forall y n', y <> x -> (existing ser order s y n' <-> existing ser order s' y n')).
Proof.
  exact (fun ser ord del events s x n k Hs Ho Hd => drop_crash ser ord del Hs Ho Hd events s x n k).
Qed.
Print Assumptions c44_drop_partial.

(** If the creation of a table with an error bound or a generated column is interrupted after its
    columns are saved, the table exists without error bounds, and generated columns are stored. *)
Theorem c44_definition_refuted : forall ser order deletes events s m, faithful ser ->
  enumerates order -> (forall l, Permutation (deletes l) l) -> Forall valid_event events ->
  history ser order deletes new_server events = Ok s -> valid_operation (Create_series m) ->
  snd (execute ser deletes (Create_series m) s) = Ok tt ->
  (exists b, In b (error_bounds m) /\ b <> Lossless)
  \/ (exists g, In (Some g) (generated_columns m)) ->
  exists s' n, start ser order (crash ser deletes (Create_series m) 2 s) = Ok s'
    /\ existing ser order s' (table_name m) n /\ interrupted 0 m n /\ ~ same_definition m n.
Proof.
  exact (fun ser ord del events s m Hs Ho Hd => wrong_definition ser ord del Hs Ho Hd events s m).
Qed.
Print Assumptions c44_definition_refuted.

(** The parts of [c44_create_partial] and [c44_drop_partial] that refute the property: there are
    crashes after which a table does not exist and can never be created again. *)
Theorem c44_blocked_refuted : exists ser order deletes s m s',
  faithful ser /\ enumerates order /\ (forall l, Permutation (deletes l) l)
  /\ valid_operation (Create_series m)
  /\ history ser order deletes new_server earlier = Ok s
  /\ start ser order (crash ser deletes (Create_series m) 1 s) = Ok s'
  /\ forall later s'', Forall valid_event later -> history ser order deletes s' later = Ok s'' ->
       absent s'' (table_name m) /\ blocked ser deletes s'' (table_name m).
Proof. exact blocked_forever. Qed.
Print Assumptions c44_blocked_refuted.

(** The server does not always start again: a statement that creates a table whose name has a dot,
    such as CREATE TABLE "a.b", fails after the table is saved, and the server never starts again. *)
Theorem c44_dotted_refuted : forall ser order deletes events s x, faithful ser ->
  enumerates order -> (forall l, Permutation (deletes l) l) -> Forall valid_event events ->
  history ser order deletes new_server events = Ok s -> dotted x = true ->
  exists s', execute ser deletes (Create_normal x) s = (s', Err)
    /\ forall t, start ser order (on_disk s') <> Ok t.
Proof.
  exact (fun ser ord del events s x Hs Ho Hd => dotted_stops ser ord del Hs Ho Hd events s x).
Qed.
Print Assumptions c44_dotted_refuted.
Example c44_dotted_example : dotted "a.b" = true.
Proof. reflexivity. Qed.

(** The hypotheses are met after a history with a crash. *)
Example c44_example : exists s,
  history example_serializer same_order listed new_server earlier = Ok s
  /\ Forall valid_event earlier /\ valid_operation (Create_series turbine_table)
  /\ snd (execute example_serializer listed (Create_series turbine_table) s) = Ok tt
  /\ exists g, In (Some g) (generated_columns turbine_table).
Proof.
  destruct earlier_run as (s & E & _). exists s. split; [exact E|]. split; [exact earlier_valid|].
  exact (turbine_creatable s E).
Qed.
