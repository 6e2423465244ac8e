(** C42 - Table definitions survive a restart. *)
From Coq Require Import ZArith String List.
From Verif Require Import Model.Base Model.Float Model.ErrorBound Model.Filters Model.Table
  Spec.ErrorBoundSpec Spec.TableSpec Proofs.TableProofs Proofs.DefinitionProofs
  Proofs.StoredDefinitionProofs Proofs.DefinitionWitnesses Proofs.SerializerExample
  Proofs.DefinitionExample.
Import ListNotations.
Open Scope nat_scope.
Open Scope string_scope.
Open Scope list_scope.

(** Any number of tables are loaded after a restart as they were created. *)
Theorem c42_restart : forall ser order ms, faithful ser -> enumerates order ->
  Forall valid_table ms -> NoDup (map table_name ms) ->
  exists s ns, save_all ser ms (Store [] []) = Ok s /\ load_all ser order s = Ok ns
    /\ Forall2 same_definition ms ns /\ Forall valid_table ns.
Proof. exact restart_everything. Qed.
Print Assumptions c42_restart.

(** A new table does not change the others, whatever they are, and is loaded as it was created. *)
Theorem c42_new_table : forall ser order m s, faithful ser -> enumerates order -> valid_table m ->
  Forall (fun r => row_table r <> table_name m) (rows_of_fields s) ->
  exists s', save ser m s = Ok s'
    /\ (exists n, load_row ser order s' (table_name m, query_schema m) = Ok n
         /\ same_definition m n /\ valid_table n)
    /\ (forall name columns, name <> table_name m ->
          load_row ser order s' (name, columns) = load_row ser order s (name, columns)).
Proof. exact restart_ok. Qed.
Print Assumptions c42_new_table.

(** Every table that is created by a statement is valid, so it survives. *)
Theorem c42_statement : forall ser order order' name defs m, faithful ser -> enumerates order ->
  enumerates order' -> create_table order name defs = Ok m ->
  exists s n, save ser m (Store [] []) = Ok s /\ load_all ser order' s = Ok [n]
    /\ same_definition m n /\ created_as defs n.
Proof. exact created_survives. Qed.
Print Assumptions c42_statement.

(** A tag that is generated from another tag is accepted from another node, and is a stored tag
    after a restart. *)
Theorem c42_generated_tag_refuted : forall ser order s, faithful ser -> enumerates order ->
  Forall (fun r => row_table r <> "t") (rows_of_fields s) ->
  exists m s' n, decode ser order (tag_message (to_bytes ser tag_expr)) = Ok m
    /\ save ser m s = Ok s'
    /\ load_row ser order s' (table_name m, query_schema m) = Ok n
    /\ nth_error (generated_columns m) 3 = Some (Some (GeneratedColumn tag_expr [2]))
    /\ nth_error (generated_columns n) 3 = Some None
    /\ length (schema m) = 3 /\ length (schema n) = 4.
Proof. exact generated_tag_stored. Qed.
Print Assumptions c42_generated_tag_refuted.

(** There are faithful serializers, and a table with a generated column is valid. *)
Example c42_example : faithful example_serializer /\ enumerates same_order
  /\ valid_table turbine_table /\ created_as turbine_defs turbine_table.
Proof.
  split; [exact example_faithful|]. split; [exact same_order_enumerates|].
  destruct (created_valid same_order _ _ _ same_order_enumerates turbine_created) as (V & _ & C).
  split; [exact V|exact C].
Qed.
