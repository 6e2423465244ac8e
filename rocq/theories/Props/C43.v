(** C43 - Table definitions survive transport between nodes. *)
From Coq Require Import ZArith String List.
From Verif Require Import Model.Base Model.Float Model.ErrorBound Model.Filters Model.Table
  Spec.ErrorBoundSpec Spec.TableSpec Proofs.TableProofs Proofs.DefinitionProofs
  Proofs.StoredDefinitionProofs Proofs.DefinitionWitnesses Proofs.SerializerExample
  Proofs.DefinitionExample.
Import ListNotations.
Open Scope nat_scope.
Open Scope string_scope.
Open Scope list_scope.

(** A valid table is received as it was sent. *)
Theorem c43_transport : forall ser order m, faithful ser -> enumerates order -> valid_table m ->
  exists msg n, encode ser m = Ok msg /\ decode ser order msg = Ok n
    /\ same_definition m n /\ valid_table n.
Proof. exact transport_ok. Qed.
Print Assumptions c43_transport.

(** Whatever message is received, an accepted definition is well formed, its columns have different
    names and its generated columns the right sources.  Missing: error bounds are valid (false, see
    below). *)
Theorem c43_received_partial : forall ser order msg m, enumerates order ->
  decode ser order msg = Ok m ->
  (exists bounds, well_formed (query_schema m) bounds (generated_columns m)
     /\ describes (query_schema m) bounds (generated_columns m) m)
  /\ NoDup (map fst (query_schema m))
  /\ (forall i g, nth_error (generated_columns m) i = Some (Some g) ->
        sources_match (query_schema m) g).
Proof. exact decode_well_formed. Qed.
Print Assumptions c43_received_partial.

(** A table whose error bound is not a number is accepted and saved, and from then on the tables
    cannot be loaded. *)
Theorem c43_received_refuted : forall ser order s,
  Forall (fun r => row_table r <> "t") (rows_of_fields s) ->
  exists m s', decode ser order nan_message = Ok m /\ ~ Forall valid_error_bound (error_bounds m)
    /\ save ser m s = Ok s' /\ forall ms, load_all ser order s' <> Ok ms.
Proof. exact nan_stops_restart. Qed.
Print Assumptions c43_received_refuted.

(** A table with a generated column and a message for it that is accepted. *)
Example c43_example : faithful example_serializer /\ enumerates same_order
  /\ valid_table turbine_table
  /\ exists msg, encode example_serializer turbine_table = Ok msg
       /\ map fst (message_bounds msg) = [2; 2; 2; 2; 2; 1]%Z
       /\ decode example_serializer same_order msg = Ok turbine_table.
Proof.
  split; [exact example_faithful|]. split; [exact same_order_enumerates|].
  destruct (created_valid same_order _ _ _ same_order_enumerates turbine_created) as (V & _ & C).
  split; [exact V|]. set (five := f32_of_Z 5). unfold turbine_table. fold five. clearbody five.
  eexists. split; [reflexivity|]. split; reflexivity.
Qed.
