(** C47 - Cluster nodes agree on the tables. *)
From Coq Require Import ZArith Bool Ascii String List.
From Verif Require Import Model.Base Model.Sql Model.Cluster Spec.StatementSpec Spec.ClusterSpec
  Proofs.SqlProofs Proofs.ClusterProofs Proofs.ClusterDefinitions Proofs.ClusterExample.
Import ListNotations.
Open Scope nat_scope.
Open Scope string_scope.
Open Scope list_scope.

(** However requests are interleaved and nodes stop, if none failed after it changed tables, then
    all nodes have tables with the same names as the remote data folder, other than those that are
    being created or dropped. Missing: requests that fail, nodes that are started while a request is
    executed or after they have crashed, and names that have to be quoted, see below. *)
Theorem c47_names_partial : forall storage_schema ts local actions, NoDup (map fst ts) ->
  always storage_schema orderly (new_cluster ts local) actions ->
  harmed (outcome_of storage_schema (new_cluster ts local) actions) = false ->
  same_names (outcome_of storage_schema (new_cluster ts local) actions).
Proof. exact names_agree. Qed.
Print Assumptions c47_names_partial.

(** They also have the same definitions, if requests for the same table are not executed at the same
    time, and if no normal table looks like the storage of a time series table. *)
Theorem c47_definitions_partial : forall storage_schema ts local actions, NoDup (map fst ts) ->
  (forall x d, In (x, d) ts -> distinguishable storage_schema d) ->
  always storage_schema orderly (new_cluster ts local) actions ->
  always storage_schema (separate storage_schema) (new_cluster ts local) actions ->
  harmed (outcome_of storage_schema (new_cluster ts local) actions) = false ->
  same_definitions (outcome_of storage_schema (new_cluster ts local) actions).
Proof. exact definitions_agree. Qed.
Print Assumptions c47_definitions_partial.

(** In a healthy cluster of any size, creating a table that does not exist succeeds, and so does
    dropping tables that exist and whose names do not have to be quoted, and afterwards the cluster
    is healthy, so all nodes agree. *)
Theorem c47_create : forall storage_schema c u x d, healthy c -> running c u = true ->
  find_table x (remote c) = None ->
  let c' := run storage_schema c (whole c u (Create x d)) in
  healthy c' /\ rows c' = rows c
  /\ forall y, find_table y (remote c') = if String.eqb y x then Some d else find_table y (remote c).
Proof. exact created. Qed.
Print Assumptions c47_create.
Theorem c47_drop_partial : forall storage_schema c u xs, healthy c -> running c u = true ->
  xs <> [] -> Forall plain xs -> NoDup xs -> (forall x, In x xs -> find_table x (remote c) <> None) ->
  let c' := run storage_schema c (whole c u (Drop xs)) in
  healthy c' /\ rows c' = rows c
  /\ forall y, find_table y (remote c')
               = if in_dec string_dec y xs then None else find_table y (remote c).
Proof. exact dropped_everywhere. Qed.
Print Assumptions c47_drop_partial.

(** Creating a table that exists and dropping one that does not exist changes nothing. *)
Theorem c47_refused : forall storage_schema c u r, match r with
    | Create x _ => find_table x (remote c) <> None
    | Drop xs => match xs with x :: _ => find_table x (remote c) = None | [] => False end
    end -> run storage_schema c [Begin u r] = c.
Proof. exact refused. Qed.
Print Assumptions c47_refused.

(** A node that is started only runs if afterwards its tables have the same names, and definitions,
    as those in the remote data folder, and its own tables are not changed. *)
Theorem c47_start_partial : forall storage_schema c u key, at_stage (nodes c u) = Stopped ->
  NoDup (map fst (remote c)) ->
  let c' := run storage_schema c (events_of (Start u key)) in
  running c' u = true ->
  forall x, (find_table x (local (nodes c' u)) = None <-> find_table x (remote c') = None)
    /\ (forall d, find_table x (remote c') = Some d -> distinguishable storage_schema d ->
          find_table x (local (nodes c' u)) = Some d)
    /\ (forall d, find_table x (local (nodes c u)) = Some d ->
          find_table x (local (nodes c' u)) = Some d).
Proof. exact only_if_same. Qed.
Print Assumptions c47_start_partial.

(** A node that is not listed and has only tables that are in the remote data folder can be started,
    nodes can be stopped, and the cluster is healthy before any node is started. *)
Theorem c47_members : forall storage_schema c, healthy c ->
  (forall u key, NoDup (map fst (remote c)) -> ~ In u (rows c) -> at_stage (nodes c u) = Stopped ->
     (forall x d, find_table x (local (nodes c u)) = Some d -> find_table x (remote c) = Some d) ->
     let c' := run storage_schema c (events_of (Start u key)) in
     healthy c' /\ rows c' = rows c ++ [u] /\ remote c' = remote c)
  /\ (forall u, healthy (run storage_schema c [Stop u])).
Proof.
  exact (fun schema c H => conj (fun u key N I S F => started schema c u key H N I S F)
                             (fun u => stopped schema c u H)).
Qed.
Print Assumptions c47_members.
Theorem c47_new : forall ts local, healthy (new_cluster ts local).
Proof. exact new_healthy. Qed.
Print Assumptions c47_new.

(** A node starts with a time series table that is a normal table in the remote data folder. *)
Theorem c47_type_refuted : forall storage_schema,
  exists ts loc d d', let c := run storage_schema (new_cluster ts loc) (events_of (Start 1 7)) in
  running c 1 = true /\ find_table "a" (local (nodes c 1)) = Some d
  /\ find_table "a" (remote c) = Some d' /\ d <> d'.
Proof. exact other_type. Qed.
Print Assumptions c47_type_refuted.

(** DROP TABLE with a name that has a comma succeeds, but the other nodes drop other tables. *)
Theorem c47_comma_refuted : forall storage_schema, exists c, healthy c /\ rows c = [1; 2; 3]
  /\ let c' := run storage_schema c (whole c 1 (Drop ["a,b"])) in
     tasks c' = [] /\ harmed c' = false
     /\ map fst (remote c') = ["a"; "b"] /\ map fst (local (nodes c' 1)) = ["a"; "b"]
     /\ map fst (local (nodes c' 2)) = ["a,b"] /\ map fst (local (nodes c' 3)) = ["a,b"].
Proof. exact comma. Qed.
Print Assumptions c47_comma_refuted.

(** A table whose name has to be quoted is only dropped in the remote data folder. *)
Theorem c47_quoted_refuted : forall storage_schema, exists c, healthy c /\ rows c = [1; 2; 3]
  /\ let c' := run storage_schema c (whole c 1 (Drop ["a-b"])) in
     tasks c' = [] /\ remote c' = [] /\ map fst (local (nodes c' 1)) = ["a-b"]
     /\ map fst (local (nodes c' 2)) = ["a-b"] /\ map fst (local (nodes c' 3)) = ["a-b"].
Proof. exact quoted. Qed.
Print Assumptions c47_quoted_refuted.

(** If one of several tables to drop does not exist, those before it are dropped in the remote data
    folder only. *)
Theorem c47_several_refuted : forall storage_schema, exists c, healthy c /\ rows c = [1; 2; 3]
  /\ let c' := run storage_schema c [Begin 1 (Drop ["a"; "b"])] in
     tasks c' = [] /\ remote c' = [] /\ map fst (local (nodes c' 1)) = ["a"]
     /\ map fst (local (nodes c' 2)) = ["a"] /\ map fst (local (nodes c' 3)) = ["a"].
Proof. exact second_missing. Qed.
Print Assumptions c47_several_refuted.

(** A node that is started again after a crash is listed twice, so tables cannot be created: they
    are on all nodes but the one that was asked to create them. *)
Theorem c47_restart_refuted : forall storage_schema, exists c, healthy c /\ rows c = [1; 2; 3]
  /\ let c1 := run storage_schema c (Crash 2 :: events_of (Start 2 8)) in
     let c' := run storage_schema c1 (whole c1 1 (Create "a" (Series 1))) in
     running c1 2 = true /\ rows c1 = [1; 2; 3; 2]
     /\ harmed c' = true /\ map fst (remote c') = ["a"] /\ local (nodes c' 1) = []
     /\ map fst (local (nodes c' 2)) = ["a"] /\ map fst (local (nodes c' 3)) = ["a"].
Proof. exact listed_twice. Qed.
Print Assumptions c47_restart_refuted.

(** A node that is not started as its tables do not match is listed, so tables cannot be created. *)
Theorem c47_listed_refuted : forall storage_schema, exists c loc, rows c = [1; 2]
  /\ c = outcome_of storage_schema (new_cluster [] loc) [Start 1 7; Start 2 8]
  /\ running c 1 = true /\ running c 2 = false
  /\ let c' := run storage_schema c (whole c 1 (Create "a" (Series 1))) in
     harmed c' = true /\ map fst (remote c') = ["a"] /\ local (nodes c' 1) = [].
Proof. exact not_started. Qed.
Print Assumptions c47_listed_refuted.

(** The first two nodes of a cluster have different keys if they are started at the same time, so
    each refuses what the other requests. *)
Theorem c47_keys_refuted : forall storage_schema,
  let c := run storage_schema (new_cluster [] (fun _ => []))
             [Join 1; Join 2; Choose 1 7; Choose 2 8; Synchronize 1; Synchronize 2] in
  running c 1 = true /\ running c 2 = true
  /\ let c' := run storage_schema c (whole c 1 (Create "a" (Series 1))) in
     harmed c' = true /\ map fst (remote c') = ["a"] /\ local (nodes c' 1) = []
     /\ local (nodes c' 2) = [].
Proof. exact two_keys. Qed.
Print Assumptions c47_keys_refuted.

(** If a table is created, dropped, and created again at the same time on different nodes, then all
    can succeed, and the definition in the remote data folder differs from that on all nodes. *)
Theorem c47_overlap_refuted : forall storage_schema, exists c, healthy c /\ rows c = [1; 2; 3]
  /\ always storage_schema orderly c (map Event overlapping)
  /\ let c' := run storage_schema c overlapping in
     tasks c' = [] /\ harmed c' = false /\ remote c' = [("a", Series 2)]
     /\ local (nodes c' 1) = [("a", Series 1)] /\ local (nodes c' 2) = [("a", Series 1)]
     /\ local (nodes c' 3) = [("a", Series 1)].
Proof. exact overlap. Qed.
Print Assumptions c47_overlap_refuted.

(** A history with requests that overlap and a node that stops during one. *)
Example c47_example :
  let c := new_cluster [("hydro", Series 3)] turbines in
  let c' := outcome_of (fun _ => 0%Z) c busy in
  always (fun _ => 0%Z) orderly c busy /\ always (fun _ => 0%Z) (separate (fun _ => 0%Z)) c busy
  /\ harmed c' = false /\ tasks c' = [] /\ rows c' = [1; 2]
  /\ map fst (remote c') = ["hydro"; "sun"] /\ map fst (local (nodes c' 1)) = ["hydro"; "sun"]
  /\ map fst (local (nodes c' 2)) = ["hydro"; "sun"].
Proof. exact busy_example. Qed.

(** A healthy cluster with three nodes. *)
Example c47_healthy_example : forall storage_schema ts, NoDup (map fst ts) ->
  healthy (three storage_schema ts) /\ rows (three storage_schema ts) = [1; 2; 3]
  /\ remote (three storage_schema ts) = ts.
Proof. exact three_healthy. Qed.
