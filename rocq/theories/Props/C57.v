(** C57 - TRUNCATE CLUSTER deletes the rows of the tables everywhere. *)
From Coq Require Import ZArith Bool String List.
From Verif Require Import Model.Base Model.ClusterTruncate Spec.ClusterTruncateSpec
  Proofs.ClusterTruncateProofs Proofs.ClusterTruncateOther Proofs.ClusterTruncateWitnesses.
Import ListNotations.
Open Scope nat_scope.
Open Scope list_scope.

(** Whatever happened before and happens meanwhile, with any number of nodes, tables, and other
    statements: when the statement returns without an error, the remote data folder, the node that
    received it, and all nodes that were listed and not stopped by a user only have rows of the
    tables that were inserted meanwhile. Missing: transfers that write rows of the tables
    meanwhile, nodes that cannot save the rows they have in memory, nodes that are not listed, and
    names that have to be quoted. *)
Theorem c57_truncated_partial : forall tables before u ts es, sendable ts ->
  let c := run (new_cluster tables) before in
  let c' := run c (Begin u ts :: es) in
  alive (nodes c u) = true -> no_transfer ts (step c (Begin u ts)) es ->
  all_saved (step c (Begin u ts)) es -> In (next c, true) (results c') ->
  forall t, In t ts ->
    only_new es t (remote c' t)
    /\ forall w, (w = u \/ In w (listed c) /\ ~ In (Leave w) es) ->
       only_new es t (memory (nodes c' w) t) /\ only_new es t (disk (nodes c' w) t).
Proof. exact truncated_everywhere. Qed.
Print Assumptions c57_truncated_partial.

(** Rows that are nowhere do not return unless they are inserted. *)
Theorem c57_not_returned : forall es c t x, nowhere t x c -> ~ inserted es t x ->
  nowhere t x (run c es).
Proof. exact nothing_returns. Qed.
Print Assumptions c57_not_returned.

(** Other tables keep their rows in every step of every statement, also of those that fail. *)
Theorem c57_others_partial : forall tables es e t, unnamed t (es ++ [e]) -> truncates e = true ->
  let c := run (new_cluster tables) es in
  remote (step c e) t = remote c t /\ forall w, same_rows t (nodes c w) (nodes (step c e) w).
Proof. exact others_kept. Qed.
Print Assumptions c57_others_partial.

(** If all listed nodes are running and have the tables, the statement succeeds. *)
Theorem c57_succeeds : forall c u ts, sendable ts -> statements c = [] -> jobs c = [] ->
  incl ts (remote_tables c) -> ready ts (nodes c u) ->
  (forall w, In w (listed c) -> ready ts (nodes c w)) ->
  exists es, Forall executes es /\ In (next c, true) (results (run c (Begin u ts :: es))).
Proof. exact statement_succeeds. Qed.
Print Assumptions c57_succeeds.

(** The remote data folder is truncated first, so a node that transfers rows before it gets the
    statement adds them again. *)
Theorem c57_transfer_refuted : exists tables before u ts es x s, sendable ts /\ In s ts
  /\ let c := run (new_cluster tables) before in
     let c' := run c (Begin u ts :: es) in
     In (next c, true) (results c') /\ ~ inserted es s x /\ In x (remote c' s).
Proof. exact moved_meanwhile. Qed.
Print Assumptions c57_transfer_refuted.

(** A node that is stopped meanwhile transfers its rows when it is started again. *)
Theorem c57_stopped_node_refuted : exists tables before u ts es later x s, sendable ts /\ In s ts
  /\ let c := run (new_cluster tables) before in
     let c' := run c (Begin u ts :: es) in
     no_transfer ts (step c (Begin u ts)) es /\ all_saved (step c (Begin u ts)) es
     /\ In (next c, true) (results c') /\ ~ inserted (es ++ later) s x /\ In x (remote (run c' later) s).
Proof. exact returns_later. Qed.
Print Assumptions c57_stopped_node_refuted.

(** A statement that fails has deleted the rows in the remote data folder, but not those of the
    node that received it. *)
Theorem c57_failed_refuted : exists tables before u ts es x y s, sendable ts /\ In s ts
  /\ let c := run (new_cluster tables) before in
     let c' := run c (Begin u ts :: es) in
     In (next c, false) (results c') /\ statements c' = [] /\ jobs c' = []
     /\ In x (remote c s) /\ remote c' s = []
     /\ In y (disk (nodes c u) s) /\ In y (disk (nodes c' u) s).
Proof. exact half_done. Qed.
Print Assumptions c57_failed_refuted.

(** A node that could not save the rows it has in memory does not report it, so the statement
    returns without an error, and rows that were inserted before it are saved and transferred after
    it. *)
Theorem c57_unsaved_refuted : exists tables before u ts es later x s, sendable ts /\ In s ts
  /\ let c := run (new_cluster tables) before in
     let c' := run c (Begin u ts :: es) in
     no_transfer ts (step c (Begin u ts)) es /\ In (next c, true) (results c')
     /\ ~ inserted (es ++ later) s x /\ In x (remote (run c' later) s).
Proof. exact saved_later. Qed.
Print Assumptions c57_unsaved_refuted.

(** If a node crashes, the statement fails and the other nodes are not waited for. One that was
    waiting for the transfer of another table is stopped, and the table stays marked as dropped
    there: its rows, old and new, are not transferred again until the node is restarted or the
    table is truncated or dropped. *)
Theorem c57_marked_refuted : exists tables before u ts es w x s, sendable ts /\ In s ts
  /\ let c := run (new_cluster tables) before in
     let c' := run c (Begin u ts :: es) in
     In (next c, false) (results c') /\ alive (nodes c' w) = true
     /\ forall later,
        (forall e, In e later -> e <> Crash w /\ e <> Leave w /\ forall v ts, e <> Begin v ts) ->
        let c'' := run c' later in
        In x (disk (nodes c'' w) s) /\ forall l b, moving (nodes c'' w) <> Some (s, l, b).
Proof. exact never_transferred. Qed.
Print Assumptions c57_marked_refuted.

(** Rows 7, 8 and 9 in the remote data folder, in the memory of a node, and in the data folder of
    another are deleted, and row 10, which is inserted meanwhile, is kept. *)
Example c57_example : exists tables before u ts es, sendable ts
  /\ let c := run (new_cluster tables) before in
     let c' := run c (Begin u ts :: es) in
     alive (nodes c u) = true /\ no_transfer ts (step c (Begin u ts)) es
     /\ all_saved (step c (Begin u ts)) es /\ In (next c, true) (results c')
     /\ remote c t = [7%Z] /\ memory (nodes c 1) t = [8%Z] /\ disk (nodes c 2) t = [9%Z]
     /\ remote c' t = [] /\ memory (nodes c' 1) t = [] /\ disk (nodes c' 2) t = []
     /\ memory (nodes c' 2) t = [10%Z].
Proof. exact truncate_example. Qed.
