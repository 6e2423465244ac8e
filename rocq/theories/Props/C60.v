(** C60 - Queries are sent to cloud nodes that are running. *)
From Coq Require Import ZArith Bool String List.
From Verif Require Import Model.QueryNodes Spec.QueryNodesSpec Proofs.QueryNodesProofs
  Proofs.QueryNodesWitnesses.
Import ListNotations.
Open Scope Z_scope.
Open Scope string_scope.
Open Scope list_scope.

(** If the nodes have different urls, no node has failed before it was removed, no node is being
    started when a node is asked which one should execute a query, and none ends before it is
    executed, then it is executed by a cloud node, on all rows that had been transferred when it was
    asked. Missing: the other executions, see below. *)
Theorem c60_executed_partial : forall rows before c i k u after c2 j,
  run before (new rows) = Some c ->
  run (Ask i k :: after) c = Some c2 ->
  along distinct_urls (before ++ Ask i k :: after) (new rows) ->
  along no_failure before (new rows) -> none_starting c -> Forall none_ends after ->
  j = List.length (queries c) ->
  nth_error (queries c2) j = Some (Query (Some u) Waiting) ->
  step (Give_up j) c2 = None
  /\ (exists p c3, step (Answer j p) c2 = Some c3)
  /\ forall p c3, step (Answer j p) c2 = Some c3 ->
     exists result, nth_error (queries c3) j = Some (Query (Some u) (Rows result))
       /\ incl (remote c) result.
Proof. exact executed. Qed.
Print Assumptions c60_executed_partial.

Example c60_executed_example :
  exists c c2 c3, run before (new [0]) = Some c /\ run (Ask 0 1 :: after) c = Some c2
    /\ along distinct_urls (before ++ Ask 0 1 :: after) (new [0])
    /\ along no_failure before (new [0]) /\ none_starting c /\ Forall none_ends after
    /\ nth_error (queries c2) 0 = Some (Query (Some "grpc://c:9999") Waiting)
    /\ remote c = [2; 1; 0] /\ listed c2 = [("grpc://a:9999", Edge); ("grpc://b:9999", Cloud);
                                            ("grpc://d:9999", Edge)]
    /\ step (Answer 0 3) c2 = Some c3
    /\ nth_error (queries c3) 0 = Some (Query (Some "grpc://c:9999") (Rows [4; 3; 2; 1; 0])).
Proof. exact executed_case. Qed.

(** For each url, the table with nodes has exactly the modes in which nodes were started there since
    one was last removed, whatever fails. *)
Theorem c60_listed : forall rows events c u, run events (new rows) = Some c ->
  map snd (filter (fun n => String.eqb (fst n) u) (listed c)) = expected u events.
Proof. exact listed_exactly. Qed.
Print Assumptions c60_listed.

(** So a query can be assigned to a url exactly if one of them is a cloud node, and it is refused
    exactly if there is no such url. *)
Theorem c60_assigned_iff : forall rows events c i u, run events (new rows) = Some c ->
  (exists p, nth_error (processes c) i = Some p /\ at_stage p = Running) ->
  ((exists k c', step (Ask i k) c = Some c' /\ queries c' = queries c ++ [Query (Some u) Waiting])
   <-> In Cloud (expected u events)).
Proof. exact assigned_iff. Qed.
Print Assumptions c60_assigned_iff.
Theorem c60_refused_iff : forall rows events c i k, run events (new rows) = Some c ->
  (exists p, nth_error (processes c) i = Some p /\ at_stage p = Running) ->
  ((exists c', step (Ask i k) c = Some c' /\ queries c' = queries c ++ [Query None Waiting])
   <-> forall u, ~ In Cloud (expected u events)).
Proof. exact refused_iff. Qed.
Print Assumptions c60_refused_iff.

(** As long as a cloud node runs, queries are not refused, and they can be assigned to it, even if
    nodes have crashed. Missing: nodes with the same url. *)
Theorem c60_accepted_partial : forall rows events c i u, run events (new rows) = Some c ->
  along distinct_urls events (new rows) ->
  (exists p, nth_error (processes c) i = Some p /\ at_stage p = Running) -> available u c ->
  (exists k c', step (Ask i k) c = Some c' /\ queries c' = queries c ++ [Query (Some u) Waiting])
  /\ forall k c', step (Ask i k) c = Some c' -> queries c' <> queries c ++ [Query None Waiting].
Proof. exact running_chosen. Qed.
Print Assumptions c60_accepted_partial.

Example c60_accepted_example :
  let events := [Start "grpc://a:9999" Edge []; Ready 0; Start "grpc://b:9999" Cloud []; Ready 1;
                 Fail 1; Start "grpc://b:9999" Cloud []; Ready 2] in
  exists c, run events (new []) = Some c /\ along distinct_urls events (new [])
    /\ (exists p, nth_error (processes c) 0 = Some p /\ at_stage p = Running)
    /\ available "grpc://b:9999" c /\ expected "grpc://b:9999" events = [Cloud; Cloud].
Proof. exact available_case. Qed.

(** Each random choice assigns a query to another node, so all are as likely, if no node has failed
    before it was removed. *)
Theorem c60_balanced_partial : forall rows events c i k k' c1 c2, run events (new rows) = Some c ->
  along distinct_urls events (new rows) -> along no_failure events (new rows) ->
  step (Ask i k) c = Some c1 -> step (Ask i k') c = Some c2 ->
  (exists u, queries c1 = queries c ++ [Query (Some u) Waiting]) ->
  queries c1 = queries c2 -> k = k'.
Proof. exact balanced. Qed.
Print Assumptions c60_balanced_partial.

(** A query is assigned to a node that has crashed. *)
Theorem c60_crashed_refuted :
  let events := [Start "grpc://a:9999" Edge []; Start "grpc://b:9999" Cloud []; Ready 0; Ready 1;
                 Fail 1] in
  exists c c1 c2, run events (new [5]) = Some c /\ along distinct_urls events (new [5])
    /\ none_starting c /\ step (Ask 0 0) c = Some c1 /\ step (Give_up 0) c1 = Some c2
    /\ queries c2 = [Query (Some "grpc://b:9999") Unreachable].
Proof. exact crashed_case. Qed.
Print Assumptions c60_crashed_refuted.

(** It is executed by an edge node, without the rows that were transferred, if the node was started
    as an edge node after it crashed as a cloud node. *)
Theorem c60_mode_refuted :
  let events := [Start "grpc://a:9999" Cloud []; Ready 0; Insert 0 1; Transfer 0; Fail 0;
                 Start "grpc://a:9999" Edge [9]; Ready 1] in
  exists c c1 c2, run events (new []) = Some c /\ along distinct_urls events (new [])
    /\ none_starting c /\ remote c = [1] /\ step (Ask 1 0) c = Some c1
    /\ step (Answer 0 1) c1 = Some c2
    /\ queries c2 = [Query (Some "grpc://a:9999") (Rows [9])].
Proof. exact mode_case. Qed.
Print Assumptions c60_mode_refuted.

(** A node that was started again after it crashed gets twice as many queries. *)
Theorem c60_twice_refuted :
  let events := [Start "grpc://a:9999" Cloud []; Ready 0; Fail 0; Start "grpc://a:9999" Cloud [];
                 Ready 1; Start "grpc://b:9999" Cloud []; Ready 2] in
  exists c, run events (new []) = Some c /\ along distinct_urls events (new [])
    /\ forall k, k = 0%nat \/ k = 1%nat -> exists c1, step (Ask 1 k) c = Some c1
         /\ queries c1 = [Query (Some "grpc://a:9999") Waiting].
Proof. exact twice_case. Qed.
Print Assumptions c60_twice_refuted.

(** A query is assigned to a node that does not accept requests yet, or that ends. *)
Theorem c60_starting_refuted :
  let events := [Start "grpc://a:9999" Edge []; Ready 0; Start "grpc://b:9999" Cloud []] in
  exists c c1 c2, run events (new [5]) = Some c /\ along distinct_urls events (new [5])
    /\ along no_failure events (new [5]) /\ step (Ask 0 0) c = Some c1
    /\ step (Give_up 0) c1 = Some c2
    /\ queries c2 = [Query (Some "grpc://b:9999") Unreachable].
Proof. exact starting_case. Qed.
Print Assumptions c60_starting_refuted.
Theorem c60_ended_refuted :
  let events := [Start "grpc://a:9999" Cloud []; Ready 0; Start "grpc://b:9999" Cloud []; Ready 1;
                 Ask 0 1; Remove 1; Exit 1; Give_up 0] in
  exists c, run events (new []) = Some c /\ along distinct_urls events (new [])
    /\ along no_failure events (new [])
    /\ queries c = [Query (Some "grpc://b:9999") Unreachable].
Proof. exact ended_case. Qed.
Print Assumptions c60_ended_refuted.

(** Nodes on different hosts have the same url if they are started with the default host: queries are
    executed by edge nodes, and when one of them is stopped none is listed, so queries are refused
    although a cloud node is running. *)
Theorem c60_default_host_refuted :
  exists c c1 c2, run (default_host ++ [Insert 0 1; Transfer 0]) (new []) = Some c
    /\ along no_failure (default_host ++ [Insert 0 1; Transfer 0]) (new [])
    /\ none_starting c /\ remote c = [1] /\ step (Ask 0 0) c = Some c1
    /\ step (Answer 0 0) c1 = Some c2
    /\ queries c2 = [Query (Some "grpc://127.0.0.1:9999") (Rows [])].
Proof. exact default_case. Qed.
Print Assumptions c60_default_host_refuted.
Theorem c60_unlisted_refuted :
  exists c c1, run three_hosts (new []) = Some c /\ along no_failure three_hosts (new [])
    /\ available "grpc://127.0.0.1:9999" c /\ step (Ask 2 0) c = Some c1
    /\ queries c1 = [Query None Waiting].
Proof. exact unlisted_case. Qed.
Print Assumptions c60_unlisted_refuted.
