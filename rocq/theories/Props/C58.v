(** C58: requests to a server do not wait for each other forever. *)
From Coq Require Import List Bool Arith.
From Verif Require Import Model.ServerLocks Spec.ServerLocksSpec Proofs.ServerLocksProofs
  Proofs.ServerLocksOrder Proofs.ServerLocksDeadlock.
Import ListNotations.

(** All requests can be answered, whatever has happened, exactly if the configuration is not changed
    while time series tables are created, dropped or truncated or the server is stopped (except that
    the segment size can be changed while it is stopped if no tables are dropped or truncated). *)
Theorem c58_answerable_iff : forall logging requests,
  (forall events s, run events (start (map (program logging) requests)) = Some s -> answerable s)
  <-> harmless requests.
Proof. exact answerable_iff. Qed.
Print Assumptions c58_answerable_iff.

(** Then, no request can go on only if all are answered. *)
Theorem c58_progress_partial : forall logging requests events s, harmless requests ->
  run events (start (map (program logging) requests)) = Some s -> blocked s -> all_answered s.
Proof. exact no_deadlock. Qed.
Print Assumptions c58_progress_partial.

(** However the requests are interleaved, fail, and are cancelled, they end. *)
Theorem c58_ends_partial : forall logging requests events s, harmless requests ->
  run events (start (map (program logging) requests)) = Some s ->
  length events <= 2 * size (map (program logging) requests) + 4 * length requests.
Proof. exact all_finite. Qed.
Print Assumptions c58_ends_partial.

(** No request holds a lock while another one writes. *)
Theorem c58_exclusive : forall programs events s, run events (start programs) = Some s -> ~ shared_write s.
Proof. exact never_shared. Qed.
Print Assumptions c58_exclusive.

(** In general they wait forever: if a time series table is created, dropped or truncated while the
    configuration is changed, these requests and all that need the configuration are never answered. *)
Theorem c58_tables_refuted : forall logging requests i j r u, i <> j ->
  nth_error requests i = Some r -> nth_error requests j = Some u ->
  of_series r = true -> updates u = true ->
  exists events s, Forall (fun e => proceeds e = true) events
    /\ run events (start (map (program logging) requests)) = Some s
    /\ forall later s', waits i later -> waits j later -> run later s = Some s' ->
       pending i s' /\ pending j s'
       /\ forall k q, nth_error requests k = Some q -> needs_configuration q -> waits k later -> pending k s'.
Proof. exact twice_lasts. Qed.
Print Assumptions c58_tables_refuted.

(** If the server is stopped while its memory or how it transfers data is changed, nothing that needs
    the configuration or the storage engine is answered. *)
Theorem c58_kill_refuted : forall logging requests i j r u, i <> j ->
  nth_error requests i = Some r -> nth_error requests j = Some u ->
  kills r = true -> updates_storage u = true ->
  exists events s, Forall (fun e => proceeds e = true) events
    /\ run events (start (map (program logging) requests)) = Some s
    /\ forall later s', waits i later -> waits j later -> run later s = Some s' ->
       pending i s' /\ pending j s'
       /\ forall k q, nth_error requests k = Some q -> needs_configuration q \/ needs_storage q ->
          waits k later -> pending k s'.
Proof. exact kill_lasts. Qed.
Print Assumptions c58_kill_refuted.

(** If it is stopped while the segment size is changed and a table is dropped, none is answered. *)
Theorem c58_three_refuted : forall logging requests i j k r u d, i <> j -> i <> k -> j <> k ->
  nth_error requests i = Some r -> nth_error requests j = Some u -> nth_error requests k = Some d ->
  kills r = true -> updates u = true -> of_tables d = true ->
  exists events s, Forall (fun e => proceeds e = true) events
    /\ run events (start (map (program logging) requests)) = Some s
    /\ forall later s', waits i later -> waits j later -> waits k later -> run later s = Some s' ->
       pending i s' /\ pending j s' /\ pending k s'.
Proof. exact three_last. Qed.
Print Assumptions c58_three_refuted.

(** Many requests that can be answered. *)
Definition many : list request :=
  [Create_normal; Put_series 3; Insert_normal 2; Flush_node 4; Update_memory 2; Drop [(false, 1); (false, 0)];
   Query_node; Update_segment_size; Vacuum 2; Ctrl_c 1; Save_buffers 5; Transfer_periodically 2].
Example c58_many : harmless many.
Proof. right. split; [reflexivity|now left]. Qed.
Definition tables : list request :=
  [Create_series; Drop [(true, 2); (false, 1)]; Truncate [(true, 0)]; Kill_node 2; Put_series 3; Node_type].
Example c58_tables : harmless tables.
Proof. now left. Qed.
Example c58_segment : harmless [Kill_node 3; Update_segment_size; Flush_node 1; Vacuum 2].
Proof. right. split; [reflexivity|right; now split]. Qed.

(** A request that waits for another one: the memory is changed after a query has been planned. *)
Example c58_waits : exists s,
  run [Ask 0; Ask 1; Grant Configuration] (start (map (program true) [Query_node; Update_memory 0])) = None
  /\ run [Ask 0; Ask 1; Continue 0; Continue 0; Grant Configuration; Ask 1; Continue 1; Continue 1; Continue 1]
    (start (map (program true) [Query_node; Update_memory 0])) = Some s /\ all_answered s /\ blocked s.
Proof.
  eexists. split; [reflexivity|]. split; [reflexivity|]. split; [repeat constructor|].
  intros [i|l|i|i|i] H; try discriminate; cbn; [| |]; [destruct i as [|[|[|]]]| |destruct i as [|[|[|]]]];
    try reflexivity; now destruct l.
Qed.

(** The deadlock when a time series table is created while the segment size is changed. *)
Example c58_create : exists s,
  run [Ask 0; Continue 0; Continue 0; Ask 1; Ask 0; Ask 2]
    (start (map (program true) [Create_series; Update_segment_size; Query_node])) = Some s
  /\ blocked s /\ pending 0 s /\ pending 1 s /\ pending 2 s.
Proof.
  eexists. split; [reflexivity|]. split.
  - intros [i|l|i|i|i] H; try discriminate; [destruct i as [|[|[|[|]]]]|destruct l|destruct i as [|[|[|[|]]]]];
      reflexivity.
  - split; [|split]; (eexists; split; [reflexivity|discriminate]).
Qed.
Example c58_needs : needs_configuration Query_node /\ needs_configuration (Drop [(false, 1)])
  /\ needs_storage (Put_series 1) /\ needs_storage (Flush_memory 3).
Proof. repeat split; intros logging; do 2 eexists; reflexivity. Qed.
Example c58_not_harmless : ~ harmless [Create_series; Query_node; Update_segment_size].
Proof. intros [H|(H & _)]; discriminate. Qed.
