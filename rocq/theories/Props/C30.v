(** C30: closing the storage engine loses nothing and terminates. *)
From Coq Require Import ZArith List Bool String Permutation.
From Verif Require Import Model.Pipeline Spec.PipelineSpec Proofs.PipelineInvariant Proofs.PipelineCrash
  Proofs.PipelineResults Proofs.PipelineSeries Proofs.PipelineExamples Proofs.PipelineMore.
Import ListNotations.
Open Scope Z_scope.

(** When closing has returned, all threads have stopped and everything received is in the tables, exactly once.
    Missing for the full statement: the hypotheses of C24, that all commits are written, and for termination
    that there is memory for two buffers. *)
Theorem c30_closed_partial : forall hash capacity sort logging events limits s,
  sorts_points sort -> nonneg_limits limits ->
  run hash capacity sort logging events (start logging limits [] []) = Next s ->
  along hash capacity sort logging usual events (start logging limits [] []) ->
  collision_free hash (received s) -> distinct_times (received s) -> s_client s = Closed ->
  s_ingestion s = Stopped /\ s_compressor s = Compressor_stopped /\ s_writer s = Writer_stopped /\ live s = []
  /\ (~ In Crash events -> Permutation (received s) (saved s)).
Proof.
  intros hash capacity sort logging events limits s Hsort.
  exact (closed_saved hash capacity sort logging Hsort events limits s).
Qed.
Print Assumptions c30_closed_partial.

(** Closing (and flushing) terminates: when it has been requested there is a number of steps after which the
    threads have nothing more to do, and as soon as that is so the call returns. *)
Theorem c30_terminates_partial : forall hash capacity sort logging events limits s,
  sorts_points sort -> nonneg_limits limits ->
  run hash capacity sort logging events (start logging limits [] []) = Next s ->
  along hash capacity sort logging (fun e s => usual e s /\ roomy capacity s) events (start logging limits [] []) ->
  roomy capacity s -> collision_free hash (received s) -> distinct_times (received s) ->
  (s_client s = Flushing \/ s_client s = Closing) ->
  exists n, forall rest s',
    Forall (fun e => by_threads e /\ spills_written e /\ commits_written e) rest ->
    run hash capacity sort logging rest s = Next s' ->
    (List.length rest <= n)%nat
    /\ (acts hash capacity sort logging s' \/ exists s'', step hash capacity sort logging Return s' = Next s'').
Proof.
  intros hash capacity sort logging events limits s Hsort.
  exact (flush_completes hash capacity sort logging Hsort events limits s).
Qed.
Print Assumptions c30_terminates_partial.

(** False without memory for two buffers: the ingestion thread ends, and closing waits forever. *)
Theorem c30_refuted : exists events limits s,
  run toy_hash code_capacity toy_sort true events (start true limits [] []) = Next s
  /\ along toy_hash code_capacity toy_sort true usual events (start true limits [] [])
  /\ collision_free toy_hash (received s) /\ distinct_times (received s) /\ s_client s = Closing
  /\ ~ acts toy_hash code_capacity toy_sort true s
  /\ step toy_hash code_capacity toy_sort true Return s = Blocked.
Proof. exists hanging_run, starved_limits. exact hanging_witness. Qed.
Print Assumptions c30_refuted.

Example c30_example : exists s s1,
  run toy_hash 2 toy_sort true (busy_run ++ [Request_stop]) (start true busy_limits [] []) = Next s
  /\ along toy_hash 2 toy_sort true (fun e s => usual e s /\ roomy 2 s)
       (busy_run ++ [Request_stop]) (start true busy_limits [] [])
  /\ roomy 2 s /\ collision_free toy_hash (received s) /\ distinct_times (received s)
  /\ s_client s = Closing /\ live s <> []
  /\ run toy_hash 2 toy_sort true (busy_run ++ Request_stop :: busy_flush ++ [Return]) (start true busy_limits [] []) = Next s1
  /\ along toy_hash 2 toy_sort true usual (busy_run ++ Request_stop :: busy_flush ++ [Return]) (start true busy_limits [] [])
  /\ s_client s1 = Closed.
Proof. exact closing_example. Qed.
