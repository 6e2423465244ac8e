(** C29: flush is a barrier. *)
From Coq Require Import ZArith List Bool String Permutation.
From Verif Require Import Model.Pipeline Spec.PipelineSpec Proofs.PipelineInvariant Proofs.PipelineCrash
  Proofs.PipelineResults Proofs.PipelineSeries Proofs.PipelineExamples Proofs.PipelineMore.
Import ListNotations.
Open Scope Z_scope.

(** When a flush (or closing) returns, the pipeline is empty: everything that was in it at any earlier point
    and everything received since then is in the tables, exactly once. Missing for the full statement: the
    hypotheses of C24, and that all commits are written. *)
Theorem c29_barrier_partial : forall hash capacity sort logging before events limits s1 s s',
  sorts_points sort -> nonneg_limits limits ->
  run hash capacity sort logging before (start logging limits [] []) = Next s1 ->
  along hash capacity sort logging usual before (start logging limits [] []) ->
  run hash capacity sort logging events s1 = Next s ->
  along hash capacity sort logging usual events s1 -> ~ In Crash events ->
  collision_free hash (received s) -> distinct_times (received s) ->
  step hash capacity sort logging Return s = Next s' ->
  live s' = [] /\ exists new, received s' = received s1 ++ new
                   /\ Permutation (saved s') (saved s1 ++ live s1 ++ new).
Proof.
  intros hash capacity sort logging before events limits s1 s s' Hsort.
  exact (flush_barrier hash capacity sort logging Hsort before events limits s1 s s').
Qed.
Print Assumptions c29_barrier_partial.

(** False if a commit fails: the flush still returns. *)
Theorem c29_refuted : exists events limits s s' x,
  run toy_hash code_capacity toy_sort true events (start true limits [] []) = Next s /\ ~ In Crash events
  /\ collision_free toy_hash (received s) /\ distinct_times (received s)
  /\ step toy_hash code_capacity toy_sort true Return s = Next s' /\ s_client s = Flushing
  /\ In x (received s') /\ ~ In x (saved s' ++ live s').
Proof.
  exists dropped_run, dropped_limits. destruct dropped_witness as [s [s' H]]. exists s, s', dropped_item. exact H.
Qed.
Print Assumptions c29_refuted.

Example c29_example : exists s s1 s2 s3,
  run toy_hash 2 toy_sort true busy_run (start true busy_limits [] []) = Next s
  /\ run toy_hash 2 toy_sort true [Request_flush] s = Next s1
  /\ s_client s1 = Flushing /\ live s1 <> [] /\ roomy 2 s1
  /\ along toy_hash 2 toy_sort true (fun e s => usual e s /\ roomy 2 s)
       (busy_run ++ [Request_flush]) (start true busy_limits [] [])
  /\ run toy_hash 2 toy_sort true busy_flush s1 = Next s2
  /\ along toy_hash 2 toy_sort true usual busy_flush s1 /\ ~ In Crash busy_flush
  /\ collision_free toy_hash (received s2) /\ distinct_times (received s2)
  /\ step toy_hash 2 toy_sort true Return s2 = Next s3.
Proof. exact busy_flush_example. Qed.
