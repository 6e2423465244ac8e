(** C49: inserting data points completes. *)
From Coq Require Import ZArith List Bool String Permutation.
From Verif Require Import Model.Pipeline Spec.PipelineSpec Proofs.PipelineInvariant Proofs.PipelineCrash
  Proofs.PipelineResults Proofs.PipelineSeries Proofs.PipelineExamples Proofs.PipelineMore.
Import ListNotations.
Open Scope Z_scope.

(** An insert waits for memory for its batch. There is a number of steps after which the threads have nothing
    more to do, and as soon as that is so there is memory for the batch. Missing for the full statement: batches
    larger than the memory for batches, and the hypotheses of C30. *)
Theorem c49_completes_partial : forall hash capacity sort logging events limits s b,
  sorts_points sort -> nonneg_limits limits ->
  run hash capacity sort logging events (start logging limits [] []) = Next s ->
  along hash capacity sort logging (fun e s => usual e s /\ roomy capacity s) events (start logging limits [] []) ->
  roomy capacity s -> collision_free hash (received s) -> distinct_times (received s) ->
  s_client s = Inserting b -> b_size b <= ingested (s_limits s) ->
  exists n, forall rest s',
    Forall (fun e => by_threads e /\ spills_written e /\ commits_written e) rest ->
    run hash capacity sort logging rest s = Next s' ->
    (List.length rest <= n)%nat
    /\ (acts hash capacity sort logging s' \/ exists s'', step hash capacity sort logging Send s' = Next s'').
Proof.
  intros hash capacity sort logging events limits s b Hsort.
  exact (insert_completes hash capacity sort logging Hsort events limits s b).
Qed.
Print Assumptions c49_completes_partial.

(** A batch larger than the memory for batches waits forever, and with it all other calls of the storage
    engine. *)
Theorem c49_refuted : exists events limits s b,
  run toy_hash code_capacity toy_sort true events (start true limits [] []) = Next s
  /\ along toy_hash code_capacity toy_sort true usual events (start true limits [] [])
  /\ along toy_hash code_capacity toy_sort true (fun _ s => roomy code_capacity s) events (start true limits [] [])
  /\ collision_free toy_hash (received s) /\ distinct_times (received s) /\ s_client s = Inserting b
  /\ ~ acts toy_hash code_capacity toy_sort true s
  /\ step toy_hash code_capacity toy_sort true Send s = Blocked.
Proof. exists large_run, starved_limits. exact large_witness. Qed.
Print Assumptions c49_refuted.

(** An insert that has to wait. *)
Example c49_example : exists s b,
  nonneg_limits waiting_limits
  /\ run toy_hash 2 toy_sort true waiting_run (start true waiting_limits [] []) = Next s
  /\ along toy_hash 2 toy_sort true (fun e s => usual e s /\ roomy 2 s) waiting_run (start true waiting_limits [] [])
  /\ roomy 2 s /\ collision_free toy_hash (received s) /\ distinct_times (received s)
  /\ s_client s = Inserting b /\ b_size b <= ingested (s_limits s) /\ ingested (s_pool s) < b_size b.
Proof. exact waiting_example. Qed.
