(** C27: memory limits are never exceeded. *)
From Coq Require Import ZArith List Bool String Permutation.
From Verif Require Import Model.Pipeline Spec.PipelineSpec Proofs.PipelineInvariant Proofs.PipelineCrash
  Proofs.PipelineResults Proofs.PipelineSeries Proofs.PipelineExamples Proofs.PipelineMore.
Import ListNotations.
Open Scope Z_scope.

(** In any run the remaining memory and the memory in use add up to the configured amount: for ingested batches
    if the ingestion thread has not failed, for uncompressed buffers if no buffer is spilled to make room for
    another, and for compressed segments if tables have one field column. While a client changes a limit, the
    change is added, and while the writer makes room for segments it has already put in a buffer, their
    size. Missing for the full statement: the cases below. *)
Theorem c27_balance_partial : forall hash capacity sort logging events limits s,
  sorts_points sort -> nonneg_limits limits ->
  run hash capacity sort logging events (start logging limits [] []) = Next s ->
  along hash capacity sort logging usual events (start logging limits [] []) ->
  collision_free hash (received s) -> distinct_times (received s) ->
  (s_ingestion s <> Failed -> ingested (s_pool s) + used_ingested s = ingested (s_limits s))
  /\ (along hash capacity sort logging (fits hash capacity) events (start logging limits [] []) ->
      uncompressed (s_pool s) + used_uncompressed capacity s
      = uncompressed (s_limits s) + uncompressed_change (s_client s))
  /\ (Forall single_field events ->
      compressed (s_pool s) + used_compressed s
      = compressed (s_limits s) + compressed_change (s_client s) + being_reserved (s_writer s)).
Proof.
  intros hash capacity sort logging events limits s Hsort.
  exact (memory_balance hash capacity sort logging Hsort events limits s).
Qed.
Print Assumptions c27_balance_partial.

(** Without these conditions no memory for uncompressed buffers is leaked, and more than what remains is never
    reserved. *)
Theorem c27_not_leaked_partial : forall hash capacity sort logging events limits s,
  sorts_points sort -> nonneg_limits limits ->
  run hash capacity sort logging events (start logging limits [] []) = Next s ->
  along hash capacity sort logging usual events (start logging limits [] []) ->
  collision_free hash (received s) -> distinct_times (received s) ->
  uncompressed (s_limits s) + uncompressed_change (s_client s)
    <= uncompressed (s_pool s) + used_uncompressed capacity s
  /\ 0 <= uncompressed (s_pool s) - uncompressed_change (s_client s)
  /\ 0 <= compressed (s_pool s) - compressed_change (s_client s).
Proof.
  intros hash capacity sort logging events limits s Hsort.
  exact (memory_not_leaked hash capacity sort logging Hsort events limits s).
Qed.
Print Assumptions c27_not_leaked_partial.

(** Uncompressed buffers use twice the limit: no memory is reserved for a buffer that takes the place of a
    spilled one. *)
Theorem c27_uncompressed_refuted : exists events limits s,
  run toy_hash code_capacity toy_sort true events (start true limits [] []) = Next s
  /\ along toy_hash code_capacity toy_sort true usual events (start true limits [] [])
  /\ collision_free toy_hash (received s) /\ distinct_times (received s) /\ healthy s
  /\ uncompressed (s_limits s) = one /\ uncompressed (s_pool s) = 0
  /\ used_uncompressed code_capacity s = 2 * one.
Proof. exists exceeded_run, exceeded_limits. exact exceeded_witness. Qed.
Print Assumptions c27_uncompressed_refuted.

(** Compressed segments use more than the limit: saving segments of two field columns returns more memory
    than was reserved. *)
Theorem c27_compressed_refuted : exists events limits s,
  run toy_hash code_capacity toy_sort true events (start true limits [] []) = Next s
  /\ along toy_hash code_capacity toy_sort true usual events (start true limits [] [])
  /\ collision_free toy_hash (received s) /\ distinct_times (received s) /\ healthy s
  /\ s_client s = Idle /\ s_writer s = Waiting
  /\ compressed (s_limits s) = 10 /\ compressed (s_pool s) = 0 /\ used_compressed s = 15.
Proof. exists credited_run, credited_limits. exact credited_witness. Qed.
Print Assumptions c27_compressed_refuted.

Example c27_example : nonneg_limits busy_limits /\ exists s,
  run toy_hash 2 toy_sort true busy_run (start true busy_limits [] []) = Next s
  /\ along toy_hash 2 toy_sort true (fun e s => usual e s /\ roomy 2 s) busy_run (start true busy_limits [] [])
  /\ along toy_hash 2 toy_sort true (fits toy_hash 2) busy_run (start true busy_limits [] [])
  /\ Forall single_field busy_run /\ ~ In Crash busy_run
  /\ collision_free toy_hash (received s) /\ distinct_times (received s) /\ roomy 2 s /\ healthy s
  /\ s_client s = Idle /\ List.length (received s) = 6%nat /\ saved s <> [] /\ live s <> [].
Proof. exact busy_example. Qed.
