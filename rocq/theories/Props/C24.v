(** C24: ingestion conserves data points. *)
From Coq Require Import ZArith List Bool String Permutation.
From Verif Require Import Model.Pipeline Spec.PipelineSpec Proofs.PipelineInvariant Proofs.PipelineCrash
  Proofs.PipelineResults Proofs.PipelineSeries Proofs.PipelineExamples Proofs.PipelineMore.
Import ListNotations.
Open Scope Z_scope.

(** At any point of any run without a crash, the data points received are exactly the ones in the tables and
    the ones in the pipeline. Missing for the full statement: the hypotheses that exclude the cases below. *)
Theorem c24_conserved_partial : forall hash capacity sort logging events limits s,
  sorts_points sort ->
  run hash capacity sort logging events (start logging limits [] []) = Next s ->
  ~ In Crash events ->
  along hash capacity sort logging (fun e s => undisturbed e s /\ spills_written e /\ commits_written e)
    events (start logging limits [] []) ->
  healthy s -> collision_free hash (received s) -> distinct_times (received s) ->
  Permutation (received s) (saved s ++ live s).
Proof.
  intros hash capacity sort logging events limits s Hsort.
  exact (nothing_lost hash capacity sort Hsort logging events limits s).
Qed.
Print Assumptions c24_conserved_partial.

(** [healthy] always holds if there is memory for two buffers. *)
Theorem c24_healthy_partial : forall hash capacity sort logging events limits s,
  sorts_points sort -> nonneg_limits limits ->
  run hash capacity sort logging events (start logging limits [] []) = Next s ->
  along hash capacity sort logging (fun e s => usual e s /\ roomy capacity s) events (start logging limits [] []) ->
  collision_free hash (received s) -> distinct_times (received s) -> healthy s.
Proof.
  intros hash capacity sort logging events limits s Hsort Hl.
  exact (healthy_from_start hash capacity sort logging Hsort events limits s Hl).
Qed.
Print Assumptions c24_healthy_partial.

(** A data point is lost when memory for a buffer is needed while all others are being compressed: the
    ingestion thread ends. *)
Theorem c24_memory_refuted : exists events limits s x,
  run toy_hash code_capacity toy_sort true events (start true limits [] []) = Next s /\ ~ In Crash events
  /\ along toy_hash code_capacity toy_sort true usual events (start true limits [] [])
  /\ collision_free toy_hash (received s) /\ distinct_times (received s)
  /\ In x (received s) /\ ~ In x (saved s ++ live s).
Proof.
  exists starved_run, starved_limits. destruct starved_witness as [s H]. exists s, starved_item. exact H.
Qed.
Print Assumptions c24_memory_refuted.

(** A data point is lost when two buffers of a series that start at the same time are spilled. *)
Theorem c24_timestamp_refuted : exists events limits s x,
  run toy_hash code_capacity toy_sort true events (start true limits [] []) = Next s /\ ~ In Crash events
  /\ along toy_hash code_capacity toy_sort true usual events (start true limits [] [])
  /\ collision_free toy_hash (received s) /\ healthy s
  /\ In x (received s) /\ ~ In x (saved s ++ live s).
Proof.
  exists twice_before, twice_limits. destruct replaced_witness as [s H]. exists s, replaced_item. exact H.
Qed.
Print Assumptions c24_timestamp_refuted.

Example c24_example : nonneg_limits busy_limits /\ exists s,
  run toy_hash 2 toy_sort true busy_run (start true busy_limits [] []) = Next s
  /\ along toy_hash 2 toy_sort true (fun e s => usual e s /\ roomy 2 s) busy_run (start true busy_limits [] [])
  /\ along toy_hash 2 toy_sort true (fits toy_hash 2) busy_run (start true busy_limits [] [])
  /\ Forall single_field busy_run /\ ~ In Crash busy_run
  /\ collision_free toy_hash (received s) /\ distinct_times (received s) /\ roomy 2 s /\ healthy s
  /\ s_client s = Idle /\ List.length (received s) = 6%nat /\ saved s <> [] /\ live s <> [].
Proof. exact busy_example. Qed.
