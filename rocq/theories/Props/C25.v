(** C25: a buffer holds one time series only. *)
From Coq Require Import ZArith List Bool String Permutation.
From Verif Require Import Model.Pipeline Spec.PipelineSpec Proofs.PipelineInvariant Proofs.PipelineCrash
  Proofs.PipelineResults Proofs.PipelineSeries Proofs.PipelineExamples Proofs.PipelineMore.
Import ListNotations.
Open Scope Z_scope.

(** Whatever the clients and threads do, which limits are set, what fails and when the process crashes: a data
    point in a buffer, in compressed segments or in a table is a received one, of the table and with the tag
    values the buffer, the segments or the table have it for. Missing for the full statement: series must have
    different hashes. *)
Theorem c25_one_series_partial : forall hash capacity sort logging events limits s x,
  sorts_points sort ->
  run hash capacity sort logging events (start logging limits [] []) = Next s ->
  collision_free hash (received s) ->
  In x (saved s ++ live s) -> In x (received s).
Proof.
  intros hash capacity sort logging events limits s x Hsort H Hc.
  exact (series_kept hash capacity sort logging Hsort events limits s H Hc x).
Qed.
Print Assumptions c25_one_series_partial.

(** Tag values and the table name are hashed one after the other, so for every hash function the tag values a,
    bc and ab, c have the same hash and a data point of one is stored with the tag values of the other. *)
Theorem c25_refuted : forall hash sort, sorts_points sort -> exists events limits s x,
  run hash code_capacity sort true events (start true limits [] []) = Next s
  /\ In x (saved s) /\ ~ In x (received s).
Proof.
  intros hash sort Hsort. exists (mixed_before ++ Point true :: mixed_after), mixed_limits.
  exact (mixed_witness hash sort Hsort).
Qed.
Print Assumptions c25_refuted.

(** Two tables, four series. *)
Example c25_example : nonneg_limits busy_limits /\ exists s,
  run toy_hash 2 toy_sort true busy_run (start true busy_limits [] []) = Next s
  /\ along toy_hash 2 toy_sort true (fun e s => usual e s /\ roomy 2 s) busy_run (start true busy_limits [] [])
  /\ along toy_hash 2 toy_sort true (fits toy_hash 2) busy_run (start true busy_limits [] [])
  /\ Forall single_field busy_run /\ ~ In Crash busy_run
  /\ collision_free toy_hash (received s) /\ distinct_times (received s) /\ roomy 2 s /\ healthy s
  /\ s_client s = Idle /\ List.length (received s) = 6%nat /\ saved s <> [] /\ live s <> [].
Proof. exact busy_example. Qed.
