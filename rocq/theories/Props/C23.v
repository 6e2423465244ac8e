(** C23: no data point is stored twice by recovery. *)
From Coq Require Import ZArith List Bool String Permutation.
From Verif Require Import Model.Pipeline Spec.PipelineSpec Proofs.PipelineInvariant Proofs.PipelineCrash
  Proofs.PipelineResults Proofs.PipelineSeries Proofs.PipelineExamples Proofs.PipelineMore.
Import ListNotations.
Open Scope Z_scope.

(** After any run with any number of crashes, the data points in the tables and in the pipeline are among
    the received ones, each as often as it was received. Missing for the full statement: series must have
    different hashes and the data points of a series different timestamps, no client may lower a memory limit
    while a thread takes the same buffers, and spilled buffers are written. *)
Theorem c23_nothing_twice_partial : forall hash capacity sort logging events limits s,
  sorts_points sort ->
  run hash capacity sort logging events (start logging limits [] []) = Next s ->
  along hash capacity sort logging (fun e s => undisturbed e s /\ spills_written e)
    events (start logging limits [] []) ->
  collision_free hash (received s) -> distinct_times (received s) ->
  exists missing, Permutation (received s) ((saved s ++ live s) ++ missing).
Proof.
  intros hash capacity sort logging events limits s Hsort.
  exact (nothing_twice hash capacity sort Hsort logging events limits s).
Qed.
Print Assumptions c23_nothing_twice_partial.

(** False if two data points of a series have the same timestamp: the file of a spilled buffer is replaced
    by one with data points of another batch, which are then committed with the id of the first batch. *)
Theorem c23_refuted : exists events limits s x,
  run toy_hash code_capacity toy_sort true events (start true limits [] []) = Next s
  /\ along toy_hash code_capacity toy_sort true usual events (start true limits [] [])
  /\ collision_free toy_hash (received s) /\ healthy s /\ s_client s = Idle
  /\ count_occ item_dec (received s) x = 1%nat /\ count_occ item_dec (saved s) x = 2%nat.
Proof.
  exists (twice_before ++ twice_after), twice_limits.
  destruct twice_witness as [s H]. exists s, twice_item. exact H.
Qed.
Print Assumptions c23_refuted.

(** A run with a crash that meets the hypotheses. *)
Example c23_example : exists s b,
  run toy_hash code_capacity toy_sort true (lost_before ++ Crash :: lost_after) (start true lost_limits [] []) = Next s
  /\ along toy_hash code_capacity toy_sort true (fun e s => undisturbed e s /\ spills_written e)
       (lost_before ++ Crash :: lost_after) (start true lost_limits [] [])
  /\ ~ In Crash lost_after /\ Forall commits_written lost_after /\ healthy s
  /\ collision_free toy_hash (received s) /\ distinct_times (received s)
  /\ In b (s_log s) /\ List.length (b_rows b) = 1%nat /\ List.length (s_log s) = 2%nat.
Proof. exact lost_example. Qed.
