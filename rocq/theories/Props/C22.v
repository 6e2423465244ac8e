(** C22: no acknowledged data point is lost by a crash. *)
From Coq Require Import ZArith List Bool String Permutation.
From Verif Require Import Model.Pipeline Spec.PipelineSpec Proofs.PipelineInvariant Proofs.PipelineCrash
  Proofs.PipelineResults Proofs.PipelineSeries Proofs.PipelineExamples Proofs.PipelineMore.
Import ListNotations.
Open Scope Z_scope.

(** False: a batch counts as persisted when any of its data points is committed, so a crash loses its other
    data points. In the run below nothing fails but the process, at one moment. *)
Theorem c22_refuted : exists events limits s x,
  run toy_hash code_capacity toy_sort true events (start true limits [] []) = Next s
  /\ along toy_hash code_capacity toy_sort true usual events (start true limits [] [])
  /\ collision_free toy_hash (received s) /\ distinct_times (received s) /\ healthy s
  /\ s_client s = Idle /\ In x (received s) /\ ~ In x (saved s ++ live s).
Proof.
  exists (lost_before ++ Crash :: lost_after), lost_limits.
  destruct lost_witness as [s H]. exists s, lost_item. exact H.
Qed.
Print Assumptions c22_refuted.

(** A data point received before or after a crash is only lost if another data point of its batch is
    committed. Missing for the full statement: the case it refutes. *)
Theorem c22_lost_with_saved_partial : forall hash capacity sort before after limits s x,
  sorts_points sort ->
  run hash capacity sort true (before ++ Crash :: after) (start true limits [] []) = Next s ->
  along hash capacity sort true (fun e s => undisturbed e s /\ spills_written e)
    (before ++ Crash :: after) (start true limits [] []) ->
  ~ In Crash after -> Forall commits_written after -> healthy s ->
  collision_free hash (received s) -> distinct_times (received s) ->
  In x (received s) ->
  In x (saved s ++ live s)
  \/ exists b y, In b (s_log s) /\ In x (batch_items b) /\ In y (batch_items b) /\ y <> x /\ In y (saved s).
Proof.
  intros hash capacity sort before after limits s x Hsort.
  exact (lost_with_saved hash capacity sort Hsort before after limits s x).
Qed.
Print Assumptions c22_lost_with_saved_partial.

(** So batches of one data point are never lost. *)
Theorem c22_single_rows_partial : forall hash capacity sort before after limits s b,
  sorts_points sort ->
  run hash capacity sort true (before ++ Crash :: after) (start true limits [] []) = Next s ->
  along hash capacity sort true (fun e s => undisturbed e s /\ spills_written e)
    (before ++ Crash :: after) (start true limits [] []) ->
  ~ In Crash after -> Forall commits_written after -> healthy s ->
  collision_free hash (received s) -> distinct_times (received s) ->
  In b (s_log s) -> List.length (b_rows b) = 1%nat ->
  forall x, In x (batch_items b) -> In x (saved s ++ live s).
Proof.
  intros hash capacity sort before after limits s b Hsort.
  exact (single_rows_kept hash capacity sort Hsort before after limits s b).
Qed.
Print Assumptions c22_single_rows_partial.

(** The run of [c22_refuted] meets these hypotheses, and its second batch has one data point. *)
Example c22_example : exists s b,
  run toy_hash code_capacity toy_sort true (lost_before ++ Crash :: lost_after) (start true lost_limits [] []) = Next s
  /\ along toy_hash code_capacity toy_sort true (fun e s => undisturbed e s /\ spills_written e)
       (lost_before ++ Crash :: lost_after) (start true lost_limits [] [])
  /\ ~ In Crash lost_after /\ Forall commits_written lost_after /\ healthy s
  /\ collision_free toy_hash (received s) /\ distinct_times (received s)
  /\ In b (s_log s) /\ List.length (b_rows b) = 1%nat /\ List.length (s_log s) = 2%nat.
Proof. exact lost_example. Qed.
