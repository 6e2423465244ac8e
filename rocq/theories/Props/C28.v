(** C28: freeing compressed memory always succeeds. *)
From Coq Require Import ZArith List Bool String Permutation.
From Verif Require Import Model.Pipeline Spec.PipelineSpec Proofs.PipelineInvariant Proofs.PipelineCrash
  Proofs.PipelineResults Proofs.PipelineSeries Proofs.PipelineExamples Proofs.PipelineMore.
Import ListNotations.
Open Scope Z_scope.

(** No step of any thread or client panics, so the queue is never found empty. Missing for the full statement:
    the hypotheses that exclude the cases below. *)
Theorem c28_no_panic_partial : forall hash capacity sort logging events limits s e,
  sorts_points sort -> nonneg_limits limits ->
  run hash capacity sort logging events (start logging limits [] []) = Next s ->
  along hash capacity sort logging usual events (start logging limits [] []) ->
  collision_free hash (received s) -> distinct_times (received s) -> usual e s ->
  step hash capacity sort logging e s <> Aborted.
Proof.
  intros hash capacity sort logging events limits s e Hsort.
  exact (no_panic hash capacity sort logging Hsort events limits s e).
Qed.
Print Assumptions c28_no_panic_partial.

(** When the writer frees memory, or flushes, it can always continue, and its loops end. *)
Theorem c28_writer_partial : forall hash capacity sort logging events limits s,
  sorts_points sort -> nonneg_limits limits ->
  run hash capacity sort logging events (start logging limits [] []) = Next s ->
  along hash capacity sort logging usual events (start logging limits [] []) ->
  collision_free hash (received s) -> distinct_times (received s) ->
  match s_client s with Freeing _ | Saving _ _ _ => False | _ => True end ->
  match s_writer s with
  | Working _ => exists s', step hash capacity sort logging Work s = Next s'
  | Committing _ _ _ => exists s', step hash capacity sort logging (Commit true) s = Next s'
  | _ => True
  end
  /\ exists n, forall rest s', Forall by_writer rest -> run hash capacity sort logging rest s = Next s' ->
       (List.length rest <= n)%nat.
Proof.
  intros hash capacity sort logging events limits s Hsort.
  exact (writer_continues hash capacity sort logging Hsort events limits s).
Qed.
Print Assumptions c28_writer_partial.

(** When a client frees memory for a lower limit, its loop ends with enough memory. *)
Theorem c28_client_partial : forall hash capacity sort logging events limits s,
  sorts_points sort -> nonneg_limits limits ->
  run hash capacity sort logging events (start logging limits [] []) = Next s ->
  along hash capacity sort logging usual events (start logging limits [] []) ->
  collision_free hash (received s) -> distinct_times (received s) ->
  (exists change, s_client s = Freeing change) ->
  exists n s', run hash capacity sort logging (repeat Adjust n) s = Next s'
    /\ s_client s' = Idle /\ 0 <= compressed (s_pool s').
Proof.
  intros hash capacity sort logging events limits s Hsort.
  exact (client_continues hash capacity sort logging Hsort events limits s).
Qed.
Print Assumptions c28_client_partial.

(** The queue is found empty when a client lowers the limit while the writer saves a buffer. *)
Theorem c28_race_refuted : exists events limits s,
  run toy_hash code_capacity toy_sort true events (start true limits [] []) = Next s
  /\ ~ In Crash events /\ Forall (fun e => spills_written e /\ commits_written e) events
  /\ collision_free toy_hash (received s) /\ distinct_times (received s)
  /\ step toy_hash code_capacity toy_sort true Adjust s = Aborted.
Proof. exists raced_run, raced_limits. exact raced_witness. Qed.
Print Assumptions c28_race_refuted.

(** The queue is found empty when the limit is lowered after a commit failed during a flush, as the memory of
    the buffer is never returned. *)
Theorem c28_leak_refuted : exists events limits s,
  run toy_hash code_capacity toy_sort true events (start true limits [] []) = Next s
  /\ along toy_hash code_capacity toy_sort true undisturbed events (start true limits [] [])
  /\ collision_free toy_hash (received s) /\ distinct_times (received s)
  /\ undisturbed Adjust s /\ step toy_hash code_capacity toy_sort true Adjust s = Aborted.
Proof. exists (dropped_run ++ dropped_next), dropped_limits. exact leaked_witness. Qed.
Print Assumptions c28_leak_refuted.

(** The writer has a buffer to save to make room for segments, and later a client lowers the limit. *)
Example c28_example : exists s s' size change,
  nonneg_limits freeing_limits
  /\ run toy_hash 2 toy_sort true freeing_before (start true freeing_limits [] []) = Next s
  /\ along toy_hash 2 toy_sort true usual freeing_before (start true freeing_limits [] [])
  /\ s_writer s = Working (Reserve size) /\ compressed (s_pool s) < size
  /\ run toy_hash 2 toy_sort true (freeing_before ++ freeing_after) (start true freeing_limits [] []) = Next s'
  /\ along toy_hash 2 toy_sort true usual (freeing_before ++ freeing_after) (start true freeing_limits [] [])
  /\ s_client s' = Freeing change /\ compressed (s_pool s') < 0
  /\ collision_free toy_hash (received s') /\ distinct_times (received s').
Proof. exact freeing_example. Qed.
