(** C48: changing memory limits at runtime is exact. *)
From Coq Require Import ZArith List Bool String Permutation.
From Verif Require Import Model.Pipeline Spec.PipelineSpec Proofs.PipelineInvariant Proofs.PipelineCrash
  Proofs.PipelineResults Proofs.PipelineSeries Proofs.PipelineExamples Proofs.PipelineMore.
Import ListNotations.
Open Scope Z_scope.

(** When a change of a limit is complete, the limit is the old one plus the change, or nothing changed as memory
    for uncompressed buffers could not be freed, which is reported. Missing for the full statement: the
    hypotheses that exclude the cases below. *)
Theorem c48_limit_partial : forall hash capacity sort logging events limits e s s1 rest s' change f,
  sorts_points sort -> nonneg_limits limits ->
  run hash capacity sort logging events (start logging limits [] []) = Next s ->
  along hash capacity sort logging usual (events ++ e :: rest) (start logging limits [] []) ->
  step hash capacity sort logging e s = Next s1 -> run hash capacity sort logging rest s1 = Next s' ->
  Forall meanwhile rest ->
  collision_free hash (received s') -> distinct_times (received s') -> s_client s' = Idle ->
  (e = Adjust_uncompressed change /\ f = add_uncompressed
   \/ e = Adjust_compressed change /\ f = add_compressed
   \/ e = Adjust_ingested change /\ f = add_ingested) ->
  s_limits s' = f change (s_limits s)
  \/ e = Adjust_uncompressed change /\ change < 0 /\ s_limits s' = s_limits s.
Proof.
  intros hash capacity sort logging events limits e s s1 rest s' change f Hsort.
  exact (change_complete hash capacity sort logging Hsort events limits e s s1 rest s' change f).
Qed.
Print Assumptions c48_limit_partial.

(** Whenever no change is going on, remaining memory plus memory in use equals the limit, and no more than the
    limit is in use. *)
Theorem c48_usage_partial : forall hash capacity sort logging events limits s,
  sorts_points sort -> nonneg_limits limits ->
  run hash capacity sort logging events (start logging limits [] []) = Next s ->
  along hash capacity sort logging usual events (start logging limits [] []) ->
  collision_free hash (received s) -> distinct_times (received s) -> s_client s = Idle ->
  (along hash capacity sort logging (fits hash capacity) events (start logging limits [] []) ->
     uncompressed (s_pool s) + used_uncompressed capacity s = uncompressed (s_limits s)
     /\ used_uncompressed capacity s <= uncompressed (s_limits s))
  /\ (Forall single_field events -> being_reserved (s_writer s) = 0 ->
     compressed (s_pool s) + used_compressed s = compressed (s_limits s)
     /\ used_compressed s <= compressed (s_limits s)).
Proof.
  intros hash capacity sort logging events limits s Hsort.
  exact (usage_below hash capacity sort logging Hsort events limits s).
Qed.
Print Assumptions c48_usage_partial.

(** That nothing is dropped is C24: it holds for runs with changes of limits, too. *)
Theorem c48_conserved_partial : forall hash capacity sort logging events limits s,
  sorts_points sort ->
  run hash capacity sort logging events (start logging limits [] []) = Next s -> ~ In Crash events ->
  along hash capacity sort logging usual events (start logging limits [] []) ->
  healthy s -> collision_free hash (received s) -> distinct_times (received s) ->
  Permutation (received s) (saved s ++ live s).
Proof.
  intros hash capacity sort logging events limits s Hsort.
  exact (nothing_lost hash capacity sort Hsort logging events limits s).
Qed.
Print Assumptions c48_conserved_partial.

(** The use of memory for ingested batches is not brought below a lowered limit. *)
Theorem c48_ingested_refuted : exists events limits s,
  run toy_hash code_capacity toy_sort true events (start true limits [] []) = Next s
  /\ along toy_hash code_capacity toy_sort true usual events (start true limits [] [])
  /\ collision_free toy_hash (received s) /\ distinct_times (received s) /\ s_client s = Idle
  /\ ingested (s_limits s) = 10 /\ used_ingested s = 100.
Proof. exists lowered_run, taken_limits. exact lowered_witness. Qed.
Print Assumptions c48_ingested_refuted.

(** Lowering the limit of uncompressed memory drops a data point when the ingestion thread gets another one for
    the series while its buffer is being spilled. *)
Theorem c48_dropped_refuted : exists events limits s x,
  run toy_hash code_capacity toy_sort true events (start true limits [] []) = Next s
  /\ ~ In Crash events /\ Forall (fun e => spills_written e /\ commits_written e) events
  /\ collision_free toy_hash (received s) /\ distinct_times (received s) /\ healthy s /\ s_client s = Idle
  /\ In x (received s) /\ ~ In x (saved s ++ live s).
Proof.
  exists taken_run, taken_limits. destruct taken_witness as [s H]. exists s, dropped_item. exact H.
Qed.
Print Assumptions c48_dropped_refuted.

(** In this run the limits of uncompressed and compressed memory are lowered below what is used. *)
Example c48_example : nonneg_limits busy_limits /\ exists s,
  run toy_hash 2 toy_sort true busy_run (start true busy_limits [] []) = Next s
  /\ along toy_hash 2 toy_sort true (fun e s => usual e s /\ roomy 2 s) busy_run (start true busy_limits [] [])
  /\ along toy_hash 2 toy_sort true (fits toy_hash 2) busy_run (start true busy_limits [] [])
  /\ Forall single_field busy_run /\ ~ In Crash busy_run
  /\ collision_free toy_hash (received s) /\ distinct_times (received s) /\ roomy 2 s /\ healthy s
  /\ s_client s = Idle /\ List.length (received s) = 6%nat /\ saved s <> [] /\ live s <> [].
Proof. exact busy_example. Qed.

Example c48_limit_example : exists events e s s1 rest s',
  run toy_hash 2 toy_sort true events (start true busy_limits [] []) = Next s
  /\ along toy_hash 2 toy_sort true usual (events ++ e :: rest) (start true busy_limits [] [])
  /\ step toy_hash 2 toy_sort true e s = Next s1 /\ run toy_hash 2 toy_sort true rest s1 = Next s'
  /\ Forall meanwhile rest /\ collision_free toy_hash (received s') /\ distinct_times (received s')
  /\ s_client s' = Idle /\ e = Adjust_uncompressed (-24) /\ uncompressed (s_pool s) = 0
  /\ uncompressed (s_limits s') = 48.
Proof. exact change_example. Qed.
