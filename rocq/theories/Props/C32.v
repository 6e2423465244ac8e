(** C32 - Transfer is triggered by size and never for dropped tables. *)
From Coq Require Import ZArith Bool String List Lia.
From Verif.Model Require Import Base Transfer.
From Verif.Spec Require Import TransferSpec.
From Verif.Proofs Require Import TransferProofs TransferSizes TransferBounds TransferExamples.
Import ListNotations.
Open Scope Z_scope.

(** In every execution, no step transfers a table that is marked as dropped: its remote rows stay
    as they are and none of its local rows is deleted. *)
Theorem c32_dropped : forall n batch events s e s' t,
  run events (start n batch) = Went s ->
  mem t (x_dropped s) = true ->
  step e s = Went s' ->
  x_remote s' t = x_remote s t /\ exists rows, x_local s' t = x_local s t ++ rows.
Proof. exact dropped_untouched. Qed.
Print Assumptions c32_dropped.

(** When nobody transfers, no table that is not dropped has reached the batch size.  Missing: a
    new batch size, failures, and the executions excluded in [c32_size_partial]. *)
Theorem c32_triggered_partial : forall n batch events s b t,
  (0 < n)%nat ->
  run events (start n batch) = Went s ->
  along unsigned events (start n batch) ->
  along one_transfer_at_a_time events (start n batch) ->
  along no_insert_race events (start n batch) ->
  along no_failure events (start n batch) ->
  along no_new_batch_size events (start n batch) ->
  (forall t, bytes_bounded t events) ->
  quiet s -> x_batch s = Some b -> 0 < b -> mem t (x_dropped s) = false ->
  recorded_size t s < b.
Proof. exact below_batch_size. Qed.
Print Assumptions c32_triggered_partial.

(** With changes of the batch size, no table exceeds the batch size. *)
Theorem c32_triggered_new_size_partial : forall n batch events s b t,
  (0 < n)%nat ->
  run events (start n batch) = Went s ->
  along unsigned events (start n batch) ->
  along one_transfer_at_a_time events (start n batch) ->
  along no_insert_race events (start n batch) ->
  along no_failure events (start n batch) ->
  (forall t, bytes_bounded t events) ->
  quiet s -> x_batch s = Some b -> 0 < b -> mem t (x_dropped s) = false ->
  recorded_size t s <= b.
Proof. exact at_most_batch_size. Qed.
Print Assumptions c32_triggered_new_size_partial.

(** [set_transfer_batch_size_in_bytes] compares with [>] and [increase_table_size] with [>=]: a
    table whose size equals the new batch size is not transferred. *)
Theorem c32_equal_refuted :
  exists events s, run events (start 2 (Some 100)) = Went s
    /\ along one_transfer_at_a_time events (start 2 (Some 100))
    /\ along no_insert_race events (start 2 (Some 100))
    /\ along no_failure events (start 2 (Some 100))
    /\ (forall t, bytes_bounded t events)
    /\ quiet s /\ x_batch s = Some 60 /\ x_dropped s = [] /\ recorded_size "wind" s = 60.
Proof. exact (ex_intro _ history_equal equal_case). Qed.
Print Assumptions c32_equal_refuted.

(** The recorded size of a table is never negative (which would wrap) and at most what was
    committed since the start of the server, when transfers of a table and its first two
    increases do not overlap. *)
Theorem c32_size_partial : forall n batch events s t,
  run events (start n batch) = Went s ->
  along unsigned events (start n batch) ->
  along one_transfer_at_a_time events (start n batch) ->
  along no_insert_race events (start n batch) ->
  bytes_bounded t events ->
  0 <= recorded_size t s <= bytes t 0 events.
Proof. exact size_bounded. Qed.
Print Assumptions c32_size_partial.

(** With two transfers at the same time the recorded size wraps around. *)
Theorem c32_size_refuted :
  exists events s, run events (start 2 (Some 100)) = Went s
    /\ along no_insert_race events (start 2 (Some 100))
    /\ bytes "wind" 0 events = 120
    /\ recorded_size "wind" s = 2 ^ 64 - 120.
Proof. exact size_wraps. Qed.
Print Assumptions c32_size_refuted.

(** In every execution, the only panic is the one of the periodic transfer when a data folder
    cannot be accessed; the sizes looked up are always recorded. *)
Theorem c32_no_panic : forall n batch events s e,
  run events (start n batch) = Went s ->
  step e s = Aborted ->
  exists i l p todo, e = Go i false
    /\ nth_error (x_tasks s) i = Some (Holds l (Transfers p todo Periodic)).
Proof. exact only_periodic_panics. Qed.
Print Assumptions c32_no_panic.

(** That panic happens: a failing periodic transfer aborts the server. *)
Theorem c32_periodic_refuted :
  exists events s, run events (start 2 (Some 100)) = Went s /\ step (Go 1 false) s = Aborted.
Proof. exact (ex_intro _ _ periodic_case). Qed.
Print Assumptions c32_periodic_refuted.

(** A dropped table above the batch size for which a client requests a transfer. *)
Example c32_dropped_example :
  exists s, run history_dropped (start 2 (Some 100)) = Went s
    /\ mem "wind" (x_dropped s) = true /\ recorded_size "wind" s = 120
    /\ x_local s "wind"%string = [1; 2; 3] /\ x_remote s "wind"%string = []
    /\ went (step (Transfer_all 0 ["wind"%string]) s) = true.
Proof. exact dropped_case. Qed.

(** A history that meets the hypotheses about sizes: of 180 committed bytes 110 were
    transferred. *)
Example c32_size_example :
  along unsigned history (start 2 (Some 100))
  /\ along one_transfer_at_a_time history (start 2 (Some 100))
  /\ along no_insert_race history (start 2 (Some 100))
  /\ along no_failure history (start 2 (Some 100))
  /\ along no_new_batch_size history (start 2 (Some 100))
  /\ (forall t, bytes_bounded t history)
  /\ exists s, run history (start 2 (Some 100)) = Went s /\ quiet s /\ x_batch s = Some 100
     /\ x_dropped s = [] /\ recorded_size "wind" s = 70 /\ bytes "wind" 0 history = 180.
Proof. exact history_sizes. Qed.
