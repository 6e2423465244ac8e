(** C31 - Transfer to the remote data folder neither loses nor duplicates data. *)
From Coq Require Import ZArith Bool String List Permutation.
From Verif.Model Require Import Base Transfer.
From Verif.Spec Require Import TransferSpec.
From Verif.Proofs Require Import TransferProofs TransferExamples.
Import ListNotations.
Open Scope Z_scope.

(** Every committed row is in exactly one of the two tables, as often as it was committed, when
    no table is written between the scan and the truncation of a transfer of it, no table is
    transferred by two tasks at once, and neither a crash nor a failure falls between the write
    to the remote table and the truncation.  Missing: the executions excluded; the statement is
    false for each of them, see below. *)
Theorem c31_exactly_once_partial : forall n batch events s t,
  run events (start n batch) = Went s ->
  along no_save_while_moving events (start n batch) ->
  along one_transfer_at_a_time events (start n batch) ->
  along truncates_what_is_written events (start n batch) ->
  (forall a, In a (x_tasks s) -> ~ has_written t a) ->
  Permutation (saved t events) (x_local s t ++ x_remote s t).
Proof. exact exactly_once. Qed.
Print Assumptions c31_exactly_once_partial.

(** No committed row is lost, whatever crashes, fails or overlaps, when no table is written
    between the scan and the truncation of a transfer of it. *)
Theorem c31_nothing_lost_partial : forall n batch events s t,
  run events (start n batch) = Went s ->
  along no_save_while_moving events (start n batch) ->
  incl (saved t events) (x_local s t ++ x_remote s t).
Proof. exact nothing_lost. Qed.
Print Assumptions c31_nothing_lost_partial.

(** In every execution the two tables only contain rows that were committed to the table. *)
Theorem c31_nothing_invented : forall n batch events s t,
  run events (start n batch) = Went s ->
  incl (x_local s t ++ x_remote s t) (saved t events).
Proof. exact nothing_invented. Qed.
Print Assumptions c31_nothing_invented.

(** A row committed between the scan and the truncation is lost, without any failure. *)
Theorem c31_loss_refuted :
  exists events s, run events (start 2 (Some 100)) = Went s
    /\ along one_transfer_at_a_time events (start 2 (Some 100))
    /\ along no_failure events (start 2 (Some 100))
    /\ In 3 (saved "wind" events) /\ ~ In 3 (x_local s "wind"%string ++ x_remote s "wind"%string).
Proof. exact (ex_intro _ history_loss loss_case). Qed.
Print Assumptions c31_loss_refuted.

(** A crash between the write to the remote table and the truncation duplicates the rows. *)
Theorem c31_crash_refuted :
  exists events s, run events (start 2 (Some 100)) = Went s
    /\ along no_save_while_moving events (start 2 (Some 100))
    /\ along no_failure events (start 2 (Some 100))
    /\ saved "wind" events = [1; 2]
    /\ x_local s "wind"%string ++ x_remote s "wind"%string = [1; 2; 1; 2].
Proof. exact (ex_intro _ history_duplicate duplicate_case). Qed.
Print Assumptions c31_crash_refuted.

(** So do two transfers of the table at the same time, without any crash or failure. *)
Theorem c31_overlap_refuted :
  exists events s, run events (start 2 (Some 100)) = Went s
    /\ along no_save_while_moving events (start 2 (Some 100))
    /\ along no_failure events (start 2 (Some 100))
    /\ along no_insert_race events (start 2 (Some 100))
    /\ saved "wind" events = [1; 2]
    /\ x_local s "wind"%string ++ x_remote s "wind"%string = [1; 2; 1; 2]
    /\ bytes "wind" 0 events = 120
    /\ recorded_size "wind" s = 2 ^ 64 - 120.
Proof. exact (ex_intro _ history_overlap overlap_case). Qed.
Print Assumptions c31_overlap_refuted.

(** A history that meets the hypotheses: three rows are transferred, a fourth is saved later. *)
Example c31_example :
  exists s, run history (start 2 (Some 100)) = Went s
    /\ along no_save_while_moving history (start 2 (Some 100))
    /\ along one_transfer_at_a_time history (start 2 (Some 100))
    /\ along truncates_what_is_written history (start 2 (Some 100))
    /\ (forall a, In a (x_tasks s) -> ~ has_written "wind" a)
    /\ saved "wind" history = [1; 2; 3; 4]
    /\ x_local s "wind"%string = [4] /\ x_remote s "wind"%string = [1; 2; 3].
Proof. exact history_case. Qed.

(** A history with a failed write to the remote table and a crash. *)
Example c31_crash_example :
  exists s, run history_crash (start 2 (Some 100)) = Went s
    /\ along no_save_while_moving history_crash (start 2 (Some 100))
    /\ saved "wind" history_crash = [1; 2; 3; 4]
    /\ x_local s "wind"%string = [4] /\ x_remote s "wind"%string = [1; 2; 3].
Proof. exact crash_case. Qed.
