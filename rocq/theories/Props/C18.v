(** C18: replay returns exactly the unpersisted batches. *)
From Coq Require Import ZArith List.
From Verif Require Import Model.Base Model.Wal Spec.WalSpec Proofs.WalHistories Proofs.WalWitnesses.
Import ListNotations.
Open Scope Z_scope.

(** The batches that are returned are those in the ledger of the history that are not known to be
    persisted, each once, with its id and in the order they were written. The ledger has one entry
    for each batch written since the log was truncated, see [explains]. Missing for the full
    statement: [sound_run] requires that the files show the next id when the log is opened. *)
Theorem c18_replay_partial : forall B (memory_size : B -> Z) listing h out s, lists listing ->
  sound_run memory_size listing initial 0 (h ++ [Replayed out]) s ->
  exists l, explained empty_ledger h l /\ out = filter (not_in (l_known l)) (l_log l).
Proof. intros B memory_size listing h out s H. exact (replayed_exactly memory_size listing H h out s). Qed.
Print Assumptions c18_replay_partial.

(** Without this requirement the batch 14, which is not persisted, is not returned. *)
Theorem c18_missing_refuted : exists s, run one as_is initial
  [Opened; Appended 10 0; Appended 11 1; Appended 12 2; Appended 13 3; Committed [2; 3]; Marked [2; 3];
   Crashed None None; Opened; Appended 14 2; Crashed None None; Opened; Replayed [(0, 10); (1, 11)]] s.
Proof. exact reuse_run. Qed.
Print Assumptions c18_missing_refuted.

Example c18_example : lists as_is /\ exists st w, sound_run one as_is initial 0
  [Opened; Appended 10 0; Appended 11 1; Appended 12 2; Committed [0; 1]; Marked [0; 1];
   Crashed (Some (13, 1%nat, false)) None; CrashedOpening 1; Opened; Replayed [(2, 12); (3, 13)];
   Appended 14 4; Committed [2]; Replayed [(2, 12); (3, 13); (4, 14)]; Marked [2];
   Replayed [(3, 13); (4, 14)]] (st, Some w)
  /\ map fst (st_files st) = [ActiveFile 4; ClosedFile 2 3].
Proof. split; [exact as_is_lists|exact example_sound]. Qed.
