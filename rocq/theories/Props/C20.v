(** C20: truncating a table empties its log. *)
From Coq Require Import ZArith List.
From Verif Require Import Model.Base Model.Wal Spec.WalSpec Proofs.WalHistories Proofs.WalWitnesses.
Import ListNotations.
Open Scope Z_scope.

(** All batches returned after truncating were written afterwards, by appending them or by an append
    that was interrupted, and have ids that are not less than the number of batches written before.
    That batches appended afterwards are returned is [c15_survives_partial], and that their ids do
    not collide is [c16_ids_grow_partial]. Missing for the full statement: [sound_run] requires that
    the files show the next id when the log is opened. *)
Theorem c20_truncated_partial : forall B (memory_size : B -> Z) listing h1 h2 out s i b, lists listing ->
  sound_run memory_size listing initial 0 (h1 ++ Truncated :: h2 ++ [Replayed out]) s -> In (i, b) out ->
  count h1 <= i /\ (In (i, b) (appended h2)
    \/ exists ha a m hb, h2 = ha ++ Crashed a m :: hb /\ In b (written (Crashed a m)) /\ i = count h1 + count ha).
Proof.
  intros B memory_size listing h1 h2 out s i b H. exact (truncated_gone memory_size listing H h1 h2 out s i b).
Qed.
Print Assumptions c20_truncated_partial.

(** A crash while truncating can leave no file, so that ids start from 0 again. *)
Theorem c20_crash_refuted : exists s, run one as_is initial
  [Opened; Appended 10 0; Committed [0]; Marked [0]; CrashedTruncating 1; Opened; Appended 11 0;
   Crashed None None; Opened; Replayed []] s.
Proof. exact truncate_crash_run. Qed.
Print Assumptions c20_crash_refuted.

Example c20_example : exists s, sound_run one as_is initial 0
  [Opened; Appended 10 0; Appended 11 1; Appended 12 2; Truncated; Appended 13 3; Crashed None None;
   Opened; Replayed [(3, 13)]] s.
Proof. exact truncate_sound. Qed.
