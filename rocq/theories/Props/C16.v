(** C16: batch ids identify one batch forever. *)
From Coq Require Import ZArith List Sorted.
From Verif Require Import Model.Base Model.Wal Spec.WalSpec Proofs.WalHistories Proofs.WalWitnesses.
Import ListNotations.
Open Scope Z_scope.

(** The ids that are returned grow and are less than the number of batches written. Missing for the
    full statement: [sound_run] requires that the files show the next id when the log is opened. *)
Theorem c16_ids_grow_partial : forall B (memory_size : B -> Z) listing h s, lists listing ->
  sound_run memory_size listing initial 0 h s ->
  StronglySorted Z.lt (map fst (appended h)) /\ Forall (fun p => 0 <= fst p < count h) (appended h).
Proof. intros B memory_size listing h s H. exact (run_ids memory_size listing H h s). Qed.
Print Assumptions c16_ids_grow_partial.

(** No id was committed or marked before it is returned. *)
Theorem c16_fresh_partial : forall B (memory_size : B -> Z) listing h1 b i h2 s, lists listing ->
  sound_run memory_size listing initial 0 (h1 ++ Appended b i :: h2) s -> ~ In i (persisted h1).
Proof. intros B memory_size listing h1 b i h2 s H. exact (run_fresh memory_size listing H h1 b i h2 s). Qed.
Print Assumptions c16_fresh_partial.

(** A file never holds another batch under an id than the one the id was returned for. *)
Theorem c16_files_partial : forall B (memory_size : B -> Z) listing h s id b b', lists listing ->
  sound_run memory_size listing initial 0 h s ->
  held (st_files (fst s)) id b -> In (id, b') (appended h) -> b = b'.
Proof. intros B memory_size listing h s id b b' H. exact (held_appended memory_size listing H h s id b b'). Qed.
Print Assumptions c16_files_partial.

(** The batches 12 and 14 both got the id 2: the newest closed file was deleted before the active
    file had a batch. *)
Theorem c16_reused_refuted : exists s, run one as_is initial
  [Opened; Appended 10 0; Appended 11 1; Appended 12 2; Appended 13 3; Committed [2; 3]; Marked [2; 3];
   Crashed None None; Opened; Appended 14 2; Crashed None None; Opened; Replayed [(0, 10); (1, 11)]] s.
Proof. exact reuse_run. Qed.
Print Assumptions c16_reused_refuted.

(** The batches 10 and 11 both got the id 0: a crash while truncating left no file. *)
Theorem c16_reused_after_truncate_refuted : exists s, run one as_is initial
  [Opened; Appended 10 0; Committed [0]; Marked [0]; CrashedTruncating 1; Opened; Appended 11 0;
   Crashed None None; Opened; Replayed []] s.
Proof. exact truncate_crash_run. Qed.
Print Assumptions c16_reused_after_truncate_refuted.

(** The example of C15 has all kinds of events. *)
Example c16_example : lists as_is /\ appended example_history = [(0, 10); (1, 11); (2, 12); (4, 14)]
  /\ exists st w, sound_run one as_is initial 0 example_history (st, Some w)
     /\ map fst (st_files st) = [ActiveFile 4; ClosedFile 2 3].
Proof. split; [exact as_is_lists|]. split; [reflexivity|exact example_sound]. Qed.
