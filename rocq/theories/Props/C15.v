(** C15: acknowledged batches survive a crash. *)
From Coq Require Import ZArith List.
From Verif Require Import Model.Base Model.Wal Spec.WalSpec Proofs.WalHistories Proofs.WalWitnesses.
Import ListNotations.
Open Scope Z_scope.

(** A batch that was appended is returned for replay after any number of operations, restarts and
    crashes between any two file system operations, until its id is committed or the log is
    truncated. Missing for the full statement: [sound_run] requires that the files show the next
    id when the log is opened, see [c15_lost_refuted] and [c15_reopen_fails_refuted]. *)
Theorem c15_survives_partial : forall B (memory_size : B -> Z) listing h1 b i h2 out s, lists listing ->
  sound_run memory_size listing initial 0 (h1 ++ Appended b i :: h2 ++ [Replayed out]) s ->
  Forall (fun e => ~ truncating e) h2 -> ~ In i (persisted h2) -> In (i, b) out.
Proof. intros B memory_size listing h1 b i h2 out s H. exact (appended_replayed memory_size listing H h1 b i h2 out s). Qed.
Print Assumptions c15_survives_partial.

(** It is in one of the files at any time, also if the log cannot be opened afterwards. *)
Theorem c15_on_disk_partial : forall B (memory_size : B -> Z) listing h1 b i h2 s, lists listing ->
  sound_run memory_size listing initial 0 (h1 ++ Appended b i :: h2) s ->
  Forall (fun e => ~ truncating e) h2 -> ~ In i (persisted h2) -> held (st_files (fst s)) i b.
Proof. intros B memory_size listing h1 b i h2 s H. exact (appended_held memory_size listing H h1 b i h2 s). Qed.
Print Assumptions c15_on_disk_partial.

(** The files of a log in use show the next id, so it can be opened again after a crash, if there
    is a batch in the active file, if there are no closed files, or if the newest closed file has
    not been deleted. *)
Theorem c15_reopen : forall B (memory_size : B -> Z) listing h st w, lists listing ->
  sound_run memory_size listing initial 0 h (st, Some w) ->
  (exists s f, In (ActiveFile s, f) (st_files st) /\ f_batches f <> [])
  \/ (forall c e g, ~ In (ClosedFile c e, g) (st_files st))
  \/ (exists c g, In (ClosedFile c (count h - 1), g) (st_files st)) ->
  shows_next (st_files st) (count h).
Proof. intros B memory_size listing h st w H. exact (running_shows memory_size listing H h st w). Qed.
Print Assumptions c15_reopen.

(** Operations on a log in use do not fail. *)
Theorem c15_progress : forall B (memory_size : B -> Z) listing h st w, lists listing ->
  sound_run memory_size listing initial 0 h (st, Some w) ->
  (forall b, exists s', step memory_size listing (st, Some w) (Appended b (count h)) s')
  /\ (forall ids, incl ids (st_commits st) -> exists s', step memory_size listing (st, Some w) (Marked ids) s')
  /\ (exists s', step memory_size listing (st, Some w) Truncated s')
  /\ (exists out s', step memory_size listing (st, Some w) (Replayed out) s').
Proof. intros B memory_size listing h st w H. exact (operations_succeed memory_size listing H h st w). Qed.
Print Assumptions c15_progress.

(** The batch 14 was appended, was never committed, and is not returned: the newest closed file was
    deleted before the active file had a batch, so the next id was taken from an older closed file
    and the batch got an id that was committed before. *)
Theorem c15_lost_refuted : exists s, run one as_is initial
  [Opened; Appended 10 0; Appended 11 1; Appended 12 2; Appended 13 3; Committed [2; 3]; Marked [2; 3];
   Crashed None None; Opened; Appended 14 2; Crashed None None; Opened; Replayed [(0, 10); (1, 11)]] s.
Proof. exact reuse_run. Qed.
Print Assumptions c15_lost_refuted.

(** After a crash between creating an active file and writing its schema the log cannot be opened. *)
Theorem c15_reopen_fails_refuted : exists st, run one as_is initial
  [Opened; Appended 10 0; Crashed (Some (11, 4%nat, false)) None] (st, None)
  /\ forall threshold, snd (open_log as_is st threshold) = Err.
Proof. exact headerless_run. Qed.
Print Assumptions c15_reopen_fails_refuted.

(** A history with a deleted file, a crash while appending, and a crash while recovering. *)
Example c15_example : lists as_is /\ exists st w, sound_run one as_is initial 0
  [Opened; Appended 10 0; Appended 11 1; Appended 12 2; Committed [0; 1]; Marked [0; 1];
   Crashed (Some (13, 1%nat, false)) None; CrashedOpening 1; Opened; Replayed [(2, 12); (3, 13)];
   Appended 14 4; Committed [2]; Replayed [(2, 12); (3, 13); (4, 14)]; Marked [2];
   Replayed [(3, 13); (4, 14)]] (st, Some w)
  /\ map fst (st_files st) = [ActiveFile 4; ClosedFile 2 3].
Proof. split; [exact as_is_lists|exact example_sound]. Qed.
