(** C17: log files are deleted only when fully persisted. *)
From Coq Require Import ZArith List.
From Verif Require Import Model.Base Model.Wal Spec.WalSpec Proofs.WalHistories Proofs.WalWitnesses.
Import ListNotations.
Open Scope Z_scope.

(** If a closed file is there before any operation, crash or restart but truncating, and not there
    afterwards, all ids in its name have been committed. *)
Theorem c17_deleted : forall B (memory_size : B -> Z) listing h s e s' a b f, lists listing ->
  sound_run memory_size listing initial 0 h s -> allowed s (count h) e ->
  step memory_size listing s e s' -> ~ truncating e ->
  In (ClosedFile a b, f) (st_files (fst s)) -> (forall g, ~ In (ClosedFile a b, g) (st_files (fst s'))) ->
  forall id, a <= id <= b -> In id (st_commits (fst s')).
Proof.
  intros B memory_size listing h s e s' a b f H. exact (closed_deleted memory_size listing H h s e s' a b f).
Qed.
Print Assumptions c17_deleted.

(** These are the ids of the batches in the file. *)
Theorem c17_names : forall B (memory_size : B -> Z) listing h s a e f, lists listing ->
  sound_run memory_size listing initial 0 h s -> In (ClosedFile a e, f) (st_files (fst s)) ->
  Z.of_nat (length (f_batches f)) = e - a + 1 /\ a <= e.
Proof. intros B memory_size listing h s a e f H. exact (closed_length memory_size listing H h s a e f). Qed.
Print Assumptions c17_names.

(** A batch in any file, also the active one, is still in a file under the same id unless the id
    has been committed. *)
Theorem c17_kept : forall B (memory_size : B -> Z) listing h s e s' id b, lists listing ->
  sound_run memory_size listing initial 0 h s -> allowed s (count h) e ->
  step memory_size listing s e s' -> ~ truncating e ->
  held (st_files (fst s)) id b -> ~ In id (st_commits (fst s')) -> held (st_files (fst s')) id b.
Proof.
  intros B memory_size listing h s e s' id b H. exact (step_keeps_files memory_size listing H h s e s' id b).
Qed.
Print Assumptions c17_kept.

(** A closed file is deleted. *)
Example c17_example : exists s s', sound_run one as_is initial 0
    [Opened; Appended 10 0; Appended 11 1; Appended 12 2; Committed [0; 1]] s
  /\ allowed s 3 (Marked [0; 1]) /\ step one as_is s (Marked [0; 1]) s'
  /\ map fst (st_files (fst s)) = [ActiveFile 2; ClosedFile 0 1]
  /\ map fst (st_files (fst s')) = [ActiveFile 2].
Proof. exact delete_example. Qed.
