(** C21: write-ahead log operations cannot deadlock. *)
From Coq Require Import List.
From Verif Require Import Model.WalLocks Proofs.WalLocksProofs.
Import ListNotations.

(** For any number of threads that perform any operations, and any order of their actions: all have
    finished or one can continue. *)
Theorem c21_no_deadlock : forall opss ts, threads_run (map start_thread opss) ts ->
  Forall finished ts \/ exists ts', threads_step ts ts'.
Proof. exact run_progress. Qed.
Print Assumptions c21_no_deadlock.

(** They do not continue forever, so all finish whatever the order of their actions. *)
Theorem c21_terminates : forall opss ts, threads_run (map start_thread opss) ts ->
  Acc (fun ts' ts => threads_step ts ts') ts.
Proof. exact run_terminates. Qed.
Print Assumptions c21_terminates.

(** No lock is held by two threads, or twice by the same. *)
Theorem c21_exclusive : forall opss ts, threads_run (map start_thread opss) ts -> NoDup (flat_map t_held ts).
Proof. exact run_exclusive. Qed.
Print Assumptions c21_exclusive.

(** Three threads, each waiting for or holding a lock. *)
Example c21_example : threads_run (map start_thread [[Append true; Mark]; [Truncate]; [Mark]])
  [Thread [ActiveLock] [Work; Acquire ClosedLock; Work; Release ClosedLock; Release ActiveLock] [Mark];
   Thread [PersistedLock] [Acquire ActiveLock; Acquire ClosedLock; Work; Release ClosedLock;
     Release ActiveLock; Release PersistedLock] [];
   Thread [] [Acquire PersistedLock; Work; Acquire ClosedLock; Work; Release ClosedLock;
     Release PersistedLock] []].
Proof.
  eapply threads_next. eapply threads_next. eapply threads_next. eapply threads_next. eapply threads_next.
  apply threads_refl.
  - apply (threads_act []). apply act_start.
  - apply (threads_act [_]). apply act_start.
  - apply (threads_act [_; _]). apply act_start.
  - apply (threads_act []). now apply act_acquire.
  - apply (threads_act [_]). now apply act_acquire.
Qed.
