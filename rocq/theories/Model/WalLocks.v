(** The locks of a table's write-ahead log: /repo/crates/modelardb_storage/src/write_ahead_log.rs.

    Any number of threads perform operations. A thread acquires the locks of an operation one by
    one, and any thread can do its next action at any time. A lock cannot be acquired while any
    thread holds it, also if it is the same thread. Work without locking is one action that
    succeeds or fails; if it fails, the operation returns and the locks it holds are released in
    the reverse order, as for all guards in Rust. Panics abort the process. *)
From Coq Require Import List Bool Arith.
Import ListNotations.

(** [SegmentedLog], l.302-317. *)
Inductive lock : Type := PersistedLock | ActiveLock | ClosedLock.
Definition lock_eqb (a b : lock) : bool :=
  match a, b with
  | PersistedLock, PersistedLock | ActiveLock, ActiveLock | ClosedLock, ClosedLock => true
  | _, _ => false
  end.

Inductive action : Type := Acquire (l : lock) | Release (l : lock) | Work.

Inductive operation : Type := Append (closes : bool) | Mark | Unpersisted | Truncate.

Definition actions (o : operation) : list action :=
  match o with
  | Append closes => (* [append_and_sync], l.371-408, and [close_active_segment], l.414-449 *)
      [Acquire ActiveLock; Work]
      ++ (if closes then [Acquire ClosedLock; Work; Release ClosedLock] else [])
      ++ [Release ActiveLock]
  | Mark => (* [mark_batches_as_persisted], l.454-495 *)
      [Acquire PersistedLock; Work; Acquire ClosedLock; Work; Release ClosedLock; Release PersistedLock]
  | Unpersisted => (* [unpersisted_batches], l.526-538, and [all_batches], l.541-575 *)
      [Acquire PersistedLock; Acquire ActiveLock; Acquire ClosedLock; Work; Release ClosedLock;
       Release ActiveLock; Work; Release PersistedLock]
  | Truncate => (* [truncate], l.578-627 *)
      [Acquire PersistedLock; Acquire ActiveLock; Acquire ClosedLock; Work; Release ClosedLock;
       Release ActiveLock; Release PersistedLock]
  end.

(** The locks a thread holds, the latest first, what remains of its operation, and the operations
    that it performs afterwards. *)
Record thread : Type := Thread {
  t_held : list lock;
  t_rest : list action;
  t_ops : list operation }.

Definition holds (l : lock) (t : thread) : bool := existsb (lock_eqb l) (t_held t).
Definition free (l : lock) (ts : list thread) : bool := negb (existsb (holds l) ts).
Definition release (l : lock) (held : list lock) : list lock := filter (fun l' => negb (lock_eqb l l')) held.

(** What a thread can do among all threads [ts]. *)
Inductive act (ts : list thread) : thread -> thread -> Prop :=
| act_start : forall held o ops, act ts (Thread held [] (o :: ops)) (Thread held (actions o) ops)
| act_acquire : forall held l rest ops, free l ts = true ->
    act ts (Thread held (Acquire l :: rest) ops) (Thread (l :: held) rest ops)
| act_release : forall held l rest ops,
    act ts (Thread held (Release l :: rest) ops) (Thread (release l held) rest ops)
| act_work : forall held rest ops, act ts (Thread held (Work :: rest) ops) (Thread held rest ops)
| act_fail : forall held rest ops,
    act ts (Thread held (Work :: rest) ops) (Thread held (map Release held) ops).

Inductive threads_step : list thread -> list thread -> Prop :=
| threads_act : forall before t t' after, act (before ++ t :: after) t t' ->
    threads_step (before ++ t :: after) (before ++ t' :: after).

Inductive threads_run : list thread -> list thread -> Prop :=
| threads_refl : forall ts, threads_run ts ts
| threads_next : forall ts ts' ts'', threads_run ts ts' -> threads_step ts' ts'' -> threads_run ts ts''.

Definition start_thread (ops : list operation) : thread := Thread [] [] ops.
Definition finished (t : thread) : Prop := t = Thread [] [] [].
