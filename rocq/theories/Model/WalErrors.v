(** Errors of the file system while a write-ahead log is used:
    /repo/crates/modelardb_storage/src/write_ahead_log.rs.

    [Model.Wal] assumes that each operation on a file succeeds until the process crashes. Here each
    operation on a file may fail. The method that performs it returns the error with [?], so what
    it has done to the files and to its fields until then remains and the process goes on. A crash
    in the middle of a method is an error after which the process stops.

    Simplified: as in [Model.Wal]. After an incomplete batch, whatever is written later makes the
    file unreadable. The [StreamReader] of the crate arrow takes the bytes that follow for the rest
    of the incomplete batch. It may thus also return a batch that was never written, or end early.
    A batch whose [sync_data] fails is in the file. *)
From Coq Require Import ZArith List Bool.
From Verif Require Import Model.Base Model.Wal.
Import ListNotations.
Open Scope Z_scope.

Section WalErrors.
Context {B : Type} (memory_size : B -> Z).
Notation files_t := (list (name * file B)).

(** The log in memory, whether the [StreamWriter] of the active segment is finished, and whether
    its file was removed from the folder. A file that was removed can still be written to.
    [StreamWriter::write] returns an error if the writer is finished. *)
Record process : Type := Process {
  p_wal : wal;
  p_finished : bool;
  p_unlinked : bool }.

(** [writer.write(data)], l.378: a batch written after an incomplete one. *)
Definition write_batch (files : files_t) (n : name) (b : B) : option files_t :=
  match lookup files n with
  | Some f => if f_torn f then Some (with_file files n (File false (f_batches f) true))
              else apply_op files (WriteBatch n b)
  | None => None
  end.

(** Operations of a process. Those of the writer do not reach the folder if its file was removed. *)
Definition perform_op (unlinked : bool) (files : files_t) (op : fs_op B) : option files_t :=
  match op with
  | WriteBatch n b => if unlinked then Some files else write_batch files n b
  | Finish n => if unlinked then Some files else apply_op files op
  | _ => apply_op files op
  end.
Fixpoint perform (unlinked : bool) (files : files_t) (ops : list (fs_op B)) : option files_t :=
  match ops with
  | [] => Some files
  | op :: ops =>
      match perform_op unlinked files op with
      | Some files => perform unlinked files ops
      | None => None
      end
  end.

(** The part of a batch or of the end-of-stream marker that is written before an error. *)
Definition write_part (unlinked : bool) (files : files_t) (n : name) : files_t :=
  if unlinked then files
  else match lookup files n with
       | Some f => with_file files n (File (f_header f) (f_batches f) true)
       | None => files
       end.

(** Whether [append_and_sync] closes the active segment, l.403. *)
Definition closes (w : wal) (b : B) : bool := w_threshold w <=? w_size w + memory_size b.

(** The steps of [append_and_sync], l.371-408, and [close_active_segment], l.414-449, that may
    fail: [writer.write], l.378, [sync_data], l.386, [writer.finish], l.430, [rename], l.436,
    and creating the file and writing the schema in [ActiveSegment::try_new], l.446.
    [flush], l.381, does nothing as the writer is that of a [File]. *)
Inductive append_step : Type := Writing | Syncing | Finishing | Renaming | Creating | WritingSchema.

(** The number of the operations of [append] that precede the step. *)
Definition before (s : append_step) : nat :=
  match s with
  | Writing => 0 | Syncing => 1 | Finishing => 1 | Renaming => 2 | Creating => 3 | WritingSchema => 4
  end.

(** Whether the step is performed when [b] is appended. *)
Definition performs (w : wal) (b : B) (s : append_step) : bool :=
  match s with Writing | Syncing => true | _ => closes w b end.

(** The process after the step has failed: the id is incremented after [sync_data], l.389-392, and
    the closed segment is added after [rename], l.438-442. The active segment is only replaced if
    [ActiveSegment::try_new] returns, l.446. *)
Definition after_failed_append (p : process) (b : B) (s : append_step) : process :=
  let w := p_wal p in
  let counted closed := Wal (w_start w) (w_next w + 1) (w_size w + memory_size b) closed
                          (w_persisted w) (w_threshold w) in
  match s with
  | Writing | Syncing => p
  | Finishing => Process (counted (w_closed w)) false (p_unlinked p)
  | Renaming => Process (counted (w_closed w)) true (p_unlinked p)
  | Creating | WritingSchema =>
      Process (counted (w_closed w ++ [(w_start w, w_next w + 1 - 1)])) true (p_unlinked p)
  end.

(** The files after the step has failed. [partial] is whether a part was written before the error. *)
Definition files_after_failed_append (files : files_t) (p : process) (b : B) (s : append_step)
  (partial : bool) : option files_t :=
  match perform (p_unlinked p) files (firstn (before s) (fst (fst (append memory_size (p_wal p) b)))) with
  | Some files' =>
      Some (match s, partial with
            | Writing, true | Finishing, true =>
                write_part (p_unlinked p) files' (ActiveFile (w_start (p_wal p)))
            | _, _ => files'
            end)
  | None => None
  end.

(** [mark_batches_as_persisted], l.454-495, if deleting a file fails after [k] were deleted: the
    other segments are no longer in the list, and their ids are kept. *)
Definition after_failed_mark (w : wal) (ids : list Z) (k : nat) : wal :=
  let persisted := w_persisted w ++ ids in
  let to_delete := filter (is_fully_persisted persisted) (w_closed w) in
  let to_retain := filter (fun s => negb (is_fully_persisted persisted s)) (w_closed w) in
  let remaining := filter (fun id =>
    negb (existsb (fun s => (fst s <=? id) && (id <=? snd s)) (firstn k to_delete))) persisted in
  Wal (w_start w) (w_next w) (w_size w) to_retain remaining (w_threshold w).

(** What happens to a log, with the results that callers see. *)
Inductive io_event : Type :=
| Restarted (batches : list (Z * B))          (* the log was opened and the unpersisted batches read *)
| RestartFailed                               (* an operation failed while the log was opened *)
| Acknowledged (b : B) (id : Z)               (* appending returned [Ok(id)] *)
| Refused (b : B) (s : append_step) (partial : bool)  (* appending returned the error of the step *)
| Rejected (b : B)                            (* appending returned an error as the writer is finished *)
| IdsCommitted (ids : list Z)                 (* ids were committed to the Delta table *)
| IdsMarked (ids : list Z)
| MarkFailed (ids : list Z)
| LogTruncated
| TruncateFailed (removed : bool)             (* whether the active file had been removed *)
| ThresholdSet (t : Z)
| Stopped.

Definition io_state : Type := (storage B * option process)%type.
Definition io_initial : io_state := (Storage [] [], None).

Inductive io_step (listing : files_t -> files_t) : io_state -> io_event -> io_state -> Prop :=
| io_restarted : forall st threshold ops w files batches,
    open_log listing st threshold = (ops, Ok w) -> apply_ops (st_files st) ops = Some files ->
    unpersisted files w = Ok batches ->
    io_step listing (st, None) (Restarted batches)
      (Storage files (st_commits st), Some (Process w false false))
| io_restart_failed : forall st threshold k files,
    apply_ops (st_files st) (firstn k (fst (open_log listing st threshold))) = Some files ->
    io_step listing (st, None) RestartFailed (Storage files (st_commits st), None)
| io_acknowledged : forall st p b ops w' id files,
    p_finished p = false ->
    append memory_size (p_wal p) b = (ops, w', id) ->
    perform (p_unlinked p) (st_files st) ops = Some files ->
    io_step listing (st, Some p) (Acknowledged b id)
      (Storage files (st_commits st),
       Some (Process w' false (if closes (p_wal p) b then false else p_unlinked p)))
| io_refused : forall st p b s partial files,
    p_finished p = false -> performs (p_wal p) b s = true ->
    files_after_failed_append (st_files st) p b s partial = Some files ->
    io_step listing (st, Some p) (Refused b s partial)
      (Storage files (st_commits st), Some (after_failed_append p b s))
| io_rejected : forall st p b,
    p_finished p = true -> io_step listing (st, Some p) (Rejected b) (st, Some p)
| io_committed : forall st p ids,
    io_step listing (st, Some p) (IdsCommitted ids)
      (Storage (st_files st) (st_commits st ++ ids), Some p)
| io_marked : forall st p ids ops w' files,
    mark (p_wal p) ids = (ops, w') -> apply_ops (st_files st) ops = Some files ->
    io_step listing (st, Some p) (IdsMarked ids)
      (Storage files (st_commits st), Some (Process w' (p_finished p) (p_unlinked p)))
| io_mark_failed : forall st p ids k files,
    (k < length (fst (mark (B := B) (p_wal p) ids)))%nat ->
    apply_ops (st_files st) (firstn k (fst (mark (p_wal p) ids))) = Some files ->
    io_step listing (st, Some p) (MarkFailed ids)
      (Storage files (st_commits st),
       Some (Process (after_failed_mark (p_wal p) ids k) (p_finished p) (p_unlinked p)))
| io_truncated : forall st p ops w' files,
    truncate (p_wal p) = (ops, w') -> apply_ops (st_files st) ops = Some files ->
    io_step listing (st, Some p) LogTruncated
      (Storage files (st_commits st), Some (Process w' false false))
(** [truncate], l.578-626, changes its fields only if all operations succeed. The writer remains
    that of the removed file. *)
| io_truncate_failed : forall st p k files,
    (k < length (fst (truncate (B := B) (p_wal p))))%nat ->
    apply_ops (st_files st) (firstn k (fst (truncate (p_wal p)))) = Some files ->
    io_step listing (st, Some p) (TruncateFailed (length (w_closed (p_wal p)) <? k)%nat)
      (Storage files (st_commits st),
       Some (Process (p_wal p) (p_finished p)
               (p_unlinked p || (length (w_closed (p_wal p)) <? k)%nat)))
| io_threshold : forall st p t,
    io_step listing (st, Some p) (ThresholdSet t)
      (st, Some (Process (Wal (w_start (p_wal p)) (w_next (p_wal p)) (w_size (p_wal p))
                            (w_closed (p_wal p)) (w_persisted (p_wal p)) t)
                   (p_finished p) (p_unlinked p)))
| io_stopped : forall st p, io_step listing (st, Some p) Stopped (st, None).

Inductive io_run (listing : files_t -> files_t) : io_state -> list io_event -> io_state -> Prop :=
| io_run_nil : forall s, io_run listing s [] s
| io_run_cons : forall s e s' h s'', io_step listing s e s' -> io_run listing s' h s'' ->
    io_run listing s (e :: h) s''.

End WalErrors.
Arguments io_event : clear implicits.
Arguments io_state : clear implicits.
