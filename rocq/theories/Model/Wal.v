(** The write-ahead log of a table: /repo/crates/modelardb_storage/src/write_ahead_log.rs.

    A log consists of files in a folder and of a part in memory. An operation is the list of file
    system operations it performs, in order, and the state in memory it results in, so a crash can
    be placed between any two file system operations and within the writing of a batch.

    Simplified: the names of files are their start and end ids instead of strings. Record batches
    are of any type [B] with any size in memory. Ids and sizes do not reach 2^64. A file system
    operation that was executed is not undone by a crash. The commit history of the Delta table is
    the list of the ids in its [batchIds], l.500-521. *)
From Coq Require Import ZArith List Bool.
From Verif Require Import Model.Base.
Import ListNotations.
Open Scope Z_scope.

Section Wal.
Context {B : Type} (memory_size : B -> Z).

(** ** Files *)

(** [{start_id}-.arrows], l.269, and [{start_id}-{end_id}.arrows], l.434. *)
Inductive name : Type :=
| ActiveFile (start : Z)
| ClosedFile (start end_id : Z).

Definition name_eqb (a b : name) : bool :=
  match a, b with
  | ActiveFile s, ActiveFile s' => s =? s'
  | ClosedFile s e, ClosedFile s' e' => (s =? s') && (e =? e')
  | _, _ => false
  end.

(** A file in Arrow IPC streaming format: whether the schema has been written, the batches that
    were written completely, and whether an incomplete batch follows. *)
Record file : Type := File {
  f_header : bool;
  f_batches : list B;
  f_torn : bool }.

(** The files in the folder in the order they are listed, and the ids in the commits of the Delta
    table. *)
Record storage : Type := Storage {
  st_files : list (name * file);
  st_commits : list Z }.

Definition lookup (files : list (name * file)) (n : name) : option file :=
  match find (fun p => name_eqb (fst p) n) files with Some p => Some (snd p) | None => None end.
Definition without (files : list (name * file)) (n : name) : list (name * file) :=
  filter (fun p => negb (name_eqb (fst p) n)) files.
Definition with_file (files : list (name * file)) (n : name) (f : file) : list (name * file) :=
  (n, f) :: without files n.

(** The operations on files, and the commit of batch ids to the Delta table. *)
Inductive fs_op : Type :=
| Create (n : name)
| WriteHeader (n : name)
| WriteBatch (n : name) (b : B)
| Finish (n : name)
| Rename (n n' : name)
| Remove (n : name).

(** [None] is an error. Creating truncates an existing file, l.270-275, and renaming replaces an
    existing file. The end-of-stream marker does not matter for reading, l.709-711. *)
Definition apply_op (files : list (name * file)) (op : fs_op) : option (list (name * file)) :=
  match op with
  | Create n => Some (with_file files n (File false [] false))
  | WriteHeader n =>
      match lookup files n with
      | Some f => Some (with_file files n (File true (f_batches f) (f_torn f)))
      | None => None
      end
  | WriteBatch n b =>
      match lookup files n with
      | Some f => Some (with_file files n (File (f_header f) (f_batches f ++ [b]) (f_torn f)))
      | None => None
      end
  | Finish n => match lookup files n with Some _ => Some files | None => None end
  | Rename n n' =>
      match lookup files n with
      | Some f => Some (with_file (without files n) n' f)
      | None => None
      end
  | Remove n => match lookup files n with Some _ => Some (without files n) | None => None end
  end.

Fixpoint apply_ops (files : list (name * file)) (ops : list fs_op) : option (list (name * file)) :=
  match ops with
  | [] => Some files
  | op :: ops => match apply_op files op with Some files => apply_ops files ops | None => None end
  end.

(** A crash after [k] of the operations. If [torn] is true, a part of the next batch is written. *)
Definition tear (files : list (name * file)) (op : option fs_op) : list (name * file) :=
  match op with
  | Some (WriteBatch n b) =>
      match lookup files n with
      | Some f => with_file files n (File (f_header f) (f_batches f) true)
      | None => files
      end
  | _ => files
  end.
Definition crash_ops (files : list (name * file)) (ops : list fs_op) (k : nat) (torn : bool)
  : option (list (name * file)) :=
  match apply_ops files (firstn k ops) with
  | Some files => Some (if torn then tear files (nth_error ops k) else files)
  | None => None
  end.

(** [read_batches_from_path], l.712-731: an incomplete batch at the end is skipped. Reading the
    schema fails if there is none, l.714. *)
Definition read_batches (files : list (name * file)) (n : name) : outcome (list B) :=
  match lookup files n with
  | Some f => if f_header f then Ok (f_batches f) else Err
  | None => Err
  end.

(** ** The log in memory *)

(** [SegmentedLog], l.302-317, with [ActiveSegment], l.250-264, and the [start_id] and [end_id] of
    each [ClosedSegment], l.228-235. *)
Record wal : Type := Wal {
  w_start : Z;
  w_next : Z;
  w_size : Z;
  w_closed : list (Z * Z);
  w_persisted : list Z;
  w_threshold : Z }.

Definition contains (ids : list Z) (id : Z) : bool := existsb (Z.eqb id) ids.

(** [start_id..=end_id]. *)
Definition id_range (s e : Z) : list Z :=
  map (fun k => s + Z.of_nat k) (seq 0 (Z.to_nat (e - s + 1))).

(** [ClosedSegment::is_fully_persisted], l.239-245. *)
Definition is_fully_persisted (persisted : list Z) (segment : Z * Z) : bool :=
  forallb (contains persisted) (rev (id_range (fst segment) (snd segment))).

(** [ActiveSegment::try_new], l.268-292. *)
Definition new_active (start : Z) : list fs_op := [Create (ActiveFile start); WriteHeader (ActiveFile start)].

(** [append_and_sync], l.371-408, and [close_active_segment], l.414-449. *)
Definition append (w : wal) (b : B) : list fs_op * wal * Z :=
  let id := w_next w in
  let size := w_size w + memory_size b in
  let write := [WriteBatch (ActiveFile (w_start w)) b] in
  if w_threshold w <=? size then
    (write ++ [Finish (ActiveFile (w_start w));
               Rename (ActiveFile (w_start w)) (ClosedFile (w_start w) (id + 1 - 1))]
       ++ new_active (id + 1 - 1 + 1),
     Wal (id + 1 - 1 + 1) (id + 1 - 1 + 1) 0 (w_closed w ++ [(w_start w, id + 1 - 1)]) (w_persisted w)
       (w_threshold w), id)
  else (write, Wal (w_start w) (id + 1) size (w_closed w) (w_persisted w) (w_threshold w), id).

(** [mark_batches_as_persisted], l.454-495. *)
Definition mark (w : wal) (ids : list Z) : list fs_op * wal :=
  let persisted := w_persisted w ++ ids in
  let to_delete := filter (is_fully_persisted persisted) (w_closed w) in
  let to_retain := filter (fun s => negb (is_fully_persisted persisted s)) (w_closed w) in
  let remaining := filter (fun id =>
    negb (existsb (fun s => (fst s <=? id) && (id <=? snd s)) to_delete)) persisted in
  (map (fun s => Remove (ClosedFile (fst s) (snd s))) to_delete,
   Wal (w_start w) (w_next w) (w_size w) to_retain remaining (w_threshold w)).

(** [truncate], l.578-626. *)
Definition truncate (w : wal) : list fs_op * wal :=
  (map (fun s => Remove (ClosedFile (fst s) (snd s))) (w_closed w)
     ++ [Remove (ActiveFile (w_start w))] ++ new_active (w_next w),
   Wal (w_next w) (w_next w) 0 [] [] (w_threshold w)).

(** [(start_id..=end_id).zip(batches)]. *)
Fixpoint zip_ids (start end_id : Z) (batches : list B) : list (Z * B) :=
  match batches with
  | [] => []
  | b :: batches => if start <=? end_id then (start, b) :: zip_ids (start + 1) end_id batches else []
  end.

(** [all_batches], l.541-573. *)
Fixpoint closed_batches (files : list (name * file)) (closed : list (Z * Z)) : outcome (list (Z * B)) :=
  match closed with
  | [] => Ok []
  | (s, e) :: closed =>
      let? batches := read_batches files (ClosedFile s e) in
      let? others := closed_batches files closed in
      Ok (zip_ids s e batches ++ others)
  end.
Definition all_batches (files : list (name * file)) (w : wal) : outcome (list (Z * B)) :=
  let? closed := closed_batches files (w_closed w) in
  let? active := read_batches files (ActiveFile (w_start w)) in
  Ok (closed ++ zip_ids (w_start w) (w_next w - 1) active).

(** [unpersisted_batches], l.526-537. *)
Definition unpersisted (files : list (name * file)) (w : wal) : outcome (list (Z * B)) :=
  let? all := all_batches files w in
  Ok (filter (fun p => negb (contains (w_persisted w) (fst p))) all).

(** ** Opening a log *)

(** [close_leftover_active_segment], l.633-675. *)
Definition is_active (n : name) : bool := match n with ActiveFile _ => true | _ => false end.
Definition close_leftover (files : list (name * file)) : outcome (list fs_op * option Z) :=
  match find (fun p => is_active (fst p)) files with
  | Some (ActiveFile s, _) =>
      let? batches := read_batches files (ActiveFile s) in
      match batches with
      | [] => Ok ([Remove (ActiveFile s)], Some s)
      | _ => let e := s + Z.of_nat (length batches) - 1 in
             Ok ([Rename (ActiveFile s) (ClosedFile s e)], Some (e + 1))
      end
  | _ => Ok ([], None)
  end.

(** [find_closed_segments], l.679-707. *)
Fixpoint find_closed (files : list (name * file)) : outcome (list (Z * Z)) :=
  match files with
  | [] => Ok []
  | (ClosedFile s e, _) :: files => let? closed := find_closed files in Ok ((s, e) :: closed)
  | (ActiveFile _, _) :: _ => Err
  end.

(** [sort_by_key(|s| s.start_id)], l.334. *)
Fixpoint insert_segment (s : Z * Z) (l : list (Z * Z)) : list (Z * Z) :=
  match l with
  | [] => [s]
  | s' :: l' => if fst s <=? fst s' then s :: l else s' :: insert_segment s l'
  end.
Definition sort_by_start (l : list (Z * Z)) : list (Z * Z) := fold_right insert_segment [] l.

(** [SegmentedLog::try_new], l.323-365, followed by [load_persisted_batches_from_delta_table],
    l.500-521. [listing] is the order in which the folder is listed, which may differ each time. The
    result is the operations, also if opening fails, and the log. *)
Definition open_log (listing : list (name * file) -> list (name * file)) (st : storage) (threshold : Z)
  : list fs_op * outcome wal :=
  match close_leftover (listing (st_files st)) with
  | Ok (ops, leftover) =>
      match apply_ops (st_files st) ops with
      | Some files =>
          match find_closed (listing files) with
          | Ok found =>
              let closed := sort_by_start found in
              let next := match rev closed, leftover with
                          | (_, e) :: _, _ => e + 1
                          | [], Some next => next
                          | [], None => 0
                          end in
              let (removes, w) := mark (Wal next next 0 closed [] threshold) (st_commits st) in
              (ops ++ new_active next ++ removes, Ok w)
          | _ => (ops, Err)
          end
      | None => (ops, Err)
      end
  | _ => ([], Err)
  end.

(** ** Histories *)

(** What happens to a log, with the results that callers see. *)
Inductive event : Type :=
| Opened                                     (* the log was opened *)
| Appended (b : B) (id : Z)                  (* appending [b] returned [id] *)
| Committed (ids : list Z)                   (* ids were committed to the Delta table *)
| Marked (ids : list Z)                      (* ids were marked as persisted *)
| Truncated
| Threshold (t : Z)
| Replayed (batches : list (Z * B))          (* the unpersisted batches were read *)
| Crashed (appending : option (B * nat * bool)) (marking : option (list Z * nat))
| CrashedTruncating (k : nat)
| CrashedOpening (k : nat).

(** The files and the log in memory while the process runs. *)
Definition state : Type := (storage * option wal)%type.
Definition initial : state := (Storage [] [], None).

(** A crash can interrupt an append and a mark at the same time: appending needs the lock of the
    active segment and marking that of the persisted ids and closed segments. Truncating needs all
    locks. *)
Definition crashed (st : storage) (w : wal) (appending : option (B * nat * bool))
  (marking : option (list Z * nat)) : option (list (name * file)) :=
  match (match appending with
         | Some (b, k, torn) => crash_ops (st_files st) (fst (fst (append w b))) k torn
         | None => Some (st_files st)
         end) with
  | Some files =>
      match marking with
      | Some (ids, k) => crash_ops files (fst (mark w ids)) k false
      | None => Some files
      end
  | None => None
  end.

Inductive step (listing : list (name * file) -> list (name * file)) : state -> event -> state -> Prop :=
| step_opened : forall st threshold ops w files,
    open_log listing st threshold = (ops, Ok w) -> apply_ops (st_files st) ops = Some files ->
    step listing (st, None) Opened (Storage files (st_commits st), Some w)
| step_appended : forall st w b ops w' id files,
    append w b = (ops, w', id) -> apply_ops (st_files st) ops = Some files ->
    step listing (st, Some w) (Appended b id) (Storage files (st_commits st), Some w')
| step_committed : forall st w ids,
    step listing (st, Some w) (Committed ids)
      (Storage (st_files st) (st_commits st ++ ids), Some w)
| step_marked : forall st w ids ops w' files,
    mark w ids = (ops, w') -> apply_ops (st_files st) ops = Some files ->
    step listing (st, Some w) (Marked ids) (Storage files (st_commits st), Some w')
| step_truncated : forall st w ops w' files,
    truncate w = (ops, w') -> apply_ops (st_files st) ops = Some files ->
    step listing (st, Some w) Truncated (Storage files (st_commits st), Some w')
| step_threshold : forall st w t,
    step listing (st, Some w) (Threshold t)
      (st, Some (Wal (w_start w) (w_next w) (w_size w) (w_closed w) (w_persisted w) t))
| step_replayed : forall st w batches,
    unpersisted (st_files st) w = Ok batches ->
    step listing (st, Some w) (Replayed batches) (st, Some w)
| step_crashed : forall st w a m files,
    crashed st w a m = Some files ->
    step listing (st, Some w) (Crashed a m) (Storage files (st_commits st), None)
| step_crashed_truncating : forall st w k files,
    crash_ops (st_files st) (fst (truncate w)) k false = Some files ->
    step listing (st, Some w) (CrashedTruncating k) (Storage files (st_commits st), None)
| step_crashed_opening : forall st threshold k files,
    crash_ops (st_files st) (fst (open_log listing st threshold)) k false = Some files ->
    step listing (st, None) (CrashedOpening k) (Storage files (st_commits st), None).

Inductive run (listing : list (name * file) -> list (name * file)) : state -> list event -> state -> Prop :=
| run_nil : forall s, run listing s [] s
| run_cons : forall s e s' h s'', step listing s e s' -> run listing s' h s'' -> run listing s (e :: h) s''.

End Wal.
Arguments name : clear implicits.
Arguments file : clear implicits.
Arguments storage : clear implicits.
Arguments fs_op : clear implicits.
Arguments event : clear implicits.
Arguments state : clear implicits.
