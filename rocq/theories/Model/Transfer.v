(** Transfer of compressed data from the local to the remote data folder
    (crates/modelardb_server/src/storage/data_transfer.rs).

    The functions are split at the points where other tasks can run.  [data_transfer] is a
    tokio [RwLock] (storage/mod.rs l.40-60): [increase_table_size()] and [transfer()] run under
    its read lock (compressed_data_manager.rs l.98-104 and l.272-277, mod.rs l.304-315), the
    periodic task, [mark_table_as_dropped()], [clear_table()] and
    [set_transfer_batch_size_in_bytes()] under its write lock (data_transfer.rs l.181-190,
    mod.rs l.363-400).  The data itself is committed to the local table before the lock is taken
    (compressed_data_manager.rs l.93-96 and l.250-268).

    Simplified: the rows of a table are identified by integers and the size in bytes of what is
    saved is an argument of the event; a write to the remote table and the deletion of the rows
    of the local table each are one atomic Delta Lake commit (see [TableWriter] for writes); the
    periodic task is not aborted in the middle of a transfer (data_transfer.rs l.173-175 can do
    so); scheduling is arbitrary and waiting for a lock is the absence of a step. *)
From Coq Require Import ZArith List Bool String.
From Verif.Model Require Import Base.
Import ListNotations.
Open Scope Z_scope.

(** ** The map [table_size_in_bytes] (data_transfer.rs l.44), a [DashMap<String, u64>]. *)

Fixpoint size_of (t : string) (m : list (string * Z)) : option Z :=
  match m with
  | [] => None
  | (k, z) :: m => if String.eqb k t then Some z else size_of t m
  end.

(** [DashMap::insert] and the assignments through [get_mut]. *)
Fixpoint set_size (t : string) (z : Z) (m : list (string * Z)) : list (string * Z) :=
  match m with
  | [] => [(t, z)]
  | (k, y) :: m => if String.eqb k t then (k, z) :: m else (k, y) :: set_size t z m
  end.

(** [DashMap::remove]. *)
Definition remove_size (t : string) (m : list (string * Z)) : list (string * Z) :=
  filter (fun p => negb (String.eqb (fst p) t)) m.

(** [HashSet::contains] for [dropped_tables] (data_transfer.rs l.53). *)
Definition mem (t : string) (l : list string) : bool := existsb (String.eqb t) l.

Definition update (t : string) (v : list Z) (f : string -> list Z) : string -> list Z :=
  fun k => if String.eqb k t then v else f k.

Fixpoint set_nth {A : Type} (i : nat) (a : A) (l : list A) : list A :=
  match l, i with
  | [], _ => []
  | _ :: l, O => a :: l
  | b :: l, S i => b :: set_nth i a l
  end.

(** ** Tasks *)

Inductive lock := Shared | Exclusive.

(** Where a task is in [transfer_data] (data_transfer.rs l.224-261). *)
Inductive phase :=
| Next                                             (** between two tables *)
| Begin (t : string)                               (** l.224, before the check of [dropped_tables] *)
| Started (t : string) (size : Z)                  (** l.238, the size is read *)
| Scanned (t : string) (size : Z) (rows : list Z)  (** l.244, the rows are read *)
| Written (t : string) (size : Z)                  (** l.251, the rows are in the remote table *)
| Truncated (t : string) (size : Z).               (** l.254, the rows are deleted locally *)

(** What follows when all tables are transferred, or when a transfer fails. *)
Inductive purpose :=
| Report                   (** return the result to the caller *)
| Set_batch (v : option Z) (** l.150-161: assign the batch size, or return the error *)
| Periodic.                (** l.181-190: wait again, or panic *)

Inductive work :=
| Looking (t : string) (size : Z)   (** increase_table_size l.108, before [contains_key] *)
| Inserting (t : string) (size : Z) (** l.109, before [insert] *)
| Adding (t : string) (size : Z)    (** l.111, before [+=] *)
| Checking (t : string)             (** l.115, before the comparison with the batch size *)
| Transfers (p : phase) (todo : list string) (for_ : purpose).

Inductive task :=
| Free
| Waits (t : string) (size : Z)  (** has saved data and waits for the read lock *)
| Holds (l : lock) (w : work).

Record state := State {
  x_local : string -> list Z;      (** rows of the tables in the local data folder *)
  x_remote : string -> list Z;     (** rows of the tables in the remote data folder *)
  x_sizes : list (string * Z);     (** [table_size_in_bytes] *)
  x_dropped : list string;         (** [dropped_tables] *)
  x_batch : option Z;              (** [transfer_batch_size_in_bytes] *)
  x_tasks : list task
}.

Inductive result :=
| Went (s : state)
| Disabled           (** the event cannot happen in this state *)
| Aborted.           (** a panic: the release profile aborts the process *)

Inductive event :=
| Save (i : nat) (t : string) (rows : list Z) (size : Z) (** commit to the local table *)
| Acquire (i : nat)                                      (** obtain the read lock *)
| Transfer_all (i : nat) (todo : list string)            (** client calls [transfer()] *)
| Periodic_transfer (i : nat) (todo : list string)       (** the periodic task wakes up *)
| Set_batch_size (i : nat) (v : option Z) (todo : list string)
| Mark (t : string)                                      (** [mark_table_as_dropped()] *)
| Clear (t : string)                                     (** [clear_table()] *)
| Go (i : nat) (ok : bool)                               (** next step of task [i] *)
| Crash (sizes : list (string * Z)) (todo : list string). (** crash and restart *)

Definition holds_exclusive (a : task) : bool :=
  match a with Holds Exclusive _ => true | _ => false end.
Definition holds (a : task) : bool := match a with Holds _ _ => true | _ => false end.

(** The read lock can be taken if nobody holds the write lock, the write lock if nobody holds
    any lock. *)
Definition read_free (s : state) : bool := negb (existsb holds_exclusive (x_tasks s)).
Definition write_free (s : state) : bool := negb (existsb holds (x_tasks s)).

Fixpoint distinct (l : list string) : bool :=
  match l with [] => true | t :: l => negb (mem t l) && distinct l end.

(** [todo] lists, in some order, the tables whose recorded size satisfies [over]: the order in
    which a [DashMap] is iterated is not specified. *)
Definition lists_tables (over : Z -> bool) (sizes : list (string * Z)) (todo : list string) : bool :=
  distinct todo
  && forallb (fun t => match size_of t sizes with Some z => over z | None => false end) todo
  && forallb (fun p => match size_of (fst p) sizes with
                       | Some z => if over z then mem (fst p) todo else true
                       | None => true
                       end) sizes.

Definition set_task (i : nat) (a : task) (s : state) : state :=
  State (x_local s) (x_remote s) (x_sizes s) (x_dropped s) (x_batch s)
        (set_nth i a (x_tasks s)).

Definition with_sizes (m : list (string * Z)) (s : state) : state :=
  State (x_local s) (x_remote s) m (x_dropped s) (x_batch s) (x_tasks s).

(** [transfer_larger_than_threshold] (data_transfer.rs l.205-218): the tables larger than
    [threshold] in a clone of the map are transferred one after the other. *)
Definition begin_transfers (i : nat) (l : lock) (threshold : Z) (todo : list string)
  (for_ : purpose) (s : state) : result :=
  if lists_tables (fun z => threshold <? z) (x_sizes s) todo
  then Went (set_task i (Holds l (Transfers Next todo for_)) s)
  else Disabled.

(** What happens when the last table is transferred. *)
Definition finish (i : nat) (for_ : purpose) (s : state) : result :=
  match for_ with
  | Set_batch v =>
      Went (set_task i Free
              (State (x_local s) (x_remote s) (x_sizes s) (x_dropped s) v (x_tasks s)))
  | Report | Periodic => Went (set_task i Free s)
  end.

(** What happens when the transfer of a table fails: the error is returned (l.157, l.212) or, in
    the periodic task, [expect] panics (l.190). *)
Definition fail (i : nat) (for_ : purpose) (s : state) : result :=
  match for_ with
  | Periodic => Aborted
  | Report | Set_batch _ => Went (set_task i Free s)
  end.

(** The next step of [transfer_data] (data_transfer.rs l.224-261) of task [i]; [ok] says if the
    access to the local or remote data folder in it succeeds. *)
Definition transfer_step (i : nat) (ok : bool) (l : lock) (p : phase) (todo : list string)
  (for_ : purpose) (s : state) : result :=
  let continue p := Holds l (Transfers p todo for_) in
  match p with
  | Next =>
      match todo with
      | [] => finish i for_ s
      | t :: todo => Went (set_task i (Holds l (Transfers (Begin t) todo for_)) s)
      end
  | Begin t =>
      if mem t (x_dropped s) then Went (set_task i (continue Next) s)
      else match size_of t (x_sizes s) with
           | Some size => Went (set_task i (continue (Started t size)) s)
           | None => Aborted
           end
  | Started t size =>
      if ok then Went (set_task i (continue (Scanned t size (x_local s t))) s)
      else fail i for_ s
  | Scanned t size rows =>
      if ok
      then Went (set_task i (continue (Written t size))
                   (State (x_local s) (update t (x_remote s t ++ rows) (x_remote s)) (x_sizes s)
                          (x_dropped s) (x_batch s) (x_tasks s)))
      else fail i for_ s
  | Written t size =>
      if ok
      then Went (set_task i (continue (Truncated t size))
                   (State (update t [] (x_local s)) (x_remote s) (x_sizes s)
                          (x_dropped s) (x_batch s) (x_tasks s)))
      else fail i for_ s
  | Truncated t size =>
      match size_of t (x_sizes s) with
      | Some current =>
          Went (set_task i (continue Next)
                  (with_sizes (set_size t (u64 (current - size)) (x_sizes s)) s))
      | None => Aborted
      end
  end.

(** The next step of task [i]. *)
Definition go (i : nat) (ok : bool) (s : state) : result :=
  match nth_error (x_tasks s) i with
  | Some (Holds l w) =>
      match w with
      (* increase_table_size (data_transfer.rs l.105-126). *)
      | Looking t size =>
          match size_of t (x_sizes s) with
          | Some _ => Went (set_task i (Holds l (Adding t size)) s)
          | None => Went (set_task i (Holds l (Inserting t size)) s)
          end
      | Inserting t size =>
          Went (set_task i (Holds l (Adding t size))
                  (with_sizes (set_size t 0 (x_sizes s)) s))
      | Adding t size =>
          match size_of t (x_sizes s) with
          | Some current =>
              Went (set_task i (Holds l (Checking t))
                      (with_sizes (set_size t (u64 (current + size)) (x_sizes s)) s))
          | None => Aborted
          end
      | Checking t =>
          match x_batch s with
          | None => Went (set_task i Free s)
          | Some batch =>
              match size_of t (x_sizes s) with
              | Some current =>
                  if batch <=? current
                  then Went (set_task i (Holds l (Transfers (Begin t) [] Report)) s)
                  else Went (set_task i Free s)
              | None => Aborted
              end
          end
      | Transfers p todo for_ => transfer_step i ok l p todo for_ s
      end
  | _ => Disabled
  end.

Definition is_free (i : nat) (s : state) : bool :=
  match nth_error (x_tasks s) i with Some Free => true | _ => false end.

(** [DataTransfer::try_new] (data_transfer.rs l.61-102) after a crash: the sizes are those of the
    files of the local tables, [dropped_tables] is empty, and the tables of at least the batch
    size are transferred before anything else runs. *)
Definition restart (sizes : list (string * Z)) (todo : list string) (s : state) : result :=
  let over := fun z => match x_batch s with Some batch => batch <=? z | None => false end in
  if lists_tables over sizes todo && forallb (fun p => (0 <=? snd p) && (snd p <? 2 ^ 64)) sizes
  then Went (State (x_local s) (x_remote s) sizes [] (x_batch s)
               match x_tasks s with
               | [] => []
               | _ :: tasks => Holds Exclusive (Transfers Next todo Report)
                               :: map (fun _ => Free) tasks
               end)
  else Disabled.

Definition step (e : event) (s : state) : result :=
  match e with
  | Save i t rows size =>
      if is_free i s
      then Went (set_task i (Waits t size)
                   (State (update t (x_local s t ++ rows) (x_local s)) (x_remote s) (x_sizes s)
                          (x_dropped s) (x_batch s) (x_tasks s)))
      else Disabled
  | Acquire i =>
      match nth_error (x_tasks s) i with
      | Some (Waits t size) =>
          if read_free s then Went (set_task i (Holds Shared (Looking t size)) s) else Disabled
      | _ => Disabled
      end
  | Transfer_all i todo =>
      if is_free i s && read_free s then begin_transfers i Shared 0 todo Report s else Disabled
  | Periodic_transfer i todo =>
      if is_free i s && write_free s then begin_transfers i Exclusive 0 todo Periodic s
      else Disabled
  | Set_batch_size i v todo =>
      if is_free i s && write_free s
      then match v with
           | Some threshold => begin_transfers i Exclusive threshold todo (Set_batch v) s
           | None => Went (set_task i (Holds Exclusive (Transfers Next [] (Set_batch None))) s)
           end
      else Disabled
  | Mark t =>
      if write_free s
      then Went (State (x_local s) (x_remote s) (x_sizes s) (t :: x_dropped s) (x_batch s)
                       (x_tasks s))
      else Disabled
  | Clear t =>
      if write_free s
      then Went (State (x_local s) (x_remote s) (remove_size t (x_sizes s))
                       (filter (fun k => negb (String.eqb k t)) (x_dropped s)) (x_batch s)
                       (x_tasks s))
      else Disabled
  | Go i ok => go i ok s
  | Crash sizes todo => restart sizes todo s
  end.

Fixpoint run (events : list event) (s : state) : result :=
  match events with
  | [] => Went s
  | e :: events =>
      match step e s with
      | Went s => run events s
      | Disabled => Disabled
      | Aborted => Aborted
      end
  end.

(** A server that starts with no tables and [n] tasks. *)
Definition start (n : nat) (batch : option Z) : state :=
  State (fun _ => []) (fun _ => []) [] [] batch (repeat Free n).
