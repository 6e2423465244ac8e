(** Servers whose write-ahead log is enabled or disabled when they are started:
    crates/modelardb_server/src/context.rs, storage/mod.rs, storage/compressed_data_manager.rs, and
    crates/modelardb_storage/src/write_ahead_log.rs.

    Simplified: a batch is saved as a whole, see Model/Pipeline.v for its parts; an operation is not
    interrupted by a crash, see Model/Catalog.v and Model/Wal.v; and ids are never reused, see C16. *)
From Coq Require Import ZArith List Bool String.
From Verif Require Import Model.Base.
Import ListNotations.
Open Scope list_scope.

Section Modes.
Variable batch : Type.

(** A batch and the id the log gave it. *)
Definition item := (batch * option Z)%type.

(** A time series table in Delta Lake: the batches that are saved, with their ids only to describe
    the model, and the ids in its commit history. *)
Record table := Table {
  saved : list item;
  done : list Z
}.

(** All tables, the logs in the folder of the write-ahead log, if a server is running and then if
    its log is enabled, the batches it has in memory for each table, and the next id. *)
Record world := World {
  tables : string -> option table;
  logs : string -> option (list (Z * batch));
  server : option bool;
  memory : string -> list item;
  next : Z
}.

Definition new_world : world := World (fun _ => None) (fun _ => None) None (fun _ => []) 0.

Definition put {A} (x : string) (a : A) (f : string -> A) : string -> A :=
  fun y => if String.eqb x y then a else f y.

Definition ids (items : list item) : list Z :=
  flat_map (fun i => match snd i with Some id => [id] | None => [] end) items.
Definition contains (l : list Z) (id : Z) : bool := existsb (Z.eqb id) l.

(** [SegmentedLog::unpersisted_batches], with the ids of the commit history that were loaded by
    [WriteAheadLog::try_new], write_ahead_log.rs l.82-95. *)
Definition unpersisted (done : list Z) (entries : list (Z * batch)) : list item :=
  map (fun e => (snd e, Some (fst e))) (filter (fun e => negb (contains done (fst e))) entries).

(** [main], main.rs l.136-165: [WriteAheadLog::try_new] opens or creates the logs of all tables, and
    [replay_write_ahead_log], context.rs l.266-300, inserts their batches that are not saved. *)
Definition start (enabled : bool) (w : world) : world :=
  if enabled then
    World (tables w)
      (fun x => match tables w x, logs w x with Some _, None => Some [] | _, log => log end)
      (Some true)
      (fun x => match tables w x with
                | Some t => unpersisted (done t) (match logs w x with Some e => e | None => [] end)
                | None => []
                end)
      (next w)
  else World (tables w) (logs w) (Some false) (fun _ => []) (next w).

(** [create_time_series_table], context.rs l.107-125. [create_table_log], write_ahead_log.rs
    l.104-135, opens the log if it already exists. *)
Definition create (x : string) (enabled : bool) (w : world) : outcome world :=
  match tables w x with
  | Some _ => Err
  | None =>
      Ok (World (put x (Some (Table [] [])) (tables w))
            (if enabled then put x (Some (match logs w x with Some e => e | None => [] end)) (logs w)
             else logs w)
            (server w) (memory w) (next w))
  end.

(** [insert_data_points], storage/mod.rs l.244-268. *)
Definition insert (x : string) (b : batch) (enabled : bool) (w : world) : outcome world :=
  match tables w x with
  | None => Err
  | Some _ =>
      if enabled then
        match logs w x with
        | None => Err
        | Some entries =>
            Ok (World (tables w) (put x (Some (entries ++ [(next w, b)])) (logs w)) (server w)
                  (put x (memory w x ++ [(b, Some (next w))]) (memory w)) (next w + 1))
        end
      else
        Ok (World (tables w) (logs w) (server w) (put x (memory w x ++ [(b, None)]) (memory w))
              (next w))
  end.

(** [save_compressed_data], storage/compressed_data_manager.rs l.240-284, for the first batches of a
    table and for all. *)
Definition save_first (n : nat) (x : string) (w : world) : world :=
  match tables w x with
  | None => w
  | Some t =>
      let first := firstn n (memory w x) in
      World (put x (Some (Table (saved t ++ first) (done t ++ ids first))) (tables w)) (logs w)
        (server w) (put x (skipn n (memory w x)) (memory w)) (next w)
  end.
Definition flush (w : world) : world :=
  World (fun x => match tables w x with
                  | None => None
                  | Some t => Some (Table (saved t ++ memory w x) (done t ++ ids (memory w x)))
                  end)
    (logs w) (server w) (fun _ => []) (next w).

(** [truncate_table], context.rs l.343-367. The commit history is not deleted. *)
Definition truncate (x : string) (enabled : bool) (w : world) : outcome world :=
  match tables w x with
  | None => Err
  | Some _ =>
      let w := flush w in
      match tables w x with
      | None => Err
      | Some t =>
          Ok (World (put x (Some (Table [] (done t))) (tables w))
                (if enabled then put x (Some []) (logs w) else logs w)
                (server w) (memory w) (next w))
      end
  end.

(** [drop_table], context.rs l.306-338. *)
Definition drop (x : string) (enabled : bool) (w : world) : outcome world :=
  match tables w x with
  | None => Err
  | Some _ =>
      let w := flush w in
      Ok (World (put x None (tables w)) (if enabled then put x None (logs w) else logs w)
            (server w) (memory w) (next w))
  end.

(** What happens to a server. [Cleaned] deletes a part of a log whose batches are saved, see C17. *)
Inductive event :=
| Started (enabled : bool)
| Created (x : string)
| Inserted (x : string) (b : batch)
| Saved (n : nat) (x : string)
| Truncated (x : string)
| Dropped (x : string)
| Cleaned (x : string) (id : Z)
| Stopped.

Definition step (w : world) (e : event) : outcome world :=
  match e, server w with
  | Started enabled, None => Ok (start enabled w)
  | Stopped, Some _ => Ok (World (tables w) (logs w) None (fun _ => []) (next w))
  | Created x, Some enabled => create x enabled w
  | Inserted x b, Some enabled => insert x b enabled w
  | Saved n x, Some _ => Ok (save_first n x w)
  | Truncated x, Some enabled => truncate x enabled w
  | Dropped x, Some enabled => drop x enabled w
  | Cleaned x id, Some true =>
      match tables w x, logs w x with
      | Some t, Some entries =>
          if contains (done t) id
          then Ok (World (tables w)
                     (put x (Some (filter (fun e => negb (fst e =? id)) entries)) (logs w))
                     (server w) (memory w) (next w))
          else Err
      | _, _ => Err
      end
  | _, _ => Err
  end.

(** The events that are accepted. *)
Inductive run : world -> list event -> world -> Prop :=
| Nothing : forall w, run w [] w
| Then : forall w e w1 es w2, step w e = Ok w1 -> run w1 es w2 -> run w (e :: es) w2.
End Modes.
Arguments Table {batch}.
Arguments saved {batch}.
Arguments done {batch}.
Arguments World {batch}.
Arguments tables {batch}.
Arguments logs {batch}.
Arguments server {batch}.
Arguments memory {batch}.
Arguments next {batch}.
Arguments step {batch}.
Arguments run {batch}.
Arguments new_world {batch}.
Arguments Started {batch}.
Arguments Created {batch}.
Arguments Inserted {batch}.
Arguments Saved {batch}.
Arguments Truncated {batch}.
Arguments Dropped {batch}.
Arguments Cleaned {batch}.
Arguments Stopped {batch}.
