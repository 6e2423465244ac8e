(** Inserts into a time series table while tables with its name are created, truncated and dropped:
    crates/modelardb_server/src/remote.rs l.500-525 and l.750-794, context.rs l.107-127 and l.306-381,
    storage/mod.rs, storage/uncompressed_data_manager.rs and storage/compressed_data_manager.rs.

    Simplified: one name; a batch is one row; the queues, the uncompressed and the compressed data in
    memory are one set of buffers, one for each combination of tags; commits succeed if there is a table;
    one writer thread; a table has no generated columns. *)
From Coq Require Import Arith Bool ZArith List.
From Verif Require Import Model.Base.
Import ListNotations.
Open Scope nat_scope.
Open Scope list_scope.

(** A table is created with a number of fields. [inc] is different for all tables, the program does
    not have it. *)
Record table := Table { inc : nat; fields : nat }.
(** A row and the table it was inserted into. *)
Record row := Row { into : nat; tags : nat; values : list Z }.

(** [UncompressedInMemoryDataBuffer], with the metadata of the first row that was inserted, and the
    ids given to the batches of the rows by the log. *)
Record buffer := Buffer { b_tags : nat; b_table : table; b_points : list (nat * row) }.

(** [insert_data_point], uncompressed_data_manager.rs l.197-316, and [insert_data_point],
    uncompressed_data_buffer.rs l.131-150, which indexes the builders of the fields with the values. *)
Fixpoint insert (memory : list buffer) (t : table) (id : nat) (r : row) : outcome (list buffer) :=
  match memory with
  | [] => Ok [Buffer (tags r) t [(id, r)]]
  | b :: memory =>
      if b_tags b =? tags r then
        if fields (b_table b) <? length (values r) then Panic
        else Ok (Buffer (b_tags b) (b_table b) (b_points b ++ [(id, r)]) :: memory)
      else let? memory := insert memory t id r in Ok (b :: memory)
  end.

(** [record_batch], uncompressed_data_buffer.rs l.165-199, takes as many values of each field as there
    are timestamps, which panics if a field has fewer. *)
Definition is_ragged (b : buffer) : bool :=
  negb (forallb (fun p => length (values (snd p)) =? fields (b_table b)) (b_points b)).

(** What a process does next. [Putting] is [do_put] or an INSERT statement, which reads the metadata
    of the table once. *)
Inductive process :=
| Putting (t : table)
| CreateCheck (fields : nat) | CreateSave (fields : nat) | CreateRegister (t : table) | CreateLog
| DropCheck | DropDeregister | DropFlush | DropLog | DropDelete
| TruncateCheck | TruncateFlush | TruncateLog | TruncateDelete.

(** The log of the table: the next id, and the batches that are not persisted. *)
Record table_log := Log { next_id : nat; batches : list (nat * row) }.

Record state := State {
  saved : option table;          (* the table in the data folder *)
  rows : list row;               (* the rows in the data folder *)
  commits : list nat;            (* the ids of batches in the commits of the table *)
  registered : option table;     (* the table in DataFusion *)
  log : option table_log;        (* the write-ahead log of the table *)
  memory : list buffer;
  processes : list (nat * process);
  writer : bool;                 (* the writer thread runs *)
  aborted : bool;                (* a panic has stopped the server *)
  next_inc : nat
}.

Definition init : state := State None [] [] None None [] [] true false 0.

Fixpoint find_process (p : nat) (l : list (nat * process)) : option process :=
  match l with
  | [] => None
  | (q, x) :: l => if q =? p then Some x else find_process p l
  end.
Definition without (p : nat) (l : list (nat * process)) : list (nat * process) :=
  filter (fun x => negb (fst x =? p)) l.

Definition set_processes (s : state) (l : list (nat * process)) : state :=
  State (saved s) (rows s) (commits s) (registered s) (log s) (memory s) l (writer s) (aborted s)
    (next_inc s).
(** A process goes on with [x], or ends. *)
Definition goes_on (s : state) (p : nat) (x : process) : state :=
  set_processes s ((p, x) :: without p (processes s)).
Definition ends (s : state) (p : nat) : state := set_processes s (without p (processes s)).

(** A panic, as [panic = "abort"] in the profile release of Cargo.toml. *)
Definition abort (s : state) : state :=
  State (saved s) (rows s) (commits s) None (log s) [] [] false true (next_inc s).

Definition points (memory : list buffer) : list (nat * row) := concat (map b_points memory).
Definition member (id : nat) (ids : list nat) : bool := existsb (Nat.eqb id) ids.

(** [save_compressed_data], compressed_data_manager.rs l.240-291, for the data in [bs], with [rest] the
    data that stays in memory. The name of the table is all that is used to find it. [fatal] is
    whether an error ends the writer, as it does when memory is freed, l.173-182 and l.122-125, but
    not when everything is flushed, l.206-215. *)
Definition save (wal fatal : bool) (s : state) (bs rest : list buffer) : state :=
  if existsb is_ragged bs then abort s
  else
    let running := match bs with [] => writer s | _ => writer s && negb fatal end in
    match bs, saved s with
    | [], _ => s
    | _, None =>
        State None (rows s) (commits s) (registered s) (log s) rest (processes s) running (aborted s)
          (next_inc s)
    | _, Some t =>
        let ids := map fst (points bs) in
        let rows := rows s ++ map snd (points bs) in
        if wal then
          match log s with
          | Some l =>
              State (Some t) rows (commits s ++ ids) (registered s)
                (Some (Log (next_id l) (filter (fun b => negb (member (fst b) ids)) (batches l))))
                rest (processes s) (writer s) (aborted s) (next_inc s)
          | None =>
              State (Some t) rows (commits s ++ ids) (registered s) None rest (processes s) running
                (aborted s) (next_inc s)
          end
        else
          State (Some t) rows (commits s) (registered s) (log s) rest (processes s) (writer s)
            (aborted s) (next_inc s)
    end.

(** [insert_data_points], storage/mod.rs l.246-291: the batch is appended to the log of the name. *)
Definition put (wal : bool) (s : state) (p : nat) (t : table) (r : row) : state :=
  if wal then
    match log s with
    | None => ends s p
    | Some l =>
        match insert (memory s) t (next_id l) r with
        | Ok m =>
            State (saved s) (rows s) (commits s) (registered s)
              (Some (Log (S (next_id l)) (batches l ++ [(next_id l, r)]))) m (processes s) (writer s)
              (aborted s) (next_inc s)
        | _ =>
            abort (State (saved s) (rows s) (commits s) (registered s)
                     (Some (Log (S (next_id l)) (batches l ++ [(next_id l, r)]))) [] [] (writer s)
                     (aborted s) (next_inc s))
        end
    end
  else
    match insert (memory s) t 0 r with
    | Ok m =>
        State (saved s) (rows s) (commits s) (registered s) (log s) m (processes s) (writer s)
          (aborted s) (next_inc s)
    | _ => abort s
    end.

(** [create_time_series_table], context.rs l.107-159, [drop_table], l.306-335, and [truncate_table],
    l.337-366. [None] is waiting: a flush is never answered if the writer does not run. *)
Definition advance (wal : bool) (s : state) (p : nat) (x : process) : option state :=
  match x with
  | Putting _ => None
  | CreateCheck n => Some (match registered s with None => goes_on s p (CreateSave n) | Some _ => ends s p end)
  | CreateSave n =>
      Some (match saved s with
            | None =>
                let t := Table (next_inc s) n in
                goes_on (State (Some t) [] [] (registered s) (log s) (memory s) (processes s)
                           (writer s) (aborted s) (S (next_inc s))) p (CreateRegister t)
            | Some _ => ends s p
            end)
  | CreateRegister t =>
      Some (match saved s with
            | None => ends s p
            | Some _ =>
                goes_on (State (saved s) (rows s) (commits s) (Some t) (log s) (memory s)
                           (processes s) (writer s) (aborted s) (next_inc s)) p CreateLog
            end)
  | CreateLog =>
      Some (match wal, log s with
            | true, None =>
                ends (State (saved s) (rows s) (commits s) (registered s) (Some (Log 0 [])) (memory s)
                        (processes s) (writer s) (aborted s) (next_inc s)) p
            | _, _ => ends s p
            end)
  | DropCheck => Some (match registered s with None => ends s p | Some _ => goes_on s p DropDeregister end)
  | DropDeregister =>
      Some (goes_on (State (saved s) (rows s) (commits s) None (log s) (memory s) (processes s)
                       (writer s) (aborted s) (next_inc s)) p DropFlush)
  | DropFlush =>
      if writer s then
        let s := save wal false s (memory s) [] in
        Some (if aborted s then s else goes_on s p DropLog)
      else None
  | DropLog =>
      Some (match wal, saved s, log s with
            | true, Some _, None => ends s p
            | true, Some _, Some _ =>
                goes_on (State (saved s) (rows s) (commits s) (registered s) None (memory s)
                           (processes s) (writer s) (aborted s) (next_inc s)) p DropDelete
            | _, _, _ => goes_on s p DropDelete
            end)
  | DropDelete =>
      Some (ends (State None [] [] (registered s) (log s) (memory s) (processes s) (writer s)
                    (aborted s) (next_inc s)) p)
  | TruncateCheck =>
      Some (match registered s with None => ends s p | Some _ => goes_on s p TruncateFlush end)
  | TruncateFlush =>
      if writer s then
        let s := save wal false s (memory s) [] in
        Some (if aborted s then s else goes_on s p TruncateLog)
      else None
  | TruncateLog =>
      Some (match wal, saved s, log s with
            | true, Some _, None => ends s p
            | true, Some _, Some l =>
                goes_on (State (saved s) (rows s) (commits s) (registered s)
                           (Some (Log (next_id l) [])) (memory s) (processes s) (writer s)
                           (aborted s) (next_inc s)) p TruncateDelete
            | _, _, _ => goes_on s p TruncateDelete
            end)
  | TruncateDelete =>
      Some (ends (State (saved s) [] (commits s) (registered s) (log s) (memory s) (processes s)
                    (writer s) (aborted s) (next_inc s)) p)
  end.

(** The server is stopped and started: tables are registered, logs are opened (or created for tables
    without one), and the batches that are not in the commits are inserted again, context.rs l.260-298.
    Not modelled: how Apache Arrow reads a batch with another number of columns than the log. *)
Fixpoint replay (t : table) (l : list (nat * row)) (memory : list buffer) : outcome (list buffer) :=
  match l with
  | [] => Ok memory
  | (id, r) :: l => let? memory := insert memory t id r in replay t l memory
  end.
Definition restart (wal : bool) (s : state) : state :=
  match saved s with
  | None => State None (rows s) (commits s) None (log s) [] [] true false (next_inc s)
  | Some t =>
      if wal then
        let l := match log s with Some l => l | None => Log 0 [] end in
        match replay t (filter (fun b => negb (member (fst b) (commits s))) (batches l)) [] with
        | Ok m => State (Some t) (rows s) (commits s) (Some t) (Some l) m [] true false (next_inc s)
        | _ => abort s
        end
      else State (Some t) (rows s) (commits s) (Some t) (log s) [] [] true false (next_inc s)
  end.

Inductive request := Put | Create (fields : nat) | Drop | Truncate.

Inductive event :=
| Start (p : nat) (q : request)      (* a client sends a request *)
| Batch (p : nat) (tags : nat) (values : list Z)  (* a client sends a batch *)
| Step (p : nat)                     (* a statement is executed *)
| End (p : nat)                      (* a put ends, or a statement fails *)
| Free (tags : nat)                  (* memory is freed *)
| Crash.

Definition step (wal : bool) (s : state) (e : event) : option state :=
  if aborted s then match e with Crash => Some (restart wal s) | _ => None end
  else match e with
  | Start p q =>
      match find_process p (processes s) with
      | Some _ => None
      | None =>
          match q with
          | Put =>
              match registered s with
              | Some t => Some (goes_on s p (Putting t))
              | None => None
              end
          | Create n => Some (goes_on s p (CreateCheck n))
          | Drop => Some (goes_on s p DropCheck)
          | Truncate => Some (goes_on s p TruncateCheck)
          end
      end
  | Batch p g v =>
      match find_process p (processes s) with
      | Some (Putting t) =>
          if length v =? fields t then Some (put wal s p t (Row (inc t) g v)) else None
      | _ => None
      end
  | Step p =>
      match find_process p (processes s) with
      | Some x => advance wal s p x
      | None => None
      end
  | End p =>
      match find_process p (processes s) with
      | Some _ => Some (ends s p)
      | None => None
      end
  | Free g =>
      if writer s then
        Some (save wal true s (filter (fun b => b_tags b =? g) (memory s))
                (filter (fun b => negb (b_tags b =? g)) (memory s)))
      else None
  | Crash => Some (restart wal s)
  end.

Fixpoint run (wal : bool) (s : state) (l : list event) : option state :=
  match l with
  | [] => Some s
  | e :: l => match step wal s e with Some s => run wal s l | None => None end
  end.
