(** The locks that the requests to a server wait for: the configuration manager and the storage
    engine, crates/modelardb_server/src/context.rs l.34-41, the write-ahead log, configuration.rs
    l.43-47, and the data transfer component, storage/compressed_data_manager.rs l.36-46. Each is a
    [tokio::sync::RwLock], which is fair: the requests for a lock are granted in the order in which
    they are made, so a request to read a lock waits for an earlier request to write it.

    Simplified: accesses to data folders, other nodes, and memory are work that takes some time and
    can fail; what the threads of the storage engine do while a request waits for them is done by
    the request (the threads are in Model/Pipeline.v); the write-ahead log is replayed before the
    server accepts requests, main.rs l.158-162, and is left out; the locks inside the write-ahead
    log are in Model/WalLocks.v. *)
From Coq Require Import List Bool Arith.
Import ListNotations.

Inductive lock := Configuration | Storage | Log | Transfers.
Inductive mode := Read | Write.
Definition lock_eqb (a b : lock) : bool :=
  match a, b with
  | Configuration, Configuration | Storage, Storage | Log, Log | Transfers, Transfers => true
  | _, _ => false
  end.

Inductive action :=
| Acquire (l : lock) (m : mode)
| Release (l : lock)
| Work.

(** ** What is done for requests. *)

(** Doing something while holding a lock. *)
Definition under (l : lock) (m : mode) (body : list action) : list action :=
  Acquire l m :: body ++ [Release l].

Section Server.
  (** If the write-ahead log is enabled. *)
  Variable logging : bool.
  Definition logged (l : list action) : list action := if logging then l else [].

  (** [save_compressed_data], storage/compressed_data_manager.rs l.240-291. *)
  Definition save : list action := [Work] ++ logged (under Log Read [Work]) ++ under Transfers Read [Work].
  Definition saves (n : nat) : list action := concat (repeat save n).
  (** [insert_record_batch], l.77-107. *)
  Definition insert_normal : list action := [Work] ++ under Transfers Read [Work].
  (** [insert_data_points], storage/mod.rs l.246-290. *)
  Definition insert_series : list action := logged (under Log Read [Work]) ++ [Work].

  (** [drop_table_from_storage_engine], context.rs l.372-380; [n] buffers are flushed. *)
  Definition drop_from_engine (n : nat) : list action :=
    under Storage Write (under Transfers Write [Work] ++ saves n ++ under Transfers Write [Work]).
  (** [drop_table], context.rs l.306-338, and [truncate_table], l.340-367. *)
  Definition drop_table (series : bool) (n : nat) : list action :=
    [Work] ++ drop_from_engine n ++ [Work]
    ++ (if series then under Configuration Read (logged (under Log Write [Work])) else []) ++ [Work].
  Definition truncate_table (series : bool) (n : nat) : list action :=
    [Work] ++ drop_from_engine n ++ [Work]
    ++ (if series then under Configuration Read (logged (under Log Read [Work])) else []) ++ [Work].

  (** The requests, and what the server does by itself. The numbers are those of the buffers that
      are saved, of the record batches that are inserted, and of the tables that are vacuumed. *)
  Inductive request :=
  | Create_normal
  | Create_series
  | Drop (tables : list (bool * nat))      (** if it is a time series table *)
  | Truncate (tables : list (bool * nat))
  | Vacuum (n : nat)
  | Put_normal (n : nat)                   (** [do_put] *)
  | Put_series (n : nat)
  | Insert_normal (n : nat)                (** INSERT *)
  | Insert_series (n : nat)
  | Flush_memory (n : nat)
  | Flush_node (n : nat)
  | Kill_node (n : nat)
  | Query_node                             (** [get_flight_info] *)
  | Get_configuration
  | Node_type
  | Update_memory (n : nat)
  | Update_transfer
  | Update_segment_size
  | Ctrl_c (n : nat)
  | Save_buffers (n : nat)                 (** a thread that frees memory *)
  | Transfer_periodically (n : nat).

  Definition program (r : request) : list action :=
    match r with
    (* remote.rs l.321-347 *)
    | Create_normal => under Configuration Read [Work; Work]
    (* remote.rs l.352-375 and context.rs l.107-127: the lock is acquired again. *)
    | Create_series =>
        under Configuration Read
          ([Work; Work] ++ under Configuration Read (logged (under Log Write [Work])))
    (* remote.rs l.380-407 *)
    | Drop tables =>
        under Configuration Read ([Work] ++ flat_map (fun p => drop_table (fst p) (snd p)) tables)
    (* remote.rs l.412-440 *)
    | Truncate tables =>
        under Configuration Read ([Work] ++ flat_map (fun p => truncate_table (fst p) (snd p)) tables)
    (* remote.rs l.443-473 *)
    | Vacuum n => under Configuration Read ([Work] ++ repeat Work n)
    (* remote.rs l.476-500 and l.503-525 *)
    | Put_normal n => concat (repeat (under Storage Write insert_normal) n)
    | Put_series n | Insert_series n => concat (repeat (under Storage Write insert_series) n)
    (* storage/data_sinks.rs l.81-100; for time series tables it is l.158-195. *)
    | Insert_normal n => concat (repeat (under Storage Read insert_normal) n)
    (* remote.rs l.853-862 *)
    | Flush_memory n => under Storage Write (saves n)
    (* remote.rs l.863-875 *)
    | Flush_node n => under Storage Write (saves n ++ under Transfers Read [Work])
    (* remote.rs l.876-898. Simplified: that the process ends is not modelled. *)
    | Kill_node n =>
        under Storage Write
          (saves n ++ under Transfers Read [Work] ++ under Configuration Read [Work])
    (* remote.rs l.571-577, l.901-902, and l.976-984 *)
    | Query_node | Get_configuration | Node_type => under Configuration Read [Work]
    (* remote.rs l.917 and configuration.rs l.255-345; memory for compressed data is freed by
       saving buffers, compressed_data_manager.rs l.297-310. *)
    | Update_memory n => under Configuration Write (under Storage Write (saves n) ++ [Work])
    (* configuration.rs l.350-394 and storage/mod.rs l.386-427 *)
    | Update_transfer =>
        under Configuration Write (under Storage Write (under Transfers Write [Work]) ++ [Work])
    (* configuration.rs l.404-426 *)
    | Update_segment_size => under Configuration Write (logged (under Log Write [Work]) ++ [Work])
    (* main.rs l.171-187 *)
    | Ctrl_c n => under Storage Write (saves n) ++ under Configuration Read [Work]
    | Save_buffers n => saves n
    (* data_transfer.rs l.178-192 *)
    | Transfer_periodically n => concat (repeat (under Transfers Write [Work]) n)
    end.
End Server.

(** ** Executions. *)

(** A request: the locks it holds, the latest first, and what remains to be done. *)
Record task := Task { held : list (lock * mode); rest : list action }.

(** All requests, and for each lock those that wait for it. *)
Record state := State { tasks : list task; queue : lock -> list (nat * mode) }.

Inductive event :=
| Ask (i : nat)     (** a request asks for a lock *)
| Grant (l : lock)  (** the first request that waits for a lock gets it *)
| Continue (i : nat)
| Fail (i : nat)    (** the work of a request fails, so it returns *)
| Cancel (i : nat). (** the client is gone, so a request is stopped *)

Fixpoint set_nth (i : nat) (a : task) (l : list task) : list task :=
  match l, i with
  | [], _ => []
  | _ :: l, 0 => a :: l
  | b :: l, S i => b :: set_nth i a l
  end.
Definition set_queue (l : lock) (q : list (nat * mode)) (f : lock -> list (nat * mode))
  : lock -> list (nat * mode) := fun k => if lock_eqb k l then q else f k.

(** Requests to read can hold a lock together. *)
Definition conflicts (m : mode) (p : lock * mode) (l : lock) : bool :=
  lock_eqb (fst p) l && match m, snd p with Read, Read => false | _, _ => true end.
Definition available (l : lock) (m : mode) (s : state) : bool :=
  negb (existsb (fun t => existsb (fun p => conflicts m p l) (held t)) (tasks s)).
Definition waiting (i : nat) (q : list (nat * mode)) : bool :=
  existsb (fun p => fst p =? i) q.

Fixpoint released (l : lock) (h : list (lock * mode)) : list (lock * mode) :=
  match h with
  | [] => []
  | p :: h => if lock_eqb (fst p) l then h else p :: released l h
  end.

Definition step (e : event) (s : state) : option state :=
  match e with
  | Ask i =>
      match nth_error (tasks s) i with
      | Some (Task h (Acquire l m :: r)) =>
          if waiting i (queue s l) then None
          else match queue s l with
               | [] =>
                   if available l m s
                   then Some (State (set_nth i (Task ((l, m) :: h) r) (tasks s)) (queue s))
                   else Some (State (tasks s) (set_queue l [(i, m)] (queue s)))
               | q => Some (State (tasks s) (set_queue l (q ++ [(i, m)]) (queue s)))
               end
      | _ => None
      end
  | Grant l =>
      match queue s l with
      | (i, m) :: q =>
          match nth_error (tasks s) i with
          | Some (Task h (_ :: r)) =>
              if available l m s
              then Some (State (set_nth i (Task ((l, m) :: h) r) (tasks s)) (set_queue l q (queue s)))
              else None
          | _ => None
          end
      | [] => None
      end
  | Continue i =>
      match nth_error (tasks s) i with
      | Some (Task h (Work :: r)) => Some (State (set_nth i (Task h r) (tasks s)) (queue s))
      | Some (Task h (Release l :: r)) =>
          Some (State (set_nth i (Task (released l h) r) (tasks s)) (queue s))
      | _ => None
      end
  (* The locks are released when their guards are dropped, in the reverse order. *)
  | Fail i =>
      match nth_error (tasks s) i with
      | Some (Task h (Work :: _)) =>
          Some (State (set_nth i (Task h (map (fun p => Release (fst p)) h)) (tasks s)) (queue s))
      | _ => None
      end
  | Cancel i =>
      match nth_error (tasks s) i with
      | Some (Task _ (_ :: _)) =>
          Some (State (set_nth i (Task [] []) (tasks s))
                  (fun l => filter (fun p => negb (fst p =? i)) (queue s l)))
      | _ => None
      end
  end.

Fixpoint run (events : list event) (s : state) : option state :=
  match events with
  | [] => Some s
  | e :: events => match step e s with Some s => run events s | None => None end
  end.

(** A server with all requests that it will get, in any order and at any time. *)
Definition start (programs : list (list action)) : state :=
  State (map (Task []) programs) (fun _ => []).
