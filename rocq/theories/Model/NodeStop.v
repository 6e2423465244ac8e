(** Flushing and stopping a node: the actions FlushMemory, FlushNode and KillNode,
    crates/modelardb_server/src/remote.rs l.853-898, and CTRL+C, main.rs l.171-188.

    Simplified: data points are compressed when they are inserted (see Model/Pipeline.v), a write to
    a table and the deletion of its rows each are one commit (see Model/TableWriter.v), and requests
    are executed one at a time as they hold the lock of the storage engine (see
    Model/ServerLocks.v); the transfer of a table that has become large enough is not modelled, nor
    are those of other tasks (see Model/Transfer.v), and the log is a set of rows (see Model/Wal.v). *)
From Coq Require Import ZArith Bool String List.
Import ListNotations.
Open Scope list_scope.

(** A row of a table. *)
Definition row : Type := string * Z.
Definition of_table (t : string) (r : row) : bool := String.eqb (fst r) t.
Definition row_eqb (a b : row) : bool := String.eqb (fst a) (fst b) && Z.eqb (snd a) (snd b).
Definition member (r : row) (l : list row) : bool := existsb (row_eqb r) l.
Definition minus (l m : list row) : list row := filter (fun r => negb (member r m)) l.
Definition outside (t : string) (l : list row) : list row :=
  filter (fun r => negb (of_table t r)) l.

(** Nodes without a remote data folder, and nodes in a cluster, data_folders.rs l.54-120. *)
Inductive kind := Single | Edge | Cloud.

Inductive request := Flush_memory | Flush_node | Kill_node | Ctrl_c.

(** What is left to do of a request. *)
Inductive act :=
| Flush                         (** [flush] and [close], storage/mod.rs l.296-330 *)
| Begin_transfer                (** [transfer], l.304-315 *)
| Transfer (tables : list string) (** [transfer_larger_than_threshold], data_transfer.rs l.205-218 *)
| Remove                        (** [remove_node], cluster.rs l.341-347 *)
| Exit                          (** [std::process::exit(0)] *)
| Answer.

Definition program (r : request) : list act :=
  match r with
  | Flush_memory => [Flush; Answer]
  | Flush_node => [Flush; Begin_transfer; Answer]
  | Kill_node => [Flush; Begin_transfer; Remove; Exit]
  | Ctrl_c => [Flush; Remove; Exit]
  end.

(** What the client sees: an answer, an error, or that the process ends. *)
Inductive answer := Fine | Failed | Exited.

Record node := Node {
  running : bool;
  buffers : list (list row);   (** compressed data in memory, a buffer for each table, in order *)
  log : list row;              (** rows in the write-ahead log *)
  committed : list row;        (** rows whose batches are in the commits of the local tables *)
  counted : list row;          (** rows of the local tables that are part of their recorded sizes *)
  uncounted : list row;        (** other rows of the local tables *)
  remote : list row;           (** rows of the remote tables *)
  listed : nat;                (** rows with the url in the table with the nodes of the cluster *)
  doing : option (request * list act);
  answers : list (request * answer)  (** the latest first *)
}.

(** [save_compressed_data], storage/compressed_data_manager.rs l.240-291: the data is written to the
    table, or it could not be written, l.263-265, or it was written but the log could not be
    updated, l.267-272, so its size is not recorded, l.274-281. *)
Inductive saving := Saved | Not_written | Not_marked.
(** [transfer_data], data_transfer.rs l.224-261. *)
Inductive moving := Moved | Not_copied | Not_deleted.

Inductive event :=
| Insert (t : string) (z : Z)   (** a data point is inserted in a time series table *)
| Request (r : request)
| Save (o : saving)             (** saves the next buffer *)
| Continue                      (** what cannot fail *)
| Move (o : moving)             (** transfers the next table *)
| Unlist (ok : bool)            (** deletes the rows with the url *)
| Crash
| Restart.

Section Node.
  Variable logging : bool.      (** if the write-ahead log is enabled *)
  Variable k : kind.

  Definition logged (l : list row) : list row := if logging then l else [].

  (** [insert_compressed_segments], compressed_data_manager.rs l.142-188: the buffer of the table is
      found, or one is created and added to the queue. *)
  Fixpoint put (r : row) (l : list (list row)) : list (list row) :=
    match l with
    | [] => [[r]]
    | b :: l => if existsb (of_table (fst r)) b then (b ++ [r]) :: l else b :: put r l
    end.

  Definition set_doing (r : request) (l : list act) (n : node) : node :=
    Node (running n) (buffers n) (log n) (committed n) (counted n) (uncounted n) (remote n)
      (listed n) (Some (r, l)) (answers n).
  (** The request returns. *)
  Definition reply (r : request) (a : answer) (n : node) : node :=
    Node (running n) (buffers n) (log n) (committed n) (counted n) (uncounted n) (remote n)
      (listed n) None ((r, a) :: answers n).
  (** The process ends, with what has been answered. *)
  Definition stop (l : list (request * answer)) (n : node) : node :=
    Node false [] (log n) (committed n) (counted n) (uncounted n) (remote n) (listed n) None
      (l ++ answers n).
  (** An error is returned to the client; the handler of CTRL+C panics, main.rs l.178-184, which
      ends the process as the release profile aborts. *)
  Definition error (r : request) (n : node) : node :=
    match r with Ctrl_c => stop [] n | _ => reply r Failed n end.

  (** The tables whose recorded size is larger than 0. Simplified: in some order. *)
  Definition sized_tables (n : node) : list string :=
    nodup string_dec (map fst (counted n)).

  (** The rows that are replayed, [replay_write_ahead_log], context.rs l.266-300, in the buffers of
      their tables. *)
  Definition replayed (n : node) : list (list row) :=
    fold_left (fun l r => put r l) (logged (minus (log n) (committed n))) [].

  Definition step (e : event) (n : node) : option node :=
    match e with
    | Insert t z =>
        match running n, doing n with
        | true, None =>
            Some (Node true (put (t, z) (buffers n)) (logged [(t, z)] ++ log n) (committed n)
                    (counted n) (uncounted n) (remote n) (listed n) None (answers n))
        | _, _ => None
        end
    | Request r =>
        match running n, doing n with
        | true, None => Some (set_doing r (program r) n)
        | _, _ => None
        end
    (* [flush], compressed_data_manager.rs l.221-235, stops at the first error, which is only
       logged, l.125-131 and l.207-217. *)
    | Save o =>
        match doing n, buffers n with
        | Some (r, Flush :: rest), b :: buffers =>
            Some match o with
                 | Saved =>
                     Node (running n) buffers (minus (log n) b) (b ++ committed n) (b ++ counted n)
                       (uncounted n) (remote n) (listed n) (doing n) (answers n)
                 | Not_written =>
                     Node (running n) buffers (log n) (committed n) (counted n) (uncounted n)
                       (remote n) (listed n) (Some (r, rest)) (answers n)
                 | Not_marked =>
                     Node (running n) buffers (log n) (b ++ committed n) (counted n)
                       (b ++ uncounted n) (remote n) (listed n) (Some (r, rest)) (answers n)
                 end
        | _, _ => None
        end
    | Continue =>
        match doing n with
        | Some (r, Flush :: rest) =>
            match buffers n with [] => Some (set_doing r rest n) | _ => None end
        | Some (r, Begin_transfer :: rest) =>
            match k with
            | Single => Some (error r n)
            | _ => Some (set_doing r (Transfer (sized_tables n) :: rest) n)
            end
        | Some (r, Transfer [] :: rest) => Some (set_doing r rest n)
        | Some (r, Remove :: rest) =>
            match k with Single => Some (set_doing r rest n) | _ => None end
        | Some (r, Exit :: _) => Some (stop [(r, Exited)] n)
        | Some (r, Answer :: _) => Some (reply r Fine n)
        | _ => None
        end
    (* All rows of the table are copied, and its size is set to 0. *)
    | Move o =>
        match doing n with
        | Some (r, Transfer (t :: tables) :: rest) =>
            let rows := filter (of_table t) (counted n ++ uncounted n) in
            match o with
            | Moved =>
                Some (Node (running n) (buffers n) (log n) (committed n) (outside t (counted n))
                        (outside t (uncounted n)) (rows ++ remote n) (listed n)
                        (Some (r, Transfer tables :: rest)) (answers n))
            | Not_copied => Some (error r n)
            | Not_deleted =>
                Some (error r
                        (Node (running n) (buffers n) (log n) (committed n) (counted n)
                           (uncounted n) (rows ++ remote n) (listed n) (doing n) (answers n)))
            end
        | _ => None
        end
    (* [remove_node], crates/modelardb_storage/src/data_folder/cluster.rs l.119-131, deletes all
       rows with the url of the node. *)
    | Unlist ok =>
        match doing n, k with
        | Some (r, Remove :: rest), (Edge | Cloud) =>
            if ok then
              Some (Node (running n) (buffers n) (log n) (committed n) (counted n) (uncounted n)
                      (remote n) 0 (Some (r, rest)) (answers n))
            else Some (error r n)
        | _, _ => None
        end
    | Crash => if running n then Some (stop [] n) else None
    (* The node is added to the table with nodes, cluster.rs l.56-64, the sizes are those of the
       files of the local tables, data_transfer.rs l.61-102, and the log is replayed, main.rs
       l.158-162. *)
    | Restart =>
        if running n then None
        else Some (Node true (replayed n) (log n) (committed n) (counted n ++ uncounted n) []
                     (remote n) (match k with Single => 0 | _ => S (listed n) end) None (answers n))
    end.

  Fixpoint run (events : list event) (n : node) : option node :=
    match events with
    | [] => Some n
    | e :: events => match step e n with Some n => run events n | None => None end
    end.

  (** A node that has not been started. *)
  Definition new : node := Node false [] [] [] [] [] [] 0 None [].
End Node.
