(** TRUNCATE CLUSTER: deleting the rows of tables in the remote data folder and on all nodes of a
    cluster, while rows are inserted, saved, and transferred.

    Simplified: rows are numbers; the definitions of tables do not change (Model/Cluster.v); rows
    in memory are in the write-ahead log and are kept when a node crashes (Model/LogModes.v); a
    node has at most one transfer at a time (Model/Transfer.v); the truncation of the write-ahead
    log has no step of its own; every commit to a table is atomic (Model/TableWriter.v). *)
From Coq Require Import ZArith Bool String List.
From Verif Require Import Model.Base Model.Sql.
Import ListNotations.
Open Scope nat_scope.
Open Scope list_scope.

Definition rows := string -> list Z.
Definition set_rows (t : string) (l : list Z) (f : rows) : rows :=
  fun s => if String.eqb s t then l else f s.
Definition member (t : string) (l : list string) : bool := existsb (String.eqb t) l.
Definition without (t : string) (l : list string) : list string :=
  filter (fun s => negb (String.eqb s t)) l.

(** A node: the tables it has, their rows in memory and in its local data folder, the tables whose
    size is recorded and those that are marked as dropped in its data transfer component,
    crates/modelardb_server/src/storage/data_transfer.rs l.37-54, if a request has the exclusive
    lock of its storage engine, and what it is transferring: a table, the rows that were read, and
    if these have been written. *)
Record node := Node {
  tables : list string;
  memory : rows;
  disk : rows;
  sized : list string;
  marked : list string;
  locked : bool;
  moving : option (string * list Z * bool);
  alive : bool
}.

(** What a node does to truncate a table, [truncate_table] and [drop_table_from_storage_engine],
    context.rs l.340-382; [Refuse] is a statement that is not accepted. *)
Inductive action :=
| Mark (t : string)
| Flush
| Clear (t : string)
| Erase (t : string)
| Refuse.
Definition truncation (t : string) : list action := [Mark t; Flush; Clear t; Erase t].
(** The tables are truncated one after another, [truncate_tables], remote.rs l.431-437. *)
Definition truncations (ts : list string) : list action := flat_map truncation ts.
(** Peers get the text of a statement, [truncate_cluster_tables], cluster.rs l.215-217. *)
Definition truncations_peer (ts : list string) : list action :=
  match parse_sql ("TRUNCATE " ++ join ", " ts) with
  | Ok (Truncate_table names false) => truncations names
  | _ => [Refuse]
  end.

(** Statements that are being executed, and what nodes have to do for them. *)
Inductive progress :=
| Remotely (left : list string)
| Peers
| Own.
Record statement := Statement { origin : nat; named : list string; at_ : progress }.
Record job := Job { owner : nat; place : nat; left : list action }.

(** The cluster: the remote data folder, the nodes that are listed in it, the statements by their
    number, what nodes are doing, and the results that clients got. *)
Record cluster := Cluster {
  remote_tables : list string;
  remote : rows;
  listed : list nat;
  nodes : nat -> node;
  statements : list (nat * statement);
  jobs : list job;
  next : nat;
  results : list (nat * bool)
}.

Definition set_node (u : nat) (n : node) (f : nat -> node) : nat -> node :=
  fun v => if v =? u then n else f v.
Definition with_node (c : cluster) (u : nat) (n : node) : cluster :=
  Cluster (remote_tables c) (remote c) (listed c) (set_node u n (nodes c)) (statements c) (jobs c)
    (next c) (results c).
Definition with_jobs (c : cluster) (l : list job) : cluster :=
  Cluster (remote_tables c) (remote c) (listed c) (nodes c) (statements c) l (next c) (results c).
Definition statement_of (i : nat) (l : list (nat * statement)) : option statement :=
  option_map snd (find (fun p => fst p =? i) l).
Definition without_statement (i : nat) (l : list (nat * statement)) : list (nat * statement) :=
  filter (fun p => negb (fst p =? i)) l.
Definition proceeded (c : cluster) (i : nat) (s : statement) (p : progress) : cluster :=
  Cluster (remote_tables c) (remote c) (listed c) (nodes c)
    (without_statement i (statements c) ++ [(i, Statement (origin s) (named s) p)]) (jobs c)
    (next c) (results c).
(** The statement has ended, and the client gets its result. *)
Definition ended (c : cluster) (i : nat) (ok : bool) : cluster :=
  match statement_of i (statements c) with
  | Some _ =>
      Cluster (remote_tables c) (remote c) (listed c) (nodes c)
        (without_statement i (statements c)) (jobs c) (next c) (results c ++ [(i, ok)])
  | None => c
  end.
Definition owned (i : nat) (c : cluster) : bool := existsb (fun j => owner j =? i) (jobs c).

Fixpoint without_nth {A : Type} (k : nat) (l : list A) : list A :=
  match k, l with
  | 0, _ :: l => l
  | S k, a :: l => a :: without_nth k l
  | _, [] => []
  end.
Fixpoint replace_nth {A : Type} (k : nat) (b : A) (l : list A) : list A :=
  match k, l with
  | 0, _ :: l => b :: l
  | S k, a :: l => a :: replace_nth k b l
  | _, [] => []
  end.

(** What happens in a cluster. *)
Inductive event :=
| Insert (u : nat) (t : string) (l : list Z)   (** rows are inserted and kept in memory *)
| Save (u : nat) (t : string) (n : nat)        (** rows are saved in the local data folder *)
| Scan (u : nat) (t : string)                  (** a transfer reads the rows of a table *)
| Write (u : nat)                              (** a transfer writes them *)
| Delete (u : nat)                             (** a transfer deletes the rows of the table *)
| Begin (u : nat) (ts : list string)           (** TRUNCATE CLUSTER is received *)
| Proceed (i : nat)                            (** the node that received a statement continues *)
| Abandon (i : nat)                            (** it cannot access the remote data folder *)
| Work (k : nat) (ok : bool)                   (** a node continues what it has to do *)
| Cancel (k : nat)                             (** nobody waits for it, so it is stopped *)
| Crash (u : nat)
| Leave (u : nat)                              (** the node is stopped by a user *)
| Join (u : nat).                              (** the node is started *)

(** Rows in memory are saved, and their size is recorded, [increase_table_size], data_transfer.rs
    l.105-126. Flushing does so for all tables. *)
Definition saved (n : node) (t : string) (k : nat) : node :=
  Node (tables n) (set_rows t (skipn k (memory n t)) (memory n))
    (set_rows t (disk n t ++ firstn k (memory n t)) (disk n))
    (t :: sized n) (marked n) (locked n) (moving n) (alive n).
Definition flushed (n : node) : node :=
  fold_left (fun n t => match memory n t with
                        | [] => n
                        | l => saved n t (List.length l)
                        end) (tables n) n.
Definition with_lock (n : node) (lock : bool) : node :=
  Node (tables n) (memory n) (disk n) (sized n) (marked n) lock (moving n) (alive n).

(** The next step of a node: [None] if it has to wait, and otherwise its new state and if the step
    succeeded. A lock that is held when a step fails is released, but the mark stays. *)
Definition perform (a : action) (ok : bool) (n : node) : option (node * bool) :=
  match a with
  (* The table has to exist, context.rs l.343-345. Marking waits for the exclusive lock of the
     storage engine, l.373, and for transfers, storage/mod.rs l.363-369. *)
  | Mark t =>
      if member t (tables n) then
        if locked n then None
        else match moving n with
             | Some _ => None
             | None => Some (Node (tables n) (memory n) (disk n) (sized n) (t :: marked n) true
                               (moving n) (alive n), true)
             end
      else Some (n, false)
  (* l.375. That rows could not be saved is only logged, [process_compressed_messages] and
     [flush_and_log_errors], compressed_data_manager.rs l.113-137 and l.207-222, and the rows of
     the tables that follow are not saved either. Simplified: then no rows are saved, and those of
     the table that could not be saved, which are only in the log, stay in [memory]. *)
  | Flush => if ok then Some (flushed n, true) else Some (n, true)
  (* l.376 and [clear_table], data_transfer.rs l.134-145. *)
  | Clear t =>
      match moving n with
      | Some _ => None
      | None => Some (Node (tables n) (memory n) (disk n) (without t (sized n))
                        (without t (marked n)) false (moving n) (alive n), true)
      end
  (* l.362 *)
  | Erase t =>
      if ok then Some (Node (tables n) (memory n) (set_rows t [] (disk n)) (sized n) (marked n)
                         (locked n) (moving n) (alive n), true)
      else Some (n, false)
  | Refuse => Some (n, false)
  end.

Definition holds_lock (l : list action) : bool :=
  match l with Flush :: _ | Clear _ :: _ => true | _ => false end.

(** The statements that are received by a node or that wait for it fail when it stops. *)
Definition fails_with (u : nat) (c : cluster) (p : nat * statement) : bool :=
  (origin (snd p) =? u) || existsb (fun j => (owner j =? fst p) && (place j =? u)) (jobs c).
Definition stopped (c : cluster) (u : nat) (listed' : list nat) (n : node) : cluster :=
  Cluster (remote_tables c) (remote c) listed' (set_node u n (nodes c))
    (filter (fun p => negb (fails_with u c p)) (statements c))
    (filter (fun j => negb (place j =? u)) (jobs c)) (next c)
    (results c ++ map (fun p => (fst p, false)) (filter (fails_with u c) (statements c))).

Definition step (c : cluster) (e : event) : cluster :=
  match e with
  (* [insert_data_points] needs the exclusive lock of the storage engine, remote.rs l.511. *)
  | Insert u t l =>
      let n := nodes c u in
      if alive n && negb (locked n) && member t (tables n) then
        with_node c u (Node (tables n) (set_rows t (memory n t ++ l) (memory n)) (disk n) (sized n)
                         (marked n) (locked n) (moving n) (alive n))
      else c
  | Save u t k =>
      let n := nodes c u in
      if alive n && member t (tables n) then with_node c u (saved n t k) else c
  (* [transfer_data], data_transfer.rs l.224-261: tables that are marked are not transferred, and
     neither are tables without a recorded size. *)
  | Scan u t =>
      let n := nodes c u in
      match moving n with
      | None =>
          if alive n && member t (sized n) && negb (member t (marked n)) then
            with_node c u (Node (tables n) (memory n) (disk n) (sized n) (marked n) (locked n)
                             (Some (t, disk n t, false)) (alive n))
          else c
      | Some _ => c
      end
  | Write u =>
      let n := nodes c u in
      match moving n with
      | Some (t, l, false) =>
          with_node
            (Cluster (remote_tables c) (set_rows t (remote c t ++ l) (remote c)) (listed c) (nodes c)
               (statements c) (jobs c) (next c) (results c))
            u (Node (tables n) (memory n) (disk n) (sized n) (marked n) (locked n)
                 (Some (t, l, true)) (alive n))
      | _ => c
      end
  | Delete u =>
      let n := nodes c u in
      match moving n with
      | Some (t, _, true) =>
          with_node c u (Node (tables n) (memory n) (set_rows t [] (disk n)) (without t (sized n))
                           (marked n) (locked n) None (alive n))
      | _ => c
      end
  (* [truncate_tables], remote.rs l.412-429. *)
  | Begin u ts =>
      if alive (nodes c u) then
        Cluster (remote_tables c) (remote c) (listed c) (nodes c)
          (statements c ++ [(next c, Statement u ts (Remotely ts))]) (jobs c) (S (next c)) (results c)
      else c
  (* [truncate_cluster_tables], cluster.rs l.209-220: the tables are truncated in the remote data
     folder, the nodes are read, [peer_nodes], l.332-339, and peers get the statement. At last the
     node truncates its own tables, remote.rs l.431-437. *)
  | Proceed i =>
      match statement_of i (statements c) with
      | Some s =>
          match at_ s with
          | Remotely (t :: left) =>
              if member t (remote_tables c) then
                proceeded
                  (Cluster (remote_tables c) (set_rows t [] (remote c)) (listed c) (nodes c)
                     (statements c) (jobs c) (next c) (results c)) i s (Remotely left)
              else ended c i false
          | Remotely [] =>
              proceeded
                (with_jobs c (jobs c
                   ++ map (fun w => Job i w (truncations_peer (named s)))
                        (filter (fun w => negb (w =? origin s)) (listed c)))) i s Peers
          | Peers =>
              if owned i c then c
              else proceeded (with_jobs c (jobs c ++ [Job i (origin s) (truncations (named s))]))
                     i s Own
          | Own => if owned i c then c else ended c i true
          end
      | None => c
      end
  | Abandon i => ended c i false
  (* If a peer fails, the statement fails, [cluster_do_get], cluster.rs l.253-270. *)
  | Work k ok =>
      match nth_error (jobs c) k with
      | Some (Job i w []) => with_jobs c (without_nth k (jobs c))
      | Some (Job i w (a :: left)) =>
          if alive (nodes c w) then
            match perform a ok (nodes c w) with
            | Some (n, true) =>
                with_jobs (with_node c w n) (replace_nth k (Job i w left) (jobs c))
            | Some (n, false) =>
                ended (with_jobs (with_node c w n) (without_nth k (jobs c))) i false
            | None => c
            end
          else ended (with_jobs c (without_nth k (jobs c))) i false
      | None => c
      end
  | Cancel k =>
      match nth_error (jobs c) k with
      | Some (Job i w left) =>
          match statement_of i (statements c) with
          | None =>
              with_jobs
                (if holds_lock left then with_node c w (with_lock (nodes c w) false) else c)
                (without_nth k (jobs c))
          | Some _ => c
          end
      | None => c
      end
  | Crash u =>
      let n := nodes c u in
      stopped c u (listed c)
        (Node (tables n) (memory n) (disk n) (sized n) [] false None false)
  (* CTRL+C and KillNode, main.rs l.171-203 and remote.rs l.873-898, remove the node. *)
  | Leave u =>
      let n := nodes c u in
      stopped c u (filter (fun v => negb (v =? u)) (listed c))
        (Node (tables n) (memory n) (disk n) (sized n) [] false None false)
  (* [save_node], data_folder/cluster.rs l.103-117, and the sizes are computed from the files,
     [DataTransfer::try_new], data_transfer.rs l.61-102. *)
  | Join u =>
      let n := nodes c u in
      if alive n then c
      else with_node
             (Cluster (remote_tables c) (remote c) (listed c ++ [u]) (nodes c) (statements c)
                (jobs c) (next c) (results c)) u
             (Node (tables n) (memory n) (disk n)
                (filter (fun t => match disk n t with [] => false | _ => true end) (tables n))
                (marked n) (locked n) (moving n) true)
  end.
Definition run (c : cluster) (events : list event) : cluster := fold_left step events c.

(** A cluster whose nodes have not been started and have the same tables. *)
Definition new_cluster (ts : list string) : cluster :=
  Cluster ts (fun _ => []) []
    (fun _ => Node ts (fun _ => []) (fun _ => []) [] [] false None false) [] [] 0 [].
