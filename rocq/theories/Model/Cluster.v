(** The tables of the nodes in a cluster and of the remote data folder they share. *)
From Coq Require Import ZArith Bool String List.
From Verif Require Import Model.Base Model.Sql.
Import ListNotations.
Open Scope nat_scope.
Open Scope list_scope.

(** The definition of a table: the schema of a normal table, or the metadata of a time series table.
    Simplified: they are numbers, as they are only compared and copied. *)
Inductive table :=
| Normal (schema : Z)
| Series (metadata : Z).
Definition tables := list (string * table).

Definition find_table (x : string) (ts : tables) : option table :=
  option_map snd (find (fun p => String.eqb (fst p) x) ts).
Definition has_table (x : string) (ts : tables) : bool :=
  match find_table x ts with Some _ => true | None => false end.

(** Creating a table in a data folder fails if it exists, [create_normal_table] and
    [create_time_series_table], crates/modelardb_storage/src/data_folder/mod.rs l.396-446, and
    crates/modelardb_server/src/context.rs l.75-128. Simplified: the names can be registered, and
    crashes while a table is created or dropped are not modelled, see Model/Catalog.v. *)
Definition create_table (x : string) (d : table) (ts : tables) : tables * bool :=
  if has_table x ts then (ts, false) else (ts ++ [(x, d)], true).
(** Tables are dropped one after another, [drop_cluster_tables], cluster.rs l.194-206, and
    [drop_tables], remote.rs l.399-404; dropping a table fails if it does not exist, [drop_table],
    context.rs l.306-335, and [delete_table_metadata], data_folder/mod.rs l.592-621. *)
Fixpoint drop_tables (xs : list string) (ts : tables) : tables * bool :=
  match xs with
  | [] => (ts, true)
  | x :: xs =>
      if has_table x ts then drop_tables xs (filter (fun p => negb (String.eqb (fst p) x)) ts)
      else (ts, false)
  end.

(** The schema of the Delta Lake table of a time series table, [compressed_schema]. *)
Section Cluster.
Variable storage_schema : Z -> Z.

(** [validate_local_tables_exist_remotely], crates/modelardb_server/src/cluster.rs l.354-377. *)
Definition exist_remotely (local remote : tables) : bool :=
  forallb (fun p => has_table (fst p) remote) local.

(** [normal_table_schema], l.411-415: the schema of the Delta Lake table, of whichever type. *)
Definition delta_schema (d : table) : Z :=
  match d with Normal schema => schema | Series metadata => storage_schema metadata end.

(** [validate_normal_tables], l.379-409, and [validate_time_series_tables], l.417-447: the tables
    that are missing, or [None] if a table has a different definition. *)
Fixpoint missing_normal (remote local : tables) : option tables :=
  match remote with
  | [] => Some []
  | (x, Normal schema) :: remote =>
      match find_table x local with
      | Some d => if (delta_schema d =? schema)%Z then missing_normal remote local else None
      | None => option_map (cons (x, Normal schema)) (missing_normal remote local)
      end
  | _ :: remote => missing_normal remote local
  end.
Fixpoint missing_series (remote local : tables) : option tables :=
  match remote with
  | [] => Some []
  | (x, Series metadata) :: remote =>
      match find_table x local with
      | Some (Series m) => if (m =? metadata)%Z then missing_series remote local else None
      | _ => option_map (cons (x, Series metadata)) (missing_series remote local)
      end
  | _ :: remote => missing_series remote local
  end.

Fixpoint create_tables (missing : tables) (local : tables) : tables * bool :=
  match missing with
  | [] => (local, true)
  | (x, d) :: missing =>
      match create_table x d local with
      | (local, true) => create_tables missing local
      | (local, false) => (local, false)
      end
  end.

(** [retrieve_and_create_tables], l.92-116. *)
Definition synchronize (remote local : tables) : tables * bool :=
  if exist_remotely local remote then
    match missing_normal remote local, missing_series remote local with
    | Some normal, Some series => create_tables (normal ++ series) local
    | _, _ => (local, false)
    end
  else (local, false).

(** A node is identified by its url. It saves itself in the remote data folder and reads the keys
    that are there, [Cluster::try_new], l.51-73, it creates a key if there was none, [cluster_key],
    crates/modelardb_storage/src/data_folder/cluster.rs l.76-101, it retrieves the tables, and then
    it accepts requests, main.rs l.143-165. *)
Inductive stage :=
| Stopped
| Joining (read : option Z)
| Joined (key : Z)
| Running (key : Z).
Record node := Node { local : tables; at_stage : stage }.

(** Requests, and what is left to do of them. *)
Inductive request :=
| Create (x : string) (d : table)
| Drop (xs : list string).
Inductive phase :=
| Reading
| Visiting (rows : list nat).
Record task := Task { origin : nat; asked : request; reached : phase }.

(** The cluster: the tables in the remote data folder, the rows with nodes and the rows with keys
    in its metadata, the nodes, the requests that are being executed, and if a request has failed
    after it changed tables. *)
Record cluster := Cluster {
  remote : tables;
  rows : list nat;
  keys : list Z;
  nodes : nat -> node;
  tasks : list task;
  harmed : bool
}.

Definition update (f : nat -> node) (u : nat) (n : node) : nat -> node :=
  fun v => if v =? u then n else f v.
Definition with_node (c : cluster) (u : nat) (n : node) : cluster :=
  Cluster (remote c) (rows c) (keys c) (update (nodes c) u n) (tasks c) (harmed c).

Definition running (c : cluster) (u : nat) : bool :=
  match at_stage (nodes c u) with Running _ => true | _ => false end.

(** Tasks. *)
Fixpoint without_nth {A : Type} (i : nat) (l : list A) : list A :=
  match i, l with
  | 0, _ :: l => l
  | S i, a :: l => a :: without_nth i l
  | _, [] => []
  end.
Fixpoint replace_nth {A : Type} (i : nat) (b : A) (l : list A) : list A :=
  match i, l with
  | 0, _ :: l => b :: l
  | S i, a :: l => a :: replace_nth i b l
  | _, [] => []
  end.
Fixpoint remove_one (u : nat) (l : list nat) : list nat :=
  match l with
  | [] => []
  | v :: l => if v =? u then l else v :: remove_one u l
  end.

(** A node executes a request locally, remote.rs l.322-407: a CREATE is sent to peers as metadata,
    and a DROP as the text of a statement, cluster.rs l.201-203, that they parse. Simplified: a
    definition is not changed when it is sent, see C43. *)
Definition execute (r : request) (ts : tables) : tables * bool :=
  match r with
  | Create x d => create_table x d ts
  | Drop xs => drop_tables xs ts
  end.
Definition execute_peer (r : request) (ts : tables) : tables * bool :=
  match r with
  | Create x d => create_table x d ts
  | Drop xs =>
      match parse_sql ("DROP TABLE " ++ join ", " xs) with
      | Ok (Drop_table names) => drop_tables names ts
      | _ => (ts, false)
      end
  end.

Definition lost (u : nat) (l : list task) : bool := existsb (fun t => origin t =? u) l.
Definition without_origin (u : nat) (l : list task) : list task :=
  filter (fun t => negb (origin t =? u)) l.

(** What happens in a cluster. *)
Inductive event :=
| Join (u : nat)
| Choose (u : nat) (key : Z)
| Synchronize (u : nat)
| Stop (u : nat)
| Crash (u : nat)
| Begin (u : nat) (r : request)
| Read (i : nat)
| Visit (i : nat) (w : nat)
| Finish (i : nat).

Definition failed (c : cluster) (i : nat) : cluster :=
  Cluster (remote c) (rows c) (keys c) (nodes c) (without_nth i (tasks c)) true.

Definition step (c : cluster) (e : event) : cluster :=
  match e with
  (* [save_node] appends a row, data_folder/cluster.rs l.103-117. *)
  | Join u =>
      match at_stage (nodes c u) with
      | Stopped =>
          Cluster (remote c) (rows c ++ [u]) (keys c)
            (update (nodes c) u (Node (local (nodes c u)) (Joining (hd_error (keys c)))))
            (tasks c) (harmed c)
      | _ => c
      end
  | Choose u key =>
      match at_stage (nodes c u) with
      | Joining (Some key) => with_node c u (Node (local (nodes c u)) (Joined key))
      | Joining None =>
          Cluster (remote c) (rows c) (keys c ++ [key])
            (update (nodes c) u (Node (local (nodes c u)) (Joined key))) (tasks c) (harmed c)
      | _ => c
      end
  (* A node that could not be synchronized stops, but its row is not removed. *)
  | Synchronize u =>
      match at_stage (nodes c u) with
      | Joined key =>
          let '(ts, ok) := synchronize (remote c) (local (nodes c u)) in
          with_node c u (Node ts (if ok then Running key else Stopped))
      | _ => c
      end
  (* KillNode, remote.rs l.873-896, and CTRL+C, main.rs l.171-203. *)
  | Stop u =>
      if running c u then
        Cluster (remote c) (filter (fun v => negb (v =? u)) (rows c)) (keys c)
          (update (nodes c) u (Node (local (nodes c u)) Stopped))
          (without_origin u (tasks c)) (harmed c || lost u (tasks c))
      else c
  | Crash u =>
      Cluster (remote c) (rows c) (keys c) (update (nodes c) u (Node (local (nodes c u)) Stopped))
        (without_origin u (tasks c)) (harmed c || lost u (tasks c))
  (* The remote data folder is changed first, cluster.rs l.139-206. Simplified: several tables are
     dropped there at once. *)
  | Begin u r =>
      if running c u then
        let '(ts, ok) := execute r (remote c) in
        if ok then
          Cluster ts (rows c) (keys c) (nodes c) (tasks c ++ [Task u r Reading]) (harmed c)
        else
          Cluster ts (rows c) (keys c) (nodes c) (tasks c)
            (harmed c || negb (List.length ts =? List.length (remote c)))
      else c
  (* [peer_nodes], cluster.rs l.332-339. *)
  | Read i =>
      match nth_error (tasks c) i with
      | Some (Task u r Reading) =>
          Cluster (remote c) (rows c) (keys c) (nodes c)
            (replace_nth i (Task u r (Visiting (filter (fun v => negb (v =? u)) (rows c)))) (tasks c))
            (harmed c)
      | _ => c
      end
  (* A peer that accepts requests and has the same key executes the request, in any order,
     [cluster_do_get] and [cluster_do_action], cluster.rs l.253-330, and [cluster_key_in_request],
     remote.rs l.258-272. Simplified: when a peer fails, those that have not yet executed the
     request do not do so. *)
  | Visit i w =>
      match nth_error (tasks c) i with
      | Some (Task u r (Visiting peers)) =>
          if existsb (Nat.eqb w) peers then
            match at_stage (nodes c w), at_stage (nodes c u) with
            | Running key, Running key' =>
                if (key =? key')%Z then
                  let '(ts, ok) := execute_peer r (local (nodes c w)) in
                  let c := with_node c w (Node ts (Running key)) in
                  if ok then
                    Cluster (remote c) (rows c) (keys c) (nodes c)
                      (replace_nth i (Task u r (Visiting (remove_one w peers))) (tasks c)) (harmed c)
                  else failed c i
                else failed c i
            | _, _ => failed c i
            end
          else c
      | _ => c
      end
  (* At last, the node that got the request executes it, remote.rs l.337-407. *)
  | Finish i =>
      match nth_error (tasks c) i with
      | Some (Task u r (Visiting [])) =>
          let '(ts, ok) := execute r (local (nodes c u)) in
          let c := with_node c u (Node ts (at_stage (nodes c u))) in
          if ok then
            Cluster (remote c) (rows c) (keys c) (nodes c) (without_nth i (tasks c)) (harmed c)
          else failed c i
      | _ => c
      end
  end.
Definition run (c : cluster) (events : list event) : cluster := fold_left step events c.

(** No node has been started; nodes can have tables from when they were not in a cluster. *)
Definition new_cluster (remote : tables) (local : nat -> tables) : cluster :=
  Cluster remote [] [] (fun u => Node (local u) Stopped) [] false.
End Cluster.
