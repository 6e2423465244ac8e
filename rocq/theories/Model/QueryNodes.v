(** Which nodes of a cluster execute queries: [get_flight_info], crates/modelardb_server/src/remote.rs
    l.566-603, and the table with nodes in the remote data folder,
    crates/modelardb_storage/src/data_folder/cluster.rs l.51-160.

    Simplified: a row is a number and all are in one table (see Model/Transfer.v and Model/Cluster.v);
    each access to the table with nodes is one commit; queries read all rows. *)
From Coq Require Import ZArith Bool String List.
Import ListNotations.
Open Scope list_scope.

Inductive mode := Edge | Cloud.
Definition is_cloud (m : mode) : bool := match m with Cloud => true | Edge => false end.

(** A process is listed before it accepts requests, [Cluster::try_new],
    crates/modelardb_server/src/cluster.rs l.56-64 and main.rs l.142-165, and is removed before it
    ends, remote.rs l.876-898 and main.rs l.180-187. *)
Inductive stage := Starting | Running | Leaving | Ended.

(** A process with the url it is listed with: by default the host is 127.0.0.1, main.rs l.56-58 and
    data_folders.rs l.59. *)
Record process := Process {
  url : string;
  as_mode : mode;
  at_stage : stage;
  local : list Z    (** rows in the local data folder *)
}.

(** A query of a client: the url of the node that is to execute it, or [None] if it was refused,
    and the result if there is one. *)
Inductive result := Waiting | Rows (rows : list Z) | Unreachable.
Record query := Query { assigned : option string; outcome_of : result }.

Record cluster := Cluster {
  listed : list (string * mode);
  remote : list Z;
  processes : list process;
  queries : list query
}.

Inductive event :=
| Start (u : string) (m : mode) (rows : list Z)  (** with the rows in its local data folder *)
| Ready (p : nat)                  (** accepts requests *)
| Fail (p : nat)                   (** cannot be started, or crashes *)
| Remove (p : nat)                 (** KillNode or CTRL+C *)
| Exit (p : nat)
| Insert (p : nat) (z : Z)
| Transfer (p : nat)
| Ask (p : nat) (k : nat)          (** [k] is the random choice *)
| Answer (q : nat) (p : nat)
| Give_up (q : nat).

Fixpoint set_nth {A : Type} (i : nat) (a : A) (l : list A) : list A :=
  match l, i with
  | [], _ => []
  | _ :: l, O => a :: l
  | b :: l, S i => b :: set_nth i a l
  end.

Definition with_process (c : cluster) (i : nat) (p : process) : cluster :=
  Cluster (listed c) (remote c) (set_nth i p (processes c)) (queries c).
Definition with_stage (s : stage) (p : process) : process :=
  Process (url p) (as_mode p) s (local p).

(** [query_node], cluster.rs l.118-135: one of the rows with cloud nodes. *)
Definition cloud_nodes (c : cluster) : list string :=
  map fst (filter (fun n => is_cloud (snd n)) (listed c)).

(** The data folder that queries read, data_folders.rs l.61-118. *)
Definition query_rows (p : process) (c : cluster) : list Z :=
  match as_mode p with Cloud => remote c | Edge => local p end.

(** If a request to a url reaches a process. If several processes are listed with the same url, the
    client reaches any of them, or none, depending on its host. *)
Definition serves (u : string) (p : process) : bool :=
  String.eqb (url p) u && match at_stage p with Running | Leaving => true | _ => false end.

Definition step (e : event) (c : cluster) : option cluster :=
  match e with
  (* [save_node], data_folder/cluster.rs l.103-117, appends a row. *)
  | Start u m rows =>
      Some (Cluster (listed c ++ [(u, m)]) (remote c)
              (processes c ++ [Process u m Starting rows]) (queries c))
  | Ready i =>
      match nth_error (processes c) i with
      | Some (Process _ _ Starting _ as p) => Some (with_process c i (with_stage Running p))
      | _ => None
      end
  | Fail i =>
      match nth_error (processes c) i with
      | Some (Process _ _ (Starting | Running | Leaving) _ as p) =>
          Some (with_process c i (with_stage Ended p))
      | _ => None
      end
  (* [remove_node], data_folder/cluster.rs l.119-131, deletes all rows with the url. If it fails the
     process goes on or crashes. *)
  | Remove i =>
      match nth_error (processes c) i with
      | Some (Process u _ Running _ as p) =>
          Some (with_process
                  (Cluster (filter (fun n => negb (String.eqb (fst n) u)) (listed c)) (remote c)
                     (processes c) (queries c))
                  i (with_stage Leaving p))
      | _ => None
      end
  | Exit i =>
      match nth_error (processes c) i with
      | Some (Process _ _ Leaving _ as p) => Some (with_process c i (with_stage Ended p))
      | _ => None
      end
  | Insert i z =>
      match nth_error (processes c) i with
      | Some (Process u m Running rows) => Some (with_process c i (Process u m Running (z :: rows)))
      | _ => None
      end
  (* [transfer_data], data_transfer.rs l.224-261. *)
  | Transfer i =>
      match nth_error (processes c) i with
      | Some (Process u m Running rows) =>
          Some (with_process (Cluster (listed c) (rows ++ remote c) (processes c) (queries c))
                  i (Process u m Running []))
      | _ => None
      end
  | Ask i k =>
      match nth_error (processes c) i with
      | Some (Process _ _ Running _) =>
          let nodes := cloud_nodes c in
          match nodes with
          | [] =>
              Some (Cluster (listed c) (remote c) (processes c)
                      (queries c ++ [Query None Waiting]))
          | _ =>
              match nth_error nodes k with
              | Some u =>
                  Some (Cluster (listed c) (remote c) (processes c)
                          (queries c ++ [Query (Some u) Waiting]))
              | None => None
              end
          end
      | _ => None
      end
  (* The client sends the query to the url, docs/user/README.md l.318-348. *)
  | Answer j i =>
      match nth_error (queries c) j, nth_error (processes c) i with
      | Some (Query (Some u) Waiting), Some p =>
          if serves u p then
            Some (Cluster (listed c) (remote c) (processes c)
                    (set_nth j (Query (Some u) (Rows (query_rows p c))) (queries c)))
          else None
      | _, _ => None
      end
  | Give_up j =>
      match nth_error (queries c) j with
      | Some (Query (Some u) Waiting) =>
          if existsb (serves u) (processes c) then None
          else Some (Cluster (listed c) (remote c) (processes c)
                       (set_nth j (Query (Some u) Unreachable) (queries c)))
      | _ => None
      end
  end.

Fixpoint run (events : list event) (c : cluster) : option cluster :=
  match events with
  | [] => Some c
  | e :: events => match step e c with Some c => run events c | None => None end
  end.

(** A remote data folder without nodes. *)
Definition new (rows : list Z) : cluster := Cluster [] rows [] [].
