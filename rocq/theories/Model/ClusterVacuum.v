(** VACUUM CLUSTER: deleting the files that are no longer used in the remote data folder and on all
    nodes of a cluster. A node that gets the statement sends the text of another statement to its
    peers, which read it as any other statement.

    Simplified: a statement is executed by one peer after another, in any order, instead of at the
    same time; the tables that are registered on a node are those it has saved; the statements of
    different clients are executed one at a time; only VACUUM is modelled (Model/Cluster.v has
    CREATE TABLE and DROP TABLE, Model/ClusterTruncate.v has TRUNCATE). *)
From Coq Require Import ZArith Bool Ascii String List.
From Verif Require Import Model.Base Model.Sql Model.Statements Model.EmbeddedTables.
Import ListNotations.
Open Scope string_scope.
Open Scope list_scope.

(** The remote data folder, the urls of the nodes that are listed in it, and the local data folder
    of each node that is running. *)
Record cluster := Cluster {
  remote : database;
  listed : list nat;
  node : nat -> option database
}.
Definition with_remote (c : cluster) (db : database) : cluster := Cluster db (listed c) (node c).
Definition with_node (c : cluster) (u : nat) (db : database) : cluster :=
  Cluster (remote c) (listed c) (fun w => if Nat.eqb w u then Some db else node c w).

(** [peer_nodes], crates/modelardb_server/src/cluster.rs l.351-358. *)
Definition peer_nodes (c : cluster) (u : nat) : list nat :=
  filter (fun w => negb (Nat.eqb w u)) (listed c).

(** The text that [vacuum_cluster_tables], cluster.rs l.236-244, sends. *)
Definition sent_text (names : list string) (retention : option Z) : string :=
  match retention with
  | Some period => "VACUUM " ++ join ", " names ++ " RETAIN " ++ show period
  | None => "VACUUM " ++ join ", " names
  end.

(** A statement is answered, or has not been answered after a number of statements that nodes have
    sent because of each other. *)
Inductive answer := Answered (r : outcome unit) | Unanswered.
Definition messages := list (nat * string).
Definition done := (cluster * answer * messages)%type.

Section Vacuum.
(** The order in which peers execute a statement, and which peers execute it although another peer
    has failed before they have answered: the futures are then dropped, cluster.rs l.252-269. *)
Variable order : list nat -> list nat.
Variable late : nat -> bool.

(** [cluster_do_get], cluster.rs l.252-269. [execute] is [connect_and_do_get] for a peer. *)
Fixpoint afterwards (execute : cluster -> nat -> done) (text : string) (peers : list nat)
  (c : cluster) : cluster * messages :=
  match peers with
  | [] => (c, [])
  | p :: peers =>
      if late p then
        let '(c, _, sent) := execute c p in
        let (c, more) := afterwards execute text peers c in
        (c, (p, text) :: sent ++ more)
      else afterwards execute text peers c
  end.
Fixpoint cluster_do_get (execute : cluster -> nat -> done) (text : string) (peers : list nat)
  (c : cluster) : done :=
  match peers with
  | [] => (c, Answered (Ok tt), [])
  | p :: peers =>
      let '(c, a, sent) := execute c p in
      match a with
      | Answered (Ok _) =>
          let '(c, a, more) := cluster_do_get execute text peers c in
          (c, a, (p, text) :: sent ++ more)
      | Answered _ =>
          let (c, more) := afterwards execute text peers c in
          (c, a, (p, text) :: sent ++ more)
      | Unanswered => (c, Unanswered, (p, text) :: sent)
      end
  end.

(** The local part of [vacuum_tables], crates/modelardb_server/src/remote.rs l.462-467. *)
Definition vacuum_locally (c : cluster) (u : nat) (names : list string) (retention : option Z)
  : cluster * outcome unit :=
  match node c u with
  | Some db =>
      let (db, r) := each (vacuum_table retention) names db in (with_node c u db, r)
  | None => (c, Err)
  end.

(** [do_get] with [vacuum_tables], remote.rs l.707-725 and l.443-470, and [vacuum_cluster_tables],
    cluster.rs l.224-249, for a node of a cluster. The key in the request is not looked at. A node
    that is not running cannot be connected to. [fuel] is the number of nodes that may wait for each
    other. *)
Fixpoint do_get (fuel : nat) (sql : string) (c : cluster) (u : nat) : done :=
  match fuel with
  | O => (c, Unanswered, [])
  | S fuel =>
      match node c u, parse_sql sql with
      | Some db, Ok (Vacuum names retention cluster) =>
          let names := match names with [] => map fst db | _ => names end in
          let '(c, a, sent) :=
            if cluster then
              let (db, r) := each (vacuum_table retention) names (remote c) in
              let c := with_remote c db in
              match r with
              | Ok _ =>
                  let text := sent_text names retention in
                  cluster_do_get (do_get fuel text) text (order (peer_nodes c u)) c
              | e => (c, Answered e, [])
              end
            else (c, Answered (Ok tt), []) in
          match a with
          | Answered (Ok _) =>
              let (c, r) := vacuum_locally c u names retention in (c, Answered r, sent)
          | _ => (c, a, sent)
          end
      | _, _ => (c, Answered Err, [])
      end
  end.
End Vacuum.
