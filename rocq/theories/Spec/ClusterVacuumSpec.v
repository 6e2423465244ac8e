(** What VACUUM CLUSTER should do. *)
From Coq Require Import ZArith Bool String List Permutation.
From Verif Require Import Model.Base Model.Sql Model.Statements Model.ClusterVacuum Spec.StatementSpec.
Import ListNotations.
Open Scope nat_scope.
Open Scope string_scope.
Open Scope list_scope.

(** VACUUM CLUSTER, as it is written, with names or, for all tables, without. *)
Definition vacuums_cluster (sql : string) (written : list (string * bool)) (retention : option Z)
    : Prop :=
  exists tokens, tokenize sql Nothing = Ok tokens /\ vacuum_statement written retention true tokens.

(** The tables that a node is asked to vacuum. *)
Definition tables_meant (written : list (string * bool)) (db : database) : list string :=
  match written with [] => map fst db | _ => map fst written end.

(** Names that a peer reads as they are: they do not have to be quoted, and the first of them is not
    a keyword of the statement. *)
Definition readable (names : list string) : Prop :=
  names <> [] /\ Forall plain names
  /\ forall n l, names = n :: l ->
       map_string to_upper n <> "CLUSTER" /\ map_string to_upper n <> "RETAIN".

(** How old files have to be to be deleted, in seconds: seven days if nothing is written. *)
Definition period (retention : option Z) : Z :=
  match retention with Some z => z | None => 604800 end.

(** A node is in the cluster: it is listed or is the one that is asked. *)
Definition concerned (c : cluster) (u w : nat) : Prop := w = u \/ In w (listed c).

(** All nodes are running, and they and the remote data folder have the tables. *)
Definition ready (c : cluster) (u : nat) (names : list string) : Prop :=
  exist names (remote c)
  /\ forall w, concerned c u w -> exists db, node c w = Some db /\ exist names db.

(** The files of the tables are deleted if they are old enough, in the remote data folder and on each
    node of the cluster, and nothing else changes. *)
Definition vacuumed_everywhere (c : cluster) (u : nat) (names : list string) (seconds : Z)
    (c' : cluster) : Prop :=
  listed c' = listed c
  /\ affects names (cleaned seconds) (remote c) (remote c')
  /\ (forall w, concerned c u w -> exists db db', node c w = Some db /\ node c' w = Some db'
        /\ affects names (cleaned seconds) db db')
  /\ (forall w, ~ concerned c u w -> node c' w = node c w).

(** The nodes that are not asked by the client get the statement from [u], once each. *)
Definition once_each (c : cluster) (u : nat) (sent : messages) : Prop :=
  NoDup (map fst sent) /\ forall w, In w (map fst sent) <-> In w (listed c) /\ w <> u.

(** At most stale files of the tables are deleted, if they are old enough. *)
Definition at_most (names : list string) (seconds : Z) (db db' : database) : Prop :=
  forall x, lookup x db' = lookup x db
    \/ In x names /\ exists t, lookup x db = Some t /\ lookup x db' = cleaned seconds t.
Definition nothing_else (c : cluster) (u : nat) (names : list string) (seconds : Z) (c' : cluster)
    : Prop :=
  listed c' = listed c /\ at_most names seconds (remote c) (remote c')
  /\ forall w, match node c w with
               | Some db => exists db', node c' w = Some db' /\ at_most names seconds db db'
                              /\ (~ concerned c u w -> db' = db)
               | None => node c' w = None
               end.

(** No node gets the statement twice. *)
Definition at_most_once (c : cluster) (u : nat) (sent : messages) : Prop :=
  NoDup (map fst sent) /\ forall w, In w (map fst sent) -> In w (listed c) /\ w <> u.

(** A cluster in which each of the nodes 1 to
    [n] and the remote data folder has the same tables. *)
Definition alike (n : nat) (db : database) : cluster :=
  Cluster db (seq 1 n) (fun w => if ((1 <=? w) && (w <=? n))%nat then Some db else None).
(** A table with two stale files, of which one is older than seven days. *)
Definition full : table := Table 7 [1%Z; 2%Z] [(3%Z, 1000000%Z); (4%Z, 10%Z)].
