(** C67 - VACUUM CLUSTER deletes old files of the tables everywhere. *)
From Coq Require Import ZArith Bool String List Permutation.
From Verif Require Import Model.Base Model.Sql Model.Statements Model.ClusterVacuum
  Spec.StatementSpec Spec.ClusterVacuumSpec Proofs.SqlProofs Proofs.ClusterVacuumProofs.
Import ListNotations.
Open Scope nat_scope.
Open Scope string_scope.
Open Scope list_scope.

(** However the statement is written, with any number of nodes and tables, and in whichever order
    peers execute it: if all nodes are running and have the tables, it succeeds, old files of the
    tables are deleted in the remote data folder and on all nodes, nothing else changes, and each
    other node gets it once. Missing: names that have to be quoted or are keywords, nodes that are
    not running, and statements that are executed at the same time. *)
Theorem c67_vacuumed_partial : forall order late, (forall l, Permutation l (order l)) ->
  forall fuel sql written retention c u db, 2 <= fuel -> NoDup (listed c) ->
  vacuums_cluster sql written retention -> node c u = Some db ->
  readable (tables_meant written db) -> ready c u (tables_meant written db) ->
  exists c' sent, do_get order late fuel sql c u = (c', Answered (Ok tt), sent)
    /\ vacuumed_everywhere c u (tables_meant written db) (period retention) c'
    /\ once_each c u sent.
Proof. exact done_everywhere. Qed.
Print Assumptions c67_vacuumed_partial.

(** Whatever state the nodes are in, running or not, with the tables or without: the statement is
    answered, no node gets it twice, and at most old files of the tables are deleted. *)
Theorem c67_bounded_partial : forall order late, (forall l, Permutation l (order l)) ->
  forall fuel sql written retention c u db, 2 <= fuel -> NoDup (listed c) ->
  vacuums_cluster sql written retention -> node c u = Some db ->
  readable (tables_meant written db) ->
  exists c' r sent, do_get order late fuel sql c u = (c', Answered r, sent)
    /\ at_most_once c u sent
    /\ nothing_else c u (tables_meant written db) (period retention) c'.
Proof. exact bounded. Qed.
Print Assumptions c67_bounded_partial.

(** If a client is told that it succeeded, then all nodes were running and had the tables, and old
    files were deleted everywhere. Missing: as above. *)
Theorem c67_success_partial : forall order late, (forall l, Permutation l (order l)) ->
  forall fuel sql written retention c u db c' sent, 2 <= fuel -> NoDup (listed c) ->
  vacuums_cluster sql written retention -> node c u = Some db ->
  readable (tables_meant written db) ->
  do_get order late fuel sql c u = (c', Answered (Ok tt), sent) ->
  ready c u (tables_meant written db)
  /\ vacuumed_everywhere c u (tables_meant written db) (period retention) c'
  /\ once_each c u sent.
Proof. exact success. Qed.
Print Assumptions c67_success_partial.

(** A table can be created with the name cluster;. Then VACUUM CLUSTER makes each node send VACUUM
    CLUSTER to another, so that a client is not answered however many statements nodes send each
    other, in any cluster of at least two nodes. *)
Theorem c67_storm_refuted : forall order late reserved n u fuel,
  (forall l, Permutation l (order l)) -> reserved "CLUSTER;" = false -> 2 <= n -> 1 <= u <= n ->
  let db := history reserved [Create "cluster;" full] in
  exists c' sent, do_get order late fuel "VACUUM CLUSTER" (alike n db) u = (c', Unanswered, sent)
    /\ length sent = fuel.
Proof. exact storm. Qed.
Print Assumptions c67_storm_refuted.

(** If the name of a table contains a comma, then the peers vacuum other tables instead, and the
    client is told that the statement succeeded. *)
Theorem c67_comma_refuted : forall order late reserved, (forall l, Permutation l (order l)) ->
  (forall x, reserved x = false) ->
  let db := history reserved [Create "a,b" full; Create "a" full; Create "b" full] in
  let sql := "VACUUM CLUSTER ""a,b""" in
  vacuums_cluster sql [("a,b", true)] None
  /\ exists c' sent db', do_get order late 2 sql (alike 2 db) 1 = (c', Answered (Ok tt), sent)
       /\ lookup "a,b" (remote c') = cleaned 604800 full
       /\ node c' 2 = Some db' /\ lookup "a,b" db' = Some full /\ lookup "a" db' = cleaned 604800 full.
Proof. exact comma. Qed.
Print Assumptions c67_comma_refuted.

(** If the name of any table has to be quoted, then VACUUM CLUSTER fails on the peers, so no node
    deletes files, although those in the remote data folder are deleted. *)
Theorem c67_quoted_refuted : forall order late reserved, (forall l, Permutation l (order l)) ->
  (forall x, reserved x = false) ->
  let db := history reserved [Create "a-b" full] in
  let sql := "VACUUM CLUSTER" in
  vacuums_cluster sql [] None
  /\ exists c' sent, do_get order late 2 sql (alike 2 db) 1 = (c', Answered Err, sent)
       /\ lookup "a-b" (remote c') = cleaned 604800 full
       /\ node c' 1 = Some db /\ node c' 2 = Some db.
Proof. exact quoted. Qed.
Print Assumptions c67_quoted_refuted.

(** If a node that is listed is not running, then the node that got the statement from a client does
    not delete its files, although those in the remote data folder are deleted. *)
Theorem c67_stopped_refuted : forall order late reserved, (forall l, Permutation l (order l)) ->
  (forall x, reserved x = false) ->
  let db := history reserved [Create "wind" full] in
  let sql := "VACUUM CLUSTER wind" in
  vacuums_cluster sql [("wind", false)] None /\ readable ["wind"]
  /\ exists c' sent, do_get order late 2 sql (Cluster db [1; 2] (node (alike 1 db))) 1
                     = (c', Answered Err, sent)
       /\ lookup "wind" (remote c') = cleaned 604800 full /\ node c' 1 = Some db.
Proof. exact stopped. Qed.
Print Assumptions c67_stopped_refuted.

(** Three nodes with two tables, of which one is vacuumed with a retention period. *)
Example parks : cluster := alike 3 [("wind", full); ("solar", full)].
Example vacuum_wind : let sql := "vacuum Cluster ""wind"" retain 20;" in
  vacuums_cluster sql [("wind", true)] (Some 20%Z) /\ readable (tables_meant [("wind", true)] [])
  /\ ready parks 2 ["wind"] /\ NoDup (listed parks).
Proof.
  split; [|split; [|split]].
  - eexists. split; [reflexivity|].
    exists (Word "vacuum" false), [Word "Cluster" false], [Word "retain" false; Number (list_ascii_of_string "20")], [Semicolon].
    split; [now exists "vacuum"|].
    split; [exists (Word "Cluster" false); split; [reflexivity|now exists "Cluster"]|].
    split; [eexists _, _; split; [reflexivity|]; split; [now exists "retain"|];
            split; [split; [|reflexivity]|now vm_compute]|].
    { repeat constructor; apply Nat.leb_le; reflexivity. }
    split; [repeat constructor|]. split; [discriminate|].
    split; [|reflexivity]. intros (v & X & Y). discriminate.
  - split; [discriminate|]. split; [repeat constructor; now apply plain_bool|].
    intros n l X. injection X as <- <-. split; discriminate.
  - split; [intros x [<-|[]]; discriminate|]. intros w [->|[<-|[<-|[<-|[]]]]];
      (eexists; split; [reflexivity|]; intros x [<-|[]]; discriminate).
  - repeat constructor; cbn; intuition discriminate.
Qed.
Example vacuum_wind_works :
  let '(c', a, sent) := do_get (@rev nat) (fun _ => false) 2 "vacuum Cluster ""wind"" retain 20;" parks 2 in
  a = Answered (Ok tt) /\ sent = [(3, "VACUUM wind RETAIN 20"); (1, "VACUUM wind RETAIN 20")]
  /\ node c' 3 = Some [("wind", Table 7 [1%Z; 2%Z] [(4%Z, 10%Z)]); ("solar", full)].
Proof. vm_compute. repeat split. Qed.
