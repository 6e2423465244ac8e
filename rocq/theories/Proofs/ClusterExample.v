(** The tables of the nodes in a cluster: witnesses and examples. *)
From Coq Require Import ZArith Bool Ascii String List Lia.
From Verif Require Import Model.Base Model.Sql Model.Cluster Spec.StatementSpec Spec.ClusterSpec
  Proofs.SqlProofs Proofs.ClusterProofs Proofs.ClusterDefinitions.
Import ListNotations.
Open Scope nat_scope.
Open Scope string_scope.
Open Scope list_scope.

Section Witnesses.
Variable storage_schema : Z -> Z.
Notation running_after := (outcome_of storage_schema).

Lemma only_if_same : forall c u key, at_stage (nodes c u) = Stopped -> NoDup (map fst (remote c)) ->
  let c' := run storage_schema c (events_of (Start u key)) in
  running c' u = true ->
  forall x, (find_table x (local (nodes c' u)) = None <-> find_table x (remote c') = None)
    /\ (forall d, find_table x (remote c') = Some d -> distinguishable storage_schema d ->
          find_table x (local (nodes c' u)) = Some d)
    /\ (forall d, find_table x (local (nodes c u)) = Some d ->
          find_table x (local (nodes c' u)) = Some d).
Proof.
  intros c u key St N c' R x.
  destruct (start_result storage_schema c u key St)
    as (E1 & E2 & E3 & E4 & E5 & ts & ok & k & Y & E6 & E7 & E8). fold c' in E1, E6.
  unfold running in R. rewrite E6 in *. cbn [at_stage local] in *. destruct ok; [|discriminate].
  pose proof (synchronized storage_schema _ _ _ N Y x) as Z. rewrite E1. split; [|split].
  - destruct (find_table x (remote c)) as [[s|m]|].
    + destruct Z as (d & -> & _). split; discriminate.
    + rewrite Z. split; discriminate.
    + rewrite Z. split; reflexivity.
  - intros d F D. rewrite F in Z. destruct d as [s|m]; [|exact Z]. destruct Z as (d & -> & Z).
    destruct d as [s'|m]; cbn [delta_schema distinguishable] in *; [now subst|]. now elim (D m).
  - intros d L. unfold synchronize in Y.
    destruct (exist_remotely (local (nodes c u)) (remote c)); [|discriminate].
    destruct (missing_normal storage_schema (remote c) (local (nodes c u))) as [mn|]; [|discriminate].
    destruct (missing_series (remote c) (local (nodes c u))) as [ms|]; [|discriminate].
    destruct (create_tables_ok _ _ _ Y) as (_ & A & O).
    rewrite (O x); [exact L|]. intros I. apply in_map_iff in I. destruct I as ((y, d') & <- & I).
    destruct (A _ _ I) as (X & _). cbn [fst] in L. congruence.
Qed.

(** Three nodes. *)
Definition three (ts : tables) : cluster :=
  outcome_of storage_schema (new_cluster ts (fun _ => [])) [Start 1 7; Start 2 8; Start 3 9].

Lemma three_healthy : forall ts, NoDup (map fst ts) -> healthy (three ts)
  /\ rows (three ts) = [1; 2; 3] /\ remote (three ts) = ts.
Proof.
  intros ts N. unfold three. cbn [outcome_of fold_left].
  destruct (started storage_schema (new_cluster ts (fun _ => [])) 1 7 (new_healthy ts _) N)
    as (H1 & R1 & M1); [intros []|reflexivity|discriminate|].
  set (c1 := run storage_schema (new_cluster ts (fun _ => [])) (events_of (Start 1 7))) in *.
  assert (F1 : forall v, v <> 1 -> nodes c1 v = Node [] Stopped).
  { intros v V. destruct (start_result storage_schema (new_cluster ts (fun _ => [])) 1 7 eq_refl)
      as (_ & _ & _ & _ & E & _). fold c1 in E. now rewrite (E v V). }
  destruct (started storage_schema c1 2 8 H1) as (H2 & R2 & M2).
  { now rewrite M1. }
  { rewrite R1. cbn. lia. }
  { now rewrite F1 by lia. }
  { rewrite F1 by lia. discriminate. }
  set (c2 := run storage_schema c1 (events_of (Start 2 8))) in *.
  assert (F2 : nodes c2 3 = Node [] Stopped).
  { destruct (start_result storage_schema c1 2 8) as (_ & _ & _ & _ & E & _); [now rewrite F1 by lia|].
    fold c2 in E. rewrite (E 3) by lia. apply F1. lia. }
  destruct (started storage_schema c2 3 9 H2) as (H3 & R3 & M3).
  { now rewrite M2, M1. }
  { rewrite R2, R1. cbn. lia. }
  { now rewrite F2. }
  { rewrite F2. discriminate. }
  split; [exact H3|]. split; [now rewrite R3, R2, R1|]. now rewrite M3, M2, M1.
Qed.

(** A node with a time series table that the others have as a normal table. *)
Lemma other_type : exists ts loc d d', let c := run storage_schema (new_cluster ts loc)
    (events_of (Start 1 7)) in
  running c 1 = true /\ find_table "a" (local (nodes c 1)) = Some d
  /\ find_table "a" (remote c) = Some d' /\ d <> d'.
Proof.
  exists [("a", Normal (storage_schema 5))], (fun _ => [("a", Series 5)]), (Series 5),
    (Normal (storage_schema 5)).
  cbn. unfold running. cbn. rewrite Z.eqb_refl. cbn. split; [reflexivity|]. split; [reflexivity|].
  split; [reflexivity|discriminate].
Qed.

(** A name with a comma. *)
Lemma comma : exists c, healthy c /\ rows c = [1; 2; 3]
  /\ let c' := run storage_schema c (whole c 1 (Drop ["a,b"])) in
     tasks c' = [] /\ harmed c' = false
     /\ map fst (remote c') = ["a"; "b"] /\ map fst (local (nodes c' 1)) = ["a"; "b"]
     /\ map fst (local (nodes c' 2)) = ["a,b"] /\ map fst (local (nodes c' 3)) = ["a,b"].
Proof.
  exists (three [("a", Series 1); ("b", Series 2); ("a,b", Series 3)]).
  destruct (three_healthy [("a", Series 1); ("b", Series 2); ("a,b", Series 3)]) as (H & R & _).
  { repeat constructor; cbn; intuition discriminate. }
  split; [exact H|]. split; [exact R|]. vm_compute. auto 10.
Qed.

(** A name that has to be quoted. *)
Lemma quoted : exists c, healthy c /\ rows c = [1; 2; 3]
  /\ let c' := run storage_schema c (whole c 1 (Drop ["a-b"])) in
     tasks c' = [] /\ remote c' = [] /\ map fst (local (nodes c' 1)) = ["a-b"]
     /\ map fst (local (nodes c' 2)) = ["a-b"] /\ map fst (local (nodes c' 3)) = ["a-b"].
Proof.
  exists (three [("a-b", Series 1)]). destruct (three_healthy [("a-b", Series 1)]) as (H & R & _).
  { repeat constructor; cbn; intuition discriminate. }
  split; [exact H|]. split; [exact R|]. vm_compute. auto 10.
Qed.

(** A list of names of which one does not exist. *)
Lemma second_missing : exists c, healthy c /\ rows c = [1; 2; 3]
  /\ let c' := run storage_schema c [Begin 1 (Drop ["a"; "b"])] in
     tasks c' = [] /\ remote c' = [] /\ map fst (local (nodes c' 1)) = ["a"]
     /\ map fst (local (nodes c' 2)) = ["a"] /\ map fst (local (nodes c' 3)) = ["a"].
Proof.
  exists (three [("a", Series 1)]). destruct (three_healthy [("a", Series 1)]) as (H & R & _).
  { repeat constructor; cbn; intuition discriminate. }
  split; [exact H|]. split; [exact R|]. vm_compute. auto 10.
Qed.

(** A node that is started again after a crash. *)
Lemma listed_twice : exists c, healthy c /\ rows c = [1; 2; 3]
  /\ let c1 := run storage_schema c (Crash 2 :: events_of (Start 2 8)) in
     let c' := run storage_schema c1 (whole c1 1 (Create "a" (Series 1))) in
     running c1 2 = true /\ rows c1 = [1; 2; 3; 2]
     /\ harmed c' = true /\ map fst (remote c') = ["a"] /\ local (nodes c' 1) = []
     /\ map fst (local (nodes c' 2)) = ["a"] /\ map fst (local (nodes c' 3)) = ["a"].
Proof.
  exists (three []). destruct (three_healthy []) as (H & R & _); [constructor|].
  split; [exact H|]. split; [exact R|]. vm_compute. auto 10.
Qed.

(** A node that could not be started. *)
Lemma not_started : exists c loc, rows c = [1; 2]
  /\ c = outcome_of storage_schema (new_cluster [] loc) [Start 1 7; Start 2 8]
  /\ running c 1 = true /\ running c 2 = false
  /\ let c' := run storage_schema c (whole c 1 (Create "a" (Series 1))) in
     harmed c' = true /\ map fst (remote c') = ["a"] /\ local (nodes c' 1) = [].
Proof.
  exists (outcome_of storage_schema
            (new_cluster [] (fun u => if Nat.eqb u 2 then [("b", Series 2)] else [])) [Start 1 7; Start 2 8]),
    (fun u => if Nat.eqb u 2 then [("b", Series 2)] else []).
  vm_compute. auto 10.
Qed.

(** Nodes that are started at the same time. *)
Lemma two_keys :
  let c := run storage_schema (new_cluster [] (fun _ => []))
             [Join 1; Join 2; Choose 1 7; Choose 2 8; Synchronize 1; Synchronize 2] in
  running c 1 = true /\ running c 2 = true
  /\ let c' := run storage_schema c (whole c 1 (Create "a" (Series 1))) in
     harmed c' = true /\ map fst (remote c') = ["a"] /\ local (nodes c' 1) = []
     /\ local (nodes c' 2) = [].
Proof. vm_compute. auto 10. Qed.

(** Requests for the same table that are executed at the same time. *)
Definition overlapping : list event :=
  [Begin 1 (Create "a" (Series 1)); Begin 2 (Drop ["a"]); Begin 3 (Create "a" (Series 2));
   Read 0; Read 1; Read 2; Visit 2 1; Visit 2 2; Finish 2; Visit 1 1; Visit 1 3; Finish 1;
   Visit 0 2; Visit 0 3; Finish 0].
Lemma overlap : exists c, healthy c /\ rows c = [1; 2; 3]
  /\ always storage_schema orderly c (map Event overlapping)
  /\ let c' := run storage_schema c overlapping in
     tasks c' = [] /\ harmed c' = false /\ remote c' = [("a", Series 2)]
     /\ local (nodes c' 1) = [("a", Series 1)] /\ local (nodes c' 2) = [("a", Series 1)]
     /\ local (nodes c' 3) = [("a", Series 1)].
Proof.
  exists (three []). destruct (three_healthy []) as (H & R & _); [constructor|].
  split; [exact H|]. split; [exact R|]. split.
  - cbn [map overlapping always events_of orderly]. split; [exact I|].
    split; [|now repeat split]. split; [|discriminate]. repeat constructor. now apply plain_bool.
  - vm_compute. auto 10.
Qed.

End Witnesses.

(** A history in which requests overlap; all time series tables are stored with schema 0. *)
Definition turbines (u : nat) : tables := if Nat.eqb u 2 then [("hydro", Series 3)] else [].
Definition busy : list action :=
  [Start 1 7; Start 2 8; Start 3 9;
   Event (Begin 1 (Create "wind" (Series 1))); Event (Begin 3 (Create "solar" (Normal 5)));
   Event (Read 1); Event (Read 0); Event (Visit 0 3); Event (Visit 1 2); Event (Visit 0 2);
   Event (Finish 0); Event (Visit 0 1); Event (Finish 0);
   Event (Begin 2 (Drop ["wind"; "solar"])); Event (Read 0);
   Event (Begin 2 (Create "sun" (Series 4)));
   Event (Visit 0 1); Event (Visit 0 3); Event (Finish 0); Event (Stop 3);
   Event (Read 0); Event (Visit 0 1); Event (Finish 0)].
Lemma busy_example :
  let c := new_cluster [("hydro", Series 3)] turbines in
  let c' := outcome_of (fun _ => 0%Z) c busy in
  always (fun _ => 0%Z) orderly c busy /\ always (fun _ => 0%Z) (separate (fun _ => 0%Z)) c busy
  /\ harmed c' = false /\ tasks c' = [] /\ rows c' = [1; 2]
  /\ map fst (remote c') = ["hydro"; "sun"] /\ map fst (local (nodes c' 1)) = ["hydro"; "sun"]
  /\ map fst (local (nodes c' 2)) = ["hydro"; "sun"].
Proof.
  split; [|split].
  - unfold busy.
    repeat (cbn [always]; split;
      [first [exact I
             |split; [vm_compute; reflexivity|vm_compute; intuition discriminate]
             |split; [repeat constructor; now apply plain_bool|discriminate]]|]).
    exact I.
  - unfold busy.
    repeat (cbn [always]; split;
      [first [exact I
             |split; [intros x N t T; vm_compute in N, T; cbn; intuition (subst; cbn in *; intuition congruence)
                     |first [exact I|intros m; discriminate]]]|]).
    exact I.
  - vm_compute. auto 10.
Qed.
