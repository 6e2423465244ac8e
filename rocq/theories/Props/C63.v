(** C63: rows inserted into a table stay in that table, whatever is done to tables with its name. *)
From Coq Require Import Arith ZArith List Permutation.
From Verif Require Import Model.Base Model.Lifetimes Spec.LifetimesSpec Proofs.LifetimesProofs
  Proofs.LifetimesWitnesses.
Import ListNotations.
Open Scope nat_scope.
Open Scope list_scope.

(** If inserts and statements are kept apart, the rows in the table and in memory are those that were
    inserted since the table was last truncated or dropped, also after crashes if there is a log. *)
Theorem c63_kept_partial : forall wal s l, calm wal s l ->
  Permutation (rows s ++ map snd (points (memory s))) l.
Proof. exact rows_are_kept. Qed.
Print Assumptions c63_kept_partial.

(** Every row in the table was inserted into it. *)
Theorem c63_not_mixed_partial : forall wal s l r, calm wal s l -> In r (rows s) ->
  exists t, saved s = Some t /\ into r = inc t /\ length (values r) = fields t.
Proof. exact rows_are_not_mixed. Qed.
Print Assumptions c63_not_mixed_partial.

(** The server and its writer run, and statements can go on. *)
Theorem c63_runs_partial : forall wal s l, calm wal s l -> aborted s = false /\ writer s = true.
Proof. exact server_runs. Qed.
Print Assumptions c63_runs_partial.

Theorem c63_goes_on_partial : forall wal s l p x, calm wal s l ->
  find_process p (processes s) = Some x -> is_statement x -> exists s', step wal s (Step p) = Some s'.
Proof. exact statements_go_on. Qed.
Print Assumptions c63_goes_on_partial.

(** A table with one field is created, truncated and dropped, a table with two fields is created, and
    the server crashes; puts insert before and after. *)
Definition c63_events : list event :=
  create 0 1 ++ [Start 1 Put; Batch 1 7 [5%Z]; Start 2 Truncate; Step 2; Batch 1 8 [4%Z]] ++ steps 2 3
  ++ [Batch 1 7 [3%Z]; Free 7; Batch 1 8 [9%Z]; Crash; Start 3 Drop] ++ steps 3 5
  ++ create 4 2 ++ [Start 5 Put; Batch 5 7 [1%Z; 2%Z]; Free 7; Batch 5 8 [3%Z; 4%Z]; Crash; Start 6 Put;
     Batch 6 7 [5%Z; 6%Z]; Start 7 Drop; Step 7; Step 7].
Example c63_calm_example : exists s, calm true s [Row 1 7 [1%Z; 2%Z]; Row 1 8 [3%Z; 4%Z]; Row 1 7 [5%Z; 6%Z]]
  /\ rows s = [Row 1 7 [1%Z; 2%Z]] /\ length (memory s) = 2
  /\ find_process 7 (processes s) = Some DropFlush /\ is_statement DropFlush.
Proof.
  eexists. split.
  - apply (calm_run_sound true c63_events init []); [constructor|]. vm_compute. reflexivity.
  - split; [reflexivity|]. split; [reflexivity|]. split; [reflexivity|]. intros t. discriminate.
Qed.

(** Rows can only be put into the table that is saved: a table that was dropped is not used. *)
Theorem c63_used_partial : forall wal s l t, calm wal s l -> registered s = Some t ->
  saved s = Some t.
Proof. exact used_is_saved. Qed.
Print Assumptions c63_used_partial.

(** The same execution before the second table is dropped. *)
Example c63_used_case : exists s l, calm true s l /\ length l = 3
  /\ registered s = Some (Table 1 2).
Proof.
  eexists. eexists. split.
  - apply (calm_run_sound true (firstn (length c63_events - 3) c63_events) init []); [constructor|].
    vm_compute. reflexivity.
  - split; reflexivity.
Qed.

(** Rows of a put that goes on after its table was dropped are stored in the next table. *)
Theorem c63_mixed_refuted : forall wal, exists s t r,
  reachable wal s /\ processes s = [(1, Putting (Table 0 1))]
  /\ saved s = Some t /\ In r (rows s) /\ into r <> inc t.
Proof. exact rows_mixed. Qed.
Print Assumptions c63_mixed_refuted.

(** Then a row inserted into the table that exists stops the server. *)
Theorem c63_aborts_refuted : forall wal, exists s s' p t v, reachable wal s
  /\ find_process p (processes s) = Some (Putting t) /\ saved s = Some t /\ registered s = Some t
  /\ (forall q x, In (q, x) (processes s) -> ~ is_statement x)
  /\ step wal s (Batch p 7 v) = Some s' /\ aborted s' = true.
Proof. exact insert_aborts. Qed.
Print Assumptions c63_aborts_refuted.

(** Or no table can be truncated or dropped until the server is started again. *)
Theorem c63_waits_refuted : forall wal, exists s, reachable wal s /\ aborted s = false
  /\ saved s <> None /\ registered s = saved s
  /\ forall l s' p, ~ In Crash l -> run wal s l = Some s' ->
     find_process p (processes s') = Some DropFlush
     \/ find_process p (processes s') = Some TruncateFlush ->
     step wal s' (Step p) = None.
Proof. exact statements_wait. Qed.
Print Assumptions c63_waits_refuted.

(** A statement to drop a table drops the next table, with the rows inserted into it. *)
Theorem c63_dropped_refuted : forall wal, exists l1 l2 s1 s2 s3 p t1 t2 r,
  run wal init l1 = Some s1 /\ saved s1 = Some t1 /\ find_process p (processes s1) = Some DropDeregister
  /\ run wal s1 l2 = Some s2 /\ ~ In (Step p) l2 /\ saved s2 = Some t2 /\ inc t2 <> inc t1
  /\ In r (rows s2) /\ into r = inc t2
  /\ run wal s2 (repeat (Step p) 4) = Some s3 /\ saved s3 = None /\ rows s3 = [] /\ memory s3 = [].
Proof. exact another_table_dropped. Qed.
Print Assumptions c63_dropped_refuted.

(** A row inserted into the next table is lost in a crash although there is a log. *)
Theorem c63_lost_refuted : exists l s, run true init l = Some s /\ ~ In Crash l /\ lost_in_crash s.
Proof. exact row_lost. Qed.
Print Assumptions c63_lost_refuted.

(** The same after the server was stopped while the table was dropped, otherwise kept apart. *)
Theorem c63_interrupted_refuted : exists l1 l2 s0 s1 s2 p,
  run true init l1 = Some s1 /\ find_process p (processes s1) = Some DropDelete
  /\ calm true s1 s0 /\ run true s1 (Crash :: l2) = Some s2 /\ ~ In Crash l2
  /\ (forall q, ~ In (Start q Drop) l2) /\ lost_in_crash s2.
Proof. exact row_lost_interrupted. Qed.
Print Assumptions c63_interrupted_refuted.
