(** C59 - Flushing a node moves all of its data to the remote data folder. *)
From Coq Require Import ZArith Bool String List Permutation.
From Verif.Model Require Import Base Transfer.
From Verif.Spec Require Import TransferSpec NodeFlushSpec.
From Verif.Proofs Require Import NodeFlushProofs NodeWitnesses.
Import ListNotations.
Open Scope string_scope.
Open Scope list_scope.
Open Scope Z_scope.

(** A transfer of all tables that succeeds leaves each row that was committed before it in the
    remote table, whatever other tasks do meanwhile, when the sizes of these rows have been added,
    no transfers of the table overlapped before, and nothing is committed to a table between the
    scan and the truncation of a transfer of it.  Missing: executions with overlapping transfers or
    first insertions, or where the size of the table is cleared; see below. *)
Theorem c59_transferred_partial : forall n batch before i todo later s s1 s2 t,
  run before (start n batch) = Went s ->
  step (Transfer_all i todo) s = Went s1 ->
  run later s1 = Went s2 ->
  along unsigned before (start n batch) ->
  along one_transfer_at_a_time before (start n batch) ->
  along no_insert_race before (start n batch) ->
  along (takes_space t) before (start n batch) ->
  bytes_bounded t before ->
  along no_save_while_moving (before ++ Transfer_all i todo :: later) (start n batch) ->
  all_added t s -> mem t (x_dropped s) = false ->
  along (succeeds i t) later s1 ->
  done i s2 ->
  incl (saved t before) (x_remote s2 t).
Proof. exact all_transferred. Qed.
Print Assumptions c59_transferred_partial.

Example c59_transferred_example :
  exists s s1 s2, run before (start 2 None) = Went s
    /\ step (Transfer_all 0 ["wind"; "sun"]) s = Went s1
    /\ run later s1 = Went s2
    /\ along unsigned before (start 2 None)
    /\ along one_transfer_at_a_time before (start 2 None)
    /\ along no_insert_race before (start 2 None)
    /\ along (takes_space "wind") before (start 2 None)
    /\ bytes_bounded "wind" before
    /\ along no_save_while_moving (before ++ Transfer_all 0 ["wind"; "sun"] :: later) (start 2 None)
    /\ all_added "wind" s /\ mem "wind" (x_dropped s) = false
    /\ along (succeeds 0 "wind") later s1 /\ done 0 s2
    /\ saved "wind" before = [1; 2; 4]
    /\ x_local s2 "wind" = [5] /\ x_remote s2 "wind" = [1; 2; 4] /\ x_remote s2 "sun" = [3].
Proof. exact transfer_case. Qed.

(** If nothing is committed to the table meanwhile, its rows are in the remote table exactly as often
    as they were committed, and none is left in the local table. *)
Theorem c59_moved_partial : forall n batch before i todo later s s1 s2 t,
  run before (start n batch) = Went s ->
  step (Transfer_all i todo) s = Went s1 ->
  run later s1 = Went s2 ->
  along unsigned before (start n batch) ->
  along no_insert_race before (start n batch) ->
  along (takes_space t) before (start n batch) ->
  bytes_bounded t before ->
  along no_save_while_moving (before ++ Transfer_all i todo :: later) (start n batch) ->
  along one_transfer_at_a_time (before ++ Transfer_all i todo :: later) (start n batch) ->
  along truncates_what_is_written (before ++ Transfer_all i todo :: later) (start n batch) ->
  all_added t s -> mem t (x_dropped s) = false ->
  along (succeeds i t) later s1 ->
  along (no_save t) later s1 ->
  done i s2 ->
  (forall a, In a (x_tasks s2) -> ~ has_written t a) ->
  x_local s2 t = [] /\ Permutation (saved t before) (x_remote s2 t).
Proof. exact all_moved. Qed.
Print Assumptions c59_moved_partial.

Example c59_moved_example :
  exists s s1 s2, run before (start 2 None) = Went s
    /\ step (Transfer_all 0 ["wind"; "sun"]) s = Went s1
    /\ run quiet_later s1 = Went s2
    /\ along unsigned before (start 2 None)
    /\ along no_insert_race before (start 2 None)
    /\ along (takes_space "wind") before (start 2 None)
    /\ bytes_bounded "wind" before
    /\ along no_save_while_moving (before ++ Transfer_all 0 ["wind"; "sun"] :: quiet_later)
         (start 2 None)
    /\ along one_transfer_at_a_time (before ++ Transfer_all 0 ["wind"; "sun"] :: quiet_later)
         (start 2 None)
    /\ along truncates_what_is_written (before ++ Transfer_all 0 ["wind"; "sun"] :: quiet_later)
         (start 2 None)
    /\ all_added "wind" s /\ mem "wind" (x_dropped s) = false
    /\ along (succeeds 0 "wind") quiet_later s1 /\ along (no_save "wind") quiet_later s1
    /\ done 0 s2 /\ (forall a, In a (x_tasks s2) -> ~ has_written "wind" a)
    /\ x_remote s2 "wind" = [1; 2; 4].
Proof. exact moved_case. Qed.

(** A transfer of all tables ends if it does not fail. *)
Theorem c59_transfer_ends : forall n batch events s i,
  run events (start n batch) = Went s ->
  done i s -> (forall a, In a (x_tasks s) -> holds_exclusive a = false) ->
  exists todo k s', run (Transfer_all i todo :: repeat (Go i true) k) s = Went s' /\ done i s'.
Proof. exact transfer_completes. Qed.
Print Assumptions c59_transfer_ends.

(** After transfers of a table have overlapped, without any failure, its recorded size can be 0
    although it has rows: a transfer of all tables succeeds but leaves them where they are. *)
Theorem c59_overlap_refuted :
  exists s, run (overlapping ++ [Transfer_all 0 []; Go 0 true]) (start 3 (Some 100)) = Went s
    /\ along no_failure overlapping (start 3 (Some 100))
    /\ along no_save_while_moving overlapping (start 3 (Some 100))
    /\ along no_insert_race overlapping (start 3 (Some 100))
    /\ done 0 s /\ quiet s
    /\ x_local s "wind" = [3] /\ ~ In 3 (x_remote s "wind").
Proof. exact overlapping_case. Qed.
Print Assumptions c59_overlap_refuted.

(** So does a transfer after the size was cleared to truncate the table, while its rows have not
    been deleted. *)
Theorem c59_cleared_refuted :
  exists s, run cleared (start 1 (Some 100)) = Went s
    /\ along no_failure cleared (start 1 (Some 100))
    /\ done 0 s /\ x_local s "wind" = [1] /\ x_remote s "wind" = [].
Proof. exact cleared_case. Qed.
Print Assumptions c59_cleared_refuted.

(** ** Requests to a node *)

From Verif Require Import Model.NodeStop Spec.NodeStopSpec Proofs.NodeStopProofs
  Proofs.NodeStopOnce Proofs.NodeStopWitnesses.

(** When FlushMemory is answered without an error, every row that was inserted is in a table.
    Missing: executions in which a save fails; see below. *)
Theorem c59_flush_memory_partial : forall logging k events n n' e,
  run logging k events new = Some n -> answers_with logging k e Flush_memory Fine n n' ->
  safe logging events ->
  in_memory n' = [] /\ incl (inserted events) (local n' ++ remote n').
Proof. exact flush_memory_saves. Qed.
Print Assumptions c59_flush_memory_partial.

Example c59_flush_memory_example :
  exists n n', run false Edge memory_only new = Some n
    /\ answers_with false Edge Continue Flush_memory Fine n n'
    /\ safe false memory_only
    /\ local n' = [("wind", 1)] /\ remote n' = [].
Proof. exact flush_memory_case. Qed.

(** When FlushNode is answered without an error, every row that was inserted is in a remote table and
    the node has none, including those inserted before it crashed if there is a log. *)
Theorem c59_flush_node_partial : forall logging k events n n' e,
  run logging k events new = Some n -> answers_with logging k e Flush_node Fine n n' ->
  safe logging events ->
  in_memory n' = [] /\ local n' = [] /\ incl (inserted events) (remote n').
Proof. exact flush_node_moves. Qed.
Print Assumptions c59_flush_node_partial.

Example c59_flush_node_example :
  exists n n', run true Edge (restarted ++ Request Flush_node :: flushed) new = Some n
    /\ answers_with true Edge Continue Flush_node Fine n n'
    /\ safe true (restarted ++ Request Flush_node :: flushed)
    /\ inserted (restarted ++ Request Flush_node :: flushed) = [("wind", 1); ("sun", 2); ("wind", 3)]
    /\ remote n' = [("sun", 2); ("wind", 1); ("wind", 3)].
Proof. exact flush_node_case. Qed.

(** So it is when KillNode ends the process. *)
Theorem c59_kill_node_partial : forall logging k events n n' e,
  run logging k events new = Some n -> answers_with logging k e Kill_node Exited n n' ->
  safe logging events ->
  running n' = false /\ local n' = [] /\ incl (inserted events) (remote n').
Proof. exact kill_node_moves. Qed.
Print Assumptions c59_kill_node_partial.

Example c59_kill_node_example :
  exists n n', run true Edge (restarted ++ Request Kill_node :: flushed ++ [Unlist true]) new = Some n
    /\ answers_with true Edge Continue Kill_node Exited n n'
    /\ safe true (restarted ++ Request Kill_node :: flushed ++ [Unlist true])
    /\ remote n' = [("sun", 2); ("wind", 1); ("wind", 3)] /\ listed n = 0%nat.
Proof. exact kill_node_case. Qed.

(** When CTRL+C ends the process, every row is in a local or remote table. *)
Theorem c59_ctrl_c_partial : forall logging k events n n' e,
  run logging k events new = Some n -> answers_with logging k e Ctrl_c Exited n n' ->
  safe logging events ->
  running n' = false /\ incl (inserted events) (local n' ++ remote n').
Proof. exact ctrl_c_saves. Qed.
Print Assumptions c59_ctrl_c_partial.

Example c59_ctrl_c_example :
  exists n n', run false Single saved_only new = Some n
    /\ answers_with false Single Continue Ctrl_c Exited n n'
    /\ safe false saved_only
    /\ local n' = [("sun", 2); ("wind", 1)].
Proof. exact ctrl_c_case. Qed.

(** A node that ends because it was asked to is not listed in the cluster, even if it crashed and was
    started several times before. *)
Theorem c59_unlisted : forall logging k events n n' e r,
  run logging k events new = Some n -> answers_with logging k e r Exited n n' ->
  running n' = false /\ listed n' = 0%nat.
Proof. exact stopped_unlisted. Qed.
Print Assumptions c59_unlisted.

(** With the write-ahead log no row is ever lost, whatever fails and crashes. *)
Theorem c59_kept_partial : forall k events n,
  run true k events new = Some n -> incl (inserted events) (log n ++ local n ++ remote n).
Proof. exact rows_kept. Qed.
Print Assumptions c59_kept_partial.

(** No row is in memory and the tables more often than it was inserted, even if batches could not be
    marked as persisted and the node crashed. Missing: transfers in which rows are copied but not
    deleted, see below. *)
Theorem c59_once_partial : forall logging k events n r, run logging k events new = Some n ->
  ~ In (Move Not_deleted) events ->
  (times r (in_memory n ++ local n ++ remote n) <= times r (inserted events))%nat.
Proof. exact rows_once. Qed.
Print Assumptions c59_once_partial.

Example c59_once_example :
  let events := unmarked ++ [Crash; Restart; Request Flush_node; Continue; Continue; Move Moved;
                             Continue; Continue] in
  exists n, run true Edge events new = Some n /\ ~ In (Move Not_deleted) events
    /\ answers n = [(Flush_node, Fine)] /\ log n = [("wind", 1)] /\ remote n = [("wind", 1)].
Proof. exact once_case. Qed.

(** A node in a cluster completes FlushNode and KillNode if nothing fails. *)
Theorem c59_flush_node_ends : forall logging k n,
  k <> Single -> running n = true -> doing n = None ->
  exists events n', forallb fine events = true
    /\ run logging k (Request Flush_node :: events) n = Some n'
    /\ answers n' = (Flush_node, Fine) :: answers n.
Proof. exact flush_node_completes. Qed.
Print Assumptions c59_flush_node_ends.

Theorem c59_kill_node_ends : forall logging k n,
  k <> Single -> running n = true -> doing n = None ->
  exists events n', forallb fine events = true
    /\ run logging k (Request Kill_node :: events) n = Some n'
    /\ answers n' = (Kill_node, Exited) :: answers n.
Proof. exact kill_node_completes. Qed.
Print Assumptions c59_kill_node_ends.

(** A node that is not in a cluster never does: FlushNode always returns an error, although the data
    is flushed, and KillNode never ends the process. *)
Theorem c59_single_refuted : forall logging events n,
  run logging Single events new = Some n ->
  ~ In (Flush_node, Fine) (answers n) /\ ~ In (Kill_node, Exited) (answers n).
Proof. exact single_never. Qed.
Print Assumptions c59_single_refuted.

Example c59_single_example :
  exists n, run true Single
        [Restart; Insert "wind" 1; Request Flush_node; Save Saved; Continue; Continue;
         Request Kill_node; Continue; Continue] new = Some n
    /\ answers n = [(Kill_node, Failed); (Flush_node, Failed)] /\ running n = true
    /\ local n = [("wind", 1)].
Proof. exact single_case. Qed.

(** FlushNode is answered without an error although a row could not be saved; without a log the row
    is nowhere. *)
Theorem c59_unsaved_refuted :
  exists n n', run false Edge (unsaved Flush_node) new = Some n
    /\ answers_with false Edge Continue Flush_node Fine n n'
    /\ inserted (unsaved Flush_node) = [("wind", 1)]
    /\ in_memory n' = [] /\ log n' = [] /\ local n' = [] /\ remote n' = [].
Proof. exact unsaved_case. Qed.
Print Assumptions c59_unsaved_refuted.

(** KillNode ends the process although a row could not be saved and is only in the log of the node
    that is gone. *)
Theorem c59_killed_refuted :
  exists n n', run true Edge (unsaved Kill_node ++ [Unlist true]) new = Some n
    /\ answers_with true Edge Continue Kill_node Exited n n'
    /\ inserted (unsaved Kill_node ++ [Unlist true]) = [("wind", 1)]
    /\ log n' = [("wind", 1)] /\ local n' = [] /\ remote n' = [].
Proof. exact killed_case. Qed.
Print Assumptions c59_killed_refuted.

(** A row that is saved but not marked as persisted in the log is not transferred, however often
    FlushNode is answered without an error. *)
Theorem c59_unmarked_refuted : forall m,
  exists n, run true Edge (unmarked ++ [Continue] ++ repeated m) new = Some n
    /\ (forall a, In a (answers n) -> a = (Flush_node, Fine)) /\ List.length (answers n) = S m
    /\ inserted unmarked = [("wind", 1)]
    /\ local n = [("wind", 1)] /\ remote n = [].
Proof. exact unmarked_case. Qed.
Print Assumptions c59_unmarked_refuted.

(** A row is transferred twice if it could not be deleted after it was transferred, and FlushNode is
    requested again. *)
Theorem c59_twice_refuted :
  exists n, run true Edge copied new = Some n /\ answers n = [(Flush_node, Fine); (Flush_node, Failed)]
    /\ inserted copied = [("wind", 1)] /\ remote n = [("wind", 1); ("wind", 1)].
Proof. exact copied_case. Qed.
Print Assumptions c59_twice_refuted.
