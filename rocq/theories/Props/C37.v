(** C37 - Errors in a scan are reported. *)
From Coq Require Import ZArith String List.
From Verif Require Import Model.Base Model.Streams Spec.StreamsSpec
  Proofs.GridStreamProofs Proofs.JoinStreamProofs Proofs.JoinErrorProofs.
Import ListNotations.
Open Scope nat_scope.
Open Scope list_scope.

(** Reconstructing the data points of one field: the first error when reading segments ends the
    stream, whatever is pending and whatever data points are left. *)
Theorem c37_grid : forall (S P : Type) (grid : S -> list P) predicate limit i size n k,
  unfinished i -> 0 < size -> limit <> Some 0 ->
  first_error i = Some k -> length i + length (points_of grid predicate i) < n ->
  exists bs, consume (grid_next grid predicate) n (grid_stream_new limit i size) = Ok (bs, Error k).
Proof. intros S P. exact grid_reports. Qed.
Print Assumptions c37_grid.

(** A query of one field. *)
Theorem c37_single_partial :
  forall (S : Type) (grid : S -> list point) predicate limit size order tags
    (i : stream (list S)) n k,
  unfinished i -> 0 < size -> limit <> Some 0 -> order_fits order tags 1 ->
  first_error i = Some k -> length i + length (points_of grid predicate i) < n ->
  exists bs, consume (join_poll (grid_poll grid predicate) order tags) n
               (join_stream_new [grid_stream_new limit i size]) = Ok (bs, Error k).
Proof. exact single_reports. Qed.
Print Assumptions c37_single_partial.

(** A query of any number of fields: an error is returned if all inputs after the failing one that
    are polled with it return a batch.  Missing: inputs after it that are pending or at their end
    (false, see below). *)
Theorem c37_join_partial :
  forall (I : Type) (poll_input : I -> poll (list point) * I) order tags inputs batches k e i,
  nth_error inputs k = Some i -> nth_error batches k = Some None ->
  fst (poll_input i) = Failed e ->
  (forall j i', k < j -> nth_error inputs j = Some i' -> nth_error batches j = Some None ->
     exists b, fst (poll_input i') = Batch b) ->
  exists s, join_poll poll_input order tags (JoinStream inputs batches) = Ok (Failed e, s).
Proof. intros I. exact error_returned. Qed.
Print Assumptions c37_join_partial.

(** The error of the first field is lost if the second field is pending.  The first stream ends
    after its error, so the query ends without an error and with one instead of two rows. *)
Theorem c37_refuted : exists (i j : stream (list (list point))) n k bs,
  unfinished i /\ fine j /\ first_error i = Some k
  /\ consume (join_poll (grid_poll id_grid None) two_fields []) n
       (join_stream_new [grid_stream_new None i 1; grid_stream_new None j 1]) = Ok (bs, Done)
  /\ all_columns 3 bs = [[Time_cell 1]; [Value_cell 1]; [Value_cell 10]]
  /\ length (points_of id_grid None j) = 2.
Proof. exact error_lost. Qed.
Print Assumptions c37_refuted.

(** An error after two of three data points. *)
Example c37_example :
  let i := [Batch [[a_at 1; a_at 2]]; Pending; Failed 3; Batch [[a_at 3]]] in
  unfinished i /\ first_error i = Some 3 /\ order_fits [Field; Timestamp] [] 1
  /\ consume (join_poll (grid_poll id_grid None) [Field; Timestamp] []) 9
       (join_stream_new [grid_stream_new None i 4])
     = Ok ([[[Value_cell 1; Value_cell 2]; [Time_cell 1; Time_cell 2]]]%Z, Error 3).
Proof.
  split; [reflexivity|]. split; [reflexivity|]. split; [|reflexivity].
  split; [discriminate|]. split; [apply Nat.le_refl|].
  intros name H. cbn in H. intuition discriminate.
Qed.
