(** C35 - Query results do not depend on batching or scheduling. *)
From Coq Require Import ZArith List.
From Verif Require Import Model.Base Model.Streams Spec.StreamsSpec
  Proofs.GridStreamProofs Proofs.JoinErrorProofs.
Import ListNotations.
Open Scope nat_scope.
Open Scope list_scope.

(** For segments and data points of any type, any input without errors and any number of polls:
    what has been returned is always a prefix of the data points of the segments that satisfy the
    predicate, in batches that are not too large, and is all of them at the end of the stream. *)
Theorem c35_prefix : forall (S P : Type) (grid : S -> list P) predicate limit i size n, fine i ->
  exists bs e, consume (grid_next grid predicate) n (grid_stream_new limit i size) = Ok (bs, e)
    /\ (e = Running \/ e = Done)
    /\ (exists more, points_of grid predicate i = concat bs ++ more)
    /\ Forall (fun b => length b <= size) bs
    /\ (e = Done -> concat bs = points_of grid predicate i).
Proof. intros S P. exact grid_prefix. Qed.
Print Assumptions c35_prefix.

(** The end is reached, so all data points are returned irrespective of the batch size, the limit,
    the batches of the input and when they are ready. *)
Theorem c35_complete : forall (S P : Type) (grid : S -> list P) predicate limit i size n,
  fine i -> 0 < size -> limit <> Some 0 ->
  length i + length (points_of grid predicate i) < n ->
  exists bs, consume (grid_next grid predicate) n (grid_stream_new limit i size) = Ok (bs, Done)
    /\ concat bs = points_of grid predicate i.
Proof. intros S P. exact grid_completes. Qed.
Print Assumptions c35_complete.

(** With a limit of zero the stream never ends: it returns empty batches forever. *)
Theorem c35_limit_zero_refuted : forall (S P : Type) (grid : S -> list P) predicate i size n,
  consume (grid_next grid predicate) n (grid_stream_new (Some 0) i size)
  = Ok (repeat [] n, Running).
Proof. intros S P. exact grid_limit_zero. Qed.
Print Assumptions c35_limit_zero_refuted.

(** Six data points in four segments, the last is not selected, in batches of two. *)
Example c35_example :
  let grid (s : list nat) := s in
  let i := [Batch [[1; 2; 3]]; Pending; Batch []; Batch [[4]; [5]]; Pending; Batch [[9]]] in
  fine i /\ points_of grid (Some (fun p => p <? 9)) i = [1; 2; 3; 4; 5]
  /\ consume (grid_next grid (Some (fun p => p <? 9))) 12 (grid_stream_new None i 2)
     = Ok ([[1; 2]; [3]; [4; 5]; []], Done).
Proof. split; [reflexivity|split; reflexivity]. Qed.
