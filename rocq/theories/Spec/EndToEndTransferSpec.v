(** What the edge node and the cloud node should return after data was transferred. *)
From Coq Require Import ZArith String List Permutation.
From Verif Require Import Model.DataSource Model.EndToEnd.
From Verif Require Model.Transfer Spec.TransferSpec.
Import ListNotations.
Open Scope list_scope.

(** The rows of a table are the segments of all its fields.  [segment_of] is the segment of a row and
    [of_field] selects the rows of one field.  The files of that field in a data folder contain the
    segments of the rows in that data folder. *)
Definition in_folder (segment_of : Z -> stored_segment) (of_field : Z -> bool) (rows : list Z)
  (files : list (file stored_segment)) : Prop :=
  Permutation (flat_map segments_in files) (map segment_of (filter of_field rows)).

(** The executions of [c31_exactly_once_partial] that end when no rows are about to be deleted. *)
Record transferred (table : string) (n : nat) (batch : option Z) (events : list Transfer.event)
  (s : Transfer.state) : Prop := {
  transfers_run : Transfer.run events (Transfer.start n batch) = Transfer.Went s;
  nothing_saved_meanwhile : TransferSpec.along TransferSpec.no_save_while_moving events (Transfer.start n batch);
  one_at_a_time : TransferSpec.along TransferSpec.one_transfer_at_a_time events (Transfer.start n batch);
  written_is_deleted : TransferSpec.along TransferSpec.truncates_what_is_written events (Transfer.start n batch);
  nothing_written : forall a, In a (Transfer.x_tasks s) -> ~ TransferSpec.has_written table a
}.
