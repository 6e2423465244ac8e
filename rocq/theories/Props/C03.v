(** C03: the length of a segment is computed without restoring regular timestamps. *)
From Coq Require Import ZArith List Bool Lia Sorting.Sorted.
From Verif Require Import Model.Base Model.Timestamps Spec.TimestampsSpec Proofs.TimestampsProofs.
Import ListNotations.
Open Scope Z_scope.

Theorem c03_len_is_number_of_timestamps :
  forall ts : list Z,
    valid_timestamps ts ->
    len (first_timestamp ts) (last_timestamp ts) (compress_residual_timestamps ts) =
      Ok (Z.of_nat (length ts)).
Proof. exact len_correct. Qed.

Definition c03_timestamps : list Z := map (fun k => 1000 * Z.of_nat k) (seq 0 300).

Example c03_example :
  len (first_timestamp c03_timestamps) (last_timestamp c03_timestamps)
    (compress_residual_timestamps c03_timestamps) = Ok 300 /\
  length (compress_residual_timestamps c03_timestamps) = 2%nat.
Proof. vm_compute. auto. Qed.

Example c03_example_hypothesis : valid_timestamps [10; 20; 35; 36].
Proof.
  split; [discriminate|].
  split; [repeat apply Forall_cons; try apply Forall_nil; unfold is_i64; lia|].
  split; [repeat apply SSorted_cons; try apply SSorted_nil;
          repeat apply Forall_cons; try apply Forall_nil; lia|
          cbn [length]; lia].
Qed.

Print Assumptions c03_len_is_number_of_timestamps.
