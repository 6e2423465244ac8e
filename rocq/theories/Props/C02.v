(** C02: the timestamps of a segment are restored exactly. *)
From Coq Require Import ZArith List Bool Lia Sorting.Sorted.
From Verif Require Import Model.Base Model.Timestamps Spec.TimestampsSpec Proofs.TimestampsProofs.
Import ListNotations.
Open Scope Z_scope.

(** Strictly increasing i64 timestamps, regular or irregular, including deltas that wrap. *)
Theorem c02_timestamps_lossless :
  forall ts : list Z,
    valid_timestamps ts ->
    decompress_all_timestamps (first_timestamp ts) (last_timestamp ts)
      (compress_residual_timestamps ts) = Ok ts.
Proof. exact timestamps_round_trip. Qed.

Theorem c02_residual_timestamps_are_bytes :
  forall ts : list Z, valid_timestamps ts -> Forall is_u8 (compress_residual_timestamps ts).
Proof. exact compressed_timestamps_bytes. Qed.

(** An irregular series whose deltas and delta-of-deltas overflow i64. *)
Definition c02_irregular : list Z :=
  [- 2 ^ 63; - 2 ^ 63 + 1; -100; -50; 0; 64; 5000; 2 ^ 33; 2 ^ 62; 2 ^ 63 - 1].
Definition c02_regular : list Z := [-300; -200; -100; 0; 100].

Ltac valid_ts :=
  split; [discriminate|]; split; [|split];
  repeat match goal with
         | |- Forall _ _ => constructor
         | |- strictly_increasing _ => unfold strictly_increasing
         | |- StronglySorted _ _ => constructor
         | |- is_i64 _ => unfold is_i64; lia
         | |- _ < _ => cbn [length c02_irregular c02_regular]; lia
         end.

Example c02_example_irregular :
  valid_timestamps c02_irregular /\
  are_uncompressed_timestamps_regular c02_irregular = false /\
  decompress_all_timestamps (first_timestamp c02_irregular) (last_timestamp c02_irregular)
    (compress_residual_timestamps c02_irregular) = Ok c02_irregular.
Proof. split; [valid_ts|split; vm_compute; reflexivity]. Qed.

Example c02_example_regular :
  valid_timestamps c02_regular /\
  are_uncompressed_timestamps_regular c02_regular = true /\
  decompress_all_timestamps (first_timestamp c02_regular) (last_timestamp c02_regular)
    (compress_residual_timestamps c02_regular) = Ok c02_regular.
Proof. split; [valid_ts|split; vm_compute; reflexivity]. Qed.

(** The restriction to strictly increasing timestamps is needed: with duplicates in sorted
    order, data points disappear or decompression panics. *)
Theorem c02_duplicates_refuted :
  exists ts1 ts2 : list Z,
    Forall is_i64 ts1 /\ Sorted Z.le ts1 /\
    decompress_all_timestamps (first_timestamp ts1) (last_timestamp ts1)
      (compress_residual_timestamps ts1) <> Ok ts1 /\
    Forall is_i64 ts2 /\ Sorted Z.le ts2 /\
    decompress_all_timestamps (first_timestamp ts2) (last_timestamp ts2)
      (compress_residual_timestamps ts2) = Panic.
Proof.
  exists [5; 5], [5; 5; 5].
  assert (I : is_i64 5) by (unfold is_i64; lia).
  split; [auto|]. split; [repeat (constructor; try lia)|].
  split; [vm_compute; congruence|].
  split; [auto|]. split; [repeat (constructor; try lia)|].
  vm_compute; reflexivity.
Qed.

Print Assumptions c02_timestamps_lossless.
Print Assumptions c02_residual_timestamps_are_bytes.
Print Assumptions c02_duplicates_refuted.
