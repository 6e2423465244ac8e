(** C08: every data point of a time series is in exactly one segment. *)
From Coq Require Import ZArith List.
From Verif Require Import Model.Base Model.Float Model.ErrorBound Model.Segments
  Spec.TimestampsSpec Spec.SegmentsSpec
  Proofs.SegmentsProofs Proofs.MacaqueVLossyProofs Proofs.RestoreWitnesses.
Import ListNotations.
Open Scope Z_scope.

(** For every platform, error bound and time series of any length: the data points can be split
    into consecutive parts, one for each segment in order, that the segments cover. A part is not
    empty, its timestamps are the timestamps of its segment, and the limits on residuals and on
    the length of models hold. *)
Theorem c08_every_point_in_exactly_one_segment : forall P eb ts vs,
  valid_timestamps ts -> length ts = length vs ->
  exists segments parts, compress_univariate P eb ts vs = Ok segments
    /\ concat parts = combine ts vs /\ Forall2 covers segments parts.
Proof. exact compress_covers. Qed.
Print Assumptions c08_every_point_in_exactly_one_segment.

(** 20 falling values with an outlier and a constant tail: two segments, the first with two
    residuals. *)
Example c08_example :
  let vs := map f32_of_Z [90; 80; 70; 60; 50; 40; 30; 20; 10; 0; 1000; -7; 3; 3; 3; 3; 3; 3; 3; 3] in
  let ts := every_second 20 in
  valid_timestamps ts /\ length ts = length vs
  /\ match compress_univariate exact_platform (Absolute (f32_of_Z 1)) ts vs with
     | Ok segments => map (fun s => (sg_model_type_id s, residuals_length (sg_residuals s))) segments
     | _ => []
     end = [(swing_id, 2%nat); (pmc_mean_id, 0%nat)].
Proof.
  intros vs ts. split; [apply every_second_valid; [discriminate|reflexivity]|].
  split; [reflexivity|]. vm_compute. reflexivity.
Qed.
