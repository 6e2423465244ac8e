(** C14: aggregates computed from segments agree with the decompressed data points. *)
From Coq Require Import ZArith Reals List.
From Flocq Require Import Core.
From Verif Require Import Model.Base Model.Float Model.Segments Model.Aggregates
  Spec.ErrorBoundSpec Spec.PlatformSpec Spec.SegmentsSpec Spec.AggregateSpec
  Spec.LineSpec
  Proofs.MacaqueVLossyProofs Proofs.AggregateSumProofs Proofs.AggregateWitnesses
  Proofs.LineSegmentProofs Proofs.LineWitnesses.
Import ListNotations.
Open Scope Z_scope.

(** COUNT, for any number of segments with any models of any time series. *)
Theorem c14_count : forall P segments, good_log2 P -> ties_first P ->
  Forall (created P) segments ->
  exists restored, decompressed P segments restored
    /\ forall count, 0 <= count -> count + Z.of_nat (length restored) < 2 ^ 63 ->
       model_count count segments = Ok (count + Z.of_nat (length restored)).
Proof. exact count_correct. Qed.
Print Assumptions c14_count.

(** MIN and MAX, for any number of segments that are not linear functions, if not all values are
    infinite (false otherwise, see below). Missing: linear functions, for which the claim is false
    as their minimum and maximum are not rounded as the values of the line are, see below. *)
Theorem c14_min_max_partial : forall P segments, good_log2 P -> ties_first P ->
  Forall (fun s => created P s /\ sg_model_type_id s <> swing_id) segments ->
  exists restored, decompressed P segments restored
    /\ ((exists x, In x restored /\ f32_le x f32_max_value = true) ->
        least (model_min P segments) restored)
    /\ ((exists x, In x restored /\ f32_le f32_min_value x = true) ->
        greatest (model_max P segments) restored).
Proof. exact min_max_correct. Qed.
Print Assumptions c14_min_max_partial.

(** SUM and AVG, for any number of segments that are not linear functions: the count is exact and
    the sum differs from the exact sum by at most the rounding of one f32 operation per value and
    segment. Missing: linear functions (false, see below) and sums that overflow f32. *)
Theorem c14_sum_avg_partial : forall P segments, good_log2 P -> ties_first P ->
  Forall (fun s => created P s /\ sg_model_type_id s <> swing_id) segments ->
  Forall (short P) segments ->
  exists restored, decompressed P segments restored
    /\ (Forall finite32 restored -> Z.of_nat (length restored) < 2 ^ 64 ->
        let factor := ((1 + unit32) ^ (length restored + length segments))%R in
        (factor * magnitude restored <= IZR (2 ^ 127))%R ->
        exists sum, model_sum P f64_zero segments = Ok sum
          /\ model_avg P 0 f64_zero segments = Ok (Z.of_nat (length restored), sum)
          /\ finite64 sum
          /\ (Rabs (R64 sum - total restored) <= (factor - 1) * magnitude restored)%R).
Proof. exact sum_avg_correct. Qed.
Print Assumptions c14_sum_avg_partial.

(** MIN and MAX for segments of any kind: they differ from the least and the greatest value by at
    most the rounding of the values of linear functions. Missing: linear functions with residuals,
    whose restored residuals can be wrong (C10), and values that are not finite. *)
Theorem c14_lines_min_max_partial : forall P segments size latest e, good_log2 P -> ties_first P ->
  latest <= 2 ^ 52 -> (size <= 2 ^ 96)%R -> (0 <= e)%R -> segments <> [] ->
  Forall (fun s => created P s /\ lines_within size latest e s) segments ->
  exists restored, decompressed P segments restored
    /\ (Forall finite32 restored ->
        near_least e (model_min P segments) restored
        /\ near_greatest e (model_max P segments) restored).
Proof. exact near_min_max. Qed.
Print Assumptions c14_lines_min_max_partial.

(** SUM and AVG for segments of any kind: in addition to the rounding of f32 operations, each value
    may be rounded twice as a value of a linear function. Missing: as above. *)
Theorem c14_lines_sum_avg_partial : forall P segments size latest e, good_log2 P -> ties_first P ->
  latest <= 2 ^ 52 -> (size <= 2 ^ 96)%R -> (0 <= e)%R ->
  Forall (fun s => created P s /\ lines_within size latest e s) segments ->
  Forall (short P) segments ->
  exists restored, decompressed P segments restored
    /\ (Forall finite32 restored -> Z.of_nat (length restored) < 2 ^ 64 ->
        let factor := ((1 + unit32) ^ (length restored + length segments))%R in
        let lines := (INR (length restored) * (2 * e))%R in
        (factor * (magnitude restored + lines) <= IZR (2 ^ 127))%R ->
        exists sum, model_sum P f64_zero segments = Ok sum
          /\ model_avg P 0 f64_zero segments = Ok (Z.of_nat (length restored), sum)
          /\ finite64 sum
          /\ (Rabs (R64 sum - total restored)
              <= (factor - 1) * (magnitude restored + lines) + lines)%R).
Proof. exact near_sum_avg. Qed.
Print Assumptions c14_lines_sum_avg_partial.

(** The minimum of a linear function can be greater than a value restored from it: ten values, one
    per millisecond, that fall from 63.0 to 0.0. *)
Theorem c14_line_min_refuted : exists P s ts out x, good_log2 P /\ ties_first P /\ created P s
  /\ sg_residuals s = [] /\ grid P s = Ok (ts, out) /\ Forall finite32 out
  /\ In x out /\ f32_lt x (model_min P [s]) = true.
Proof. exact line_min_wrong. Qed.
Print Assumptions c14_line_min_refuted.

(** The sum of a linear function is wrong if its segment has residuals and irregular timestamps:
    the line is stretched to the timestamp of the last residual. The values 100.0, 8.0, 7.0, ...,
    0.0 and 1000.0 have the sum 1136.0 and are restored as such, but the sum is more than 1900. *)
Theorem c14_swing_sum_refuted : exists P s ts out x, good_log2 P /\ ties_first P /\ created P s
  /\ grid P s = Ok (ts, out) /\ Forall finite32 out /\ segment_sum P s = Ok x
  /\ (0 <= total out <= 1136)%R /\ (1900 <= R32 x)%R.
Proof. exact swing_sum_wrong. Qed.
Print Assumptions c14_swing_sum_refuted.

(** The minimum of eight infinities is reported as [f32::MAX]. *)
Theorem c14_min_of_infinities_refuted : exists P s ts out, good_log2 P /\ ties_first P /\ created P s
  /\ grid P s = Ok (ts, out) /\ out <> [] /\ ~ least (model_min P [s]) out.
Proof. exact min_infinity_wrong. Qed.
Print Assumptions c14_min_of_infinities_refuted.

(** Sums are computed with f32 for each segment, so that the sum of eight values of about 8.5e37 is
    infinite although it is far less than the greatest f64, which is what is returned. *)
Theorem c14_sum_overflow_refuted : exists P s ts out sum, good_log2 P /\ ties_first P /\ created P s
  /\ grid P s = Ok (ts, out) /\ Forall finite32 out /\ (Rabs (total out) <= bpow radix2 131)%R
  /\ model_sum P f64_zero [s] = Ok sum /\ ~ finite64 sum.
Proof. exact sum_overflows. Qed.
Print Assumptions c14_sum_overflow_refuted.

(** The segment of 7.0 eight times and 90.0 meets the hypotheses. *)
Example c14_example : exists s, created exact_platform s /\ sg_model_type_id s <> swing_id
  /\ short exact_platform s
  /\ (exists ts out, grid exact_platform s = Ok (ts, out) /\ map to_bits out
        = map (fun z => to_bits (f32_of_Z z)) [7; 7; 7; 7; 7; 7; 7; 7; 90])
  /\ model_count 0 [s; s] = Ok 18
  /\ to_bits (model_min exact_platform [s; s]) = to_bits (f32_of_Z 7)
  /\ to_bits (model_max exact_platform [s; s]) = to_bits (f32_of_Z 90).
Proof. exact aggregates_example. Qed.

(** Their segment meets the hypotheses for linear functions: the values are rounded by at most a
    quarter. *)
Example c14_lines_example : exists s, created exact_platform s /\ sg_model_type_id s = swing_id
  /\ lines_within 64 1700000000009000 (/ 4) s /\ short exact_platform s.
Proof. exact lines_example. Qed.
