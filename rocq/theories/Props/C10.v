(** C10: decompressing the segments of a time series restores its data points. *)
From Coq Require Import ZArith Reals List Sorting.Sorted.
From Verif Require Import Model.Base Model.Float Model.ErrorBound Model.Segments
  Spec.TimestampsSpec Spec.ErrorBoundSpec Spec.PlatformSpec Spec.MacaqueVSpec Spec.PmcSpec
  Spec.SegmentsSpec Spec.SwingSpec Spec.GridSpec
  Proofs.MacaqueVLossyProofs Proofs.RestoreProofs Proofs.RestoreWitnesses Proofs.RestoreNearProofs.
Import ListNotations.
Open Scope Z_scope.

(** For time series of any length. Every data point is restored once, in order and with its
    timestamp. Its value is within the bound unless it is in a segment with a linear function,
    see [restores]. Missing: the values of linear functions (C07, where the claim is false), the
    residuals of a linear function that does not end in its stored last value (false, see below),
    NaN (false, see below), platforms with ordered zeros (false, see below), values that MacaqueV
    cannot rewrite (C05), and a relative bound of 100% with values of different signs (C06). *)
Theorem c10_segments_restore_series_partial : forall P eb ts vs,
  good_log2 P -> ties_first P -> valid_error_bound eb ->
  (forall e, eb = Relative e -> (R32 e < 100)%R \/ same_sign vs) ->
  Forall (rewritable eb) vs -> Forall (fun v => f32_is_nan v = false) vs ->
  valid_timestamps ts -> span_fits ts -> length ts = length vs ->
  exists segments parts, compress_univariate P eb ts vs = Ok segments
    /\ concat parts = combine ts vs /\ Forall2 (restores P eb) segments parts.
Proof. exact compress_restores. Qed.
Print Assumptions c10_segments_restore_series_partial.

(** All values, also those of linear functions, are restored with at most the rounding errors of
    C07 in addition to the deviation. Missing: only the residuals after linear functions. The
    hypotheses on [size], [latest] and [interval] exclude extreme values and timestamps. *)
Theorem c10_values_near_partial : forall P eb ts vs size latest interval,
  good_log2 P -> ties_first P -> valid_error_bound eb ->
  (forall e, eb = Relative e -> (R32 e < 100)%R \/ same_sign vs) ->
  Forall (rewritable eb) vs -> Forall (fun v => f32_is_nan v = false) vs ->
  valid_timestamps ts -> span_fits ts -> length ts = length vs ->
  1 <= interval -> latest <= 2 ^ 52 -> (0 <= size <= 2 ^ 120)%R ->
  (IZR latest / IZR interval + INR (length vs) <= 2 ^ 44)%R ->
  StronglySorted (fun t t' => t + interval <= t') ts -> Forall (fun t => Z.abs t <= latest) ts ->
  Forall (fun v => finite32 v -> (Rabs (R32 v) + exact_deviation eb (R32 v) <= size)%R) vs ->
  exists segments parts, compress_univariate P eb ts vs = Ok segments
    /\ concat parts = combine ts vs
    /\ Forall2 (restores_as P (near eb (rounding size latest interval (length vs)))) segments parts.
Proof. exact compress_restores_near. Qed.
Print Assumptions c10_values_near_partial.

(** All values are restored within the bound if the rounding errors are less than what the
    deviation leaves of the bound. Missing: as above, and finite values without loss, for which
    nothing is left (the claim is false for linear functions without loss, see C07). *)
Theorem c10_values_within_bound_partial : forall P eb ts vs size latest interval,
  good_log2 P -> ties_first P -> valid_error_bound eb ->
  (forall e, eb = Relative e -> (R32 e < 100)%R \/ same_sign vs) ->
  Forall (rewritable eb) vs -> Forall (fun v => f32_is_nan v = false) vs ->
  valid_timestamps ts -> span_fits ts -> length ts = length vs ->
  1 <= interval -> latest <= 2 ^ 52 -> (0 <= size <= 2 ^ 120)%R ->
  (IZR latest / IZR interval + INR (length vs) <= 2 ^ 44)%R ->
  StronglySorted (fun t t' => t + interval <= t') ts -> Forall (fun t => Z.abs t <= latest) ts ->
  Forall (fun v => finite32 v -> (Rabs (R32 v) + exact_deviation eb (R32 v) <= size)%R) vs ->
  Forall (fun v => finite32 v ->
            (rounding size latest interval (length vs) <= margin eb (R32 v))%R) vs ->
  exists segments parts, compress_univariate P eb ts vs = Ok segments
    /\ concat parts = combine ts vs
    /\ Forall2 (restores_as P (within_bound check_slack eb)) segments parts.
Proof. exact compress_restores_within. Qed.
Print Assumptions c10_values_within_bound_partial.

(** Under the same hypotheses a residual can be restored as any value. With one value per second
    and microseconds since 1970, the last value of 90.0, 80.0, ..., 0.0, 1000.0 is restored as a
    negative number even though the absolute bound is 1.0: the compressor uses the last value of
    the model as the value before the residuals and the decompressor the last value of the line. *)
Theorem c10_residual_after_line_refuted : exists P eb ts vs s ts' out,
  good_log2 P /\ ties_first P /\ valid_error_bound eb
  /\ (forall e, eb = Relative e -> (R32 e < 100)%R \/ same_sign vs)
  /\ Forall (rewritable eb) vs
  /\ Forall (fun v => f32_is_nan v = false) vs /\ valid_timestamps ts /\ span_fits ts
  /\ length ts = length vs
  /\ compress_univariate P eb ts vs = Ok [s] /\ grid P s = Ok (ts', out)
  /\ ~ Forall2 (within_bound 900 eb) vs out.
Proof. exact residual_after_line. Qed.
Print Assumptions c10_residual_after_line_refuted.

(** Eight NaN values and 1.0 are restored as other values, even without loss. *)
Theorem c10_nan_refuted : exists ts vs s ts' out,
  let P := exact_platform in
  valid_timestamps ts /\ span_fits ts /\ length ts = length vs
  /\ compress_univariate P Lossless ts vs = Ok [s] /\ grid P s = Ok (ts', out)
  /\ (forall v, nth 0 vs v = f32_nan) /\ forall eb slack, ~ Forall2 (within_bound slack eb) vs out.
Proof. exact nan_model. Qed.
Print Assumptions c10_nan_refuted.

(** On a platform that orders -0.0 before 0.0 finite values are not restored: eight times 0.0,
    5.0 and -0.0 become a series with -5.0. *)
Theorem c10_signed_zeros_refuted : exists P ts vs s ts' out,
  good_log2 P /\ Forall (fun v => finite32 v) vs
  /\ valid_timestamps ts /\ span_fits ts /\ length ts = length vs
  /\ compress_univariate P Lossless ts vs = Ok [s] /\ grid P s = Ok (ts', out)
  /\ forall slack, ~ Forall2 (within_bound slack Lossless) vs out.
Proof. exact signed_zeros. Qed.
Print Assumptions c10_signed_zeros_refuted.

Example c10_example :
  let P := exact_platform in
  let eb := Absolute (f32_of_Z 1) in
  let ts := every_second 11 in
  good_log2 P /\ ties_first P /\ valid_error_bound eb
  /\ (forall e, eb = Relative e -> (R32 e < 100)%R \/ same_sign falling)
  /\ Forall (rewritable eb) falling
  /\ Forall (fun v => f32_is_nan v = false) falling /\ valid_timestamps ts /\ span_fits ts
  /\ length ts = length falling.
Proof. exact falling_hypotheses. Qed.

(** 90.0, 80.0, ..., 0.0 measured each second in 2023 become one linear function. *)
Example c10_example_line :
  let P := exact_platform in
  let eb := Absolute (f32_of_Z 1) in
  let ts := every_second 10 in
  let latest := 1700000009000000 in
  (good_log2 P /\ ties_first P /\ valid_error_bound eb
   /\ (forall e, eb = Relative e -> (R32 e < 100)%R \/ same_sign measured)
   /\ Forall (rewritable eb) measured
   /\ Forall (fun v => f32_is_nan v = false) measured /\ valid_timestamps ts /\ span_fits ts
   /\ length ts = length measured)
  /\ latest <= 2 ^ 52 /\ (0 <= 100 <= 2 ^ 120)%R
  /\ (IZR latest / IZR 1000000 + INR (length measured) <= 2 ^ 44)%R
  /\ StronglySorted (fun t t' => t + 1000000 <= t') ts /\ Forall (fun t => Z.abs t <= latest) ts
  /\ Forall (fun v => finite32 v -> (Rabs (R32 v) + exact_deviation eb (R32 v) <= 100)%R) measured
  /\ Forall (fun v => finite32 v ->
                (rounding 100 latest 1000000 (length measured) <= margin eb (R32 v))%R) measured
  /\ match compress_univariate P eb ts measured with
     | Ok segments => map sg_model_type_id segments
     | _ => []
     end = [swing_id].
Proof. exact measured_hypotheses. Qed.

(** 5.0 eight times, 7.0 and 6.0 are restored as they are by a constant function and residuals. *)
Example c10_example_restored :
  let vs := map f32_of_Z [5; 5; 5; 5; 5; 5; 5; 5; 7; 6] in
  match compress_univariate exact_platform Lossless (every_second 10) vs with
  | Ok [s] => match grid exact_platform s with
              | Ok (ts, out) => (sg_model_type_id s, ts, map to_bits out)
              | _ => (0, [], [])
              end
  | _ => (0, [], [])
  end = (pmc_mean_id, every_second 10, map to_bits vs).
Proof. vm_compute. reflexivity. Qed.
