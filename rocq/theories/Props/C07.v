(** C07: a linear function model represents every data point it accepted within the bound. *)
From Coq Require Import ZArith Reals List Bool Lra Lia Sorting.Sorted.
From Verif Require Import Model.Base Model.Float Model.ErrorBound Model.Swing
  Spec.ErrorBoundSpec Spec.SwingSpec Spec.TimestampsSpec
  Proofs.MacaqueVLossyProofs Proofs.SwingProofs Proofs.SwingFloatProofs Proofs.SwingBound
  Proofs.SwingExample.
Import ListNotations.
Open Scope R_scope.

(** The full claim is about [f64_num], the arithmetic of the program. It is false, see the two
    theorems named [_refuted]. What holds is that the algorithm is right: the same code with
    exact arithmetic keeps the bound for the data points it accepted, for sequences of any length
    in which other data points can be rejected. *)
Theorem c07_swing_within_error_bound_exact_arithmetic_partial : forall eb offered points m,
  valid_error_bound eb -> (2 <= length points)%nat ->
  StronglySorted Z.lt (map fst points) ->
  (forall t v t' v', In (t, v) points -> In (t', v') points -> is_i64 (t - t')) ->
  swing_offer_all exact_num (swing_new exact_num eb) offered
    = (map (fun p => (fst p, Some (snd p))) points, m) ->
  forall t v, In (t, v) points ->
  exists w, line_value exact_num m t = Some w /\ exactly_within eb v w.
Proof. exact swing_exact_offered. Qed.
Print Assumptions c07_swing_within_error_bound_exact_arithmetic_partial.

(** The f64 arithmetic of the program adds only rounding errors that do not depend on the values
    themselves: they grow with the size of the values, the number of data points, and the number
    of intervals between data points since time zero. *)
Theorem c07_swing_near_f64_partial : forall P eb offered points m size latest interval,
  valid_error_bound eb -> (2 <= length points)%nat ->
  (1 <= interval)%Z -> (latest <= 2 ^ 52)%Z -> size <= 2 ^ 120 ->
  IZR latest / IZR interval + INR (length points) <= 2 ^ 44 ->
  StronglySorted (fun t t' => (t + interval <= t')%Z) (map fst points) ->
  Forall (fun p => (Z.abs (fst p) <= latest)%Z /\ finite32 (snd p)
                   /\ Rabs (R32 (snd p)) + exact_deviation eb (R32 (snd p)) <= size) points ->
  swing_offer_all (f64_num P) (swing_new (f64_num P) eb)
    (map (fun p => (fst p, f64_of_f32 (snd p))) offered)
    = (map (fun p => (fst p, f64_of_f32 (snd p))) points, m) ->
  forall t v, In (t, v) points ->
  Forall (fun restored => finite32 restored /\
            Rabs (R32 v - R32 restored)
            <= exact_deviation eb (R32 v) + rounding size latest interval (length points))
    (swing_grid P (sw_start_time m) (sw_end_time m)
       (fst (swing_model P m)) (snd (swing_model P m)) [t]).
Proof. exact swing_f64_offered. Qed.
Print Assumptions c07_swing_near_f64_partial.

(** The bound is therefore kept by the program for every value for which the rounding errors are
    less than what the deviation leaves of the bound: 1% of an absolute bound and 0.1% of a
    relative bound. *)
Theorem c07_swing_within_error_bound_f64_partial :
  forall P eb offered points m size latest interval,
  valid_error_bound eb -> (2 <= length points)%nat ->
  (1 <= interval)%Z -> (latest <= 2 ^ 52)%Z -> size <= 2 ^ 120 ->
  IZR latest / IZR interval + INR (length points) <= 2 ^ 44 ->
  StronglySorted (fun t t' => (t + interval <= t')%Z) (map fst points) ->
  Forall (fun p => (Z.abs (fst p) <= latest)%Z /\ finite32 (snd p)
                   /\ Rabs (R32 (snd p)) + exact_deviation eb (R32 (snd p)) <= size) points ->
  swing_offer_all (f64_num P) (swing_new (f64_num P) eb)
    (map (fun p => (fst p, f64_of_f32 (snd p))) offered)
    = (map (fun p => (fst p, f64_of_f32 (snd p))) points, m) ->
  forall t v, In (t, v) points ->
  rounding size latest interval (length points) <= margin eb (R32 v) ->
  Forall (within_bound 0 eb v)
    (swing_grid P (sw_start_time m) (sw_end_time m)
       (fst (swing_model P m)) (snd (swing_model P m)) [t]).
Proof. exact swing_f64_within. Qed.
Print Assumptions c07_swing_within_error_bound_f64_partial.

(** Infinities and NaN are restored exactly by the f64 arithmetic of the program: a model that
    accepted such a value represents only this value. *)
Theorem c07_not_finite_values_exact : forall P eb points m t v, (2 <= length points)%nat ->
  valid_timestamps (map fst points) ->
  (forall t v t' v', In (t, v) points -> In (t', v') points -> is_i64 (t - t')) ->
  swing_fit_data_points P (swing_new (f64_num P) eb) points = Some m ->
  In (t, v) points -> ~ finite32 v ->
  forall t' v', In (t', v') points ->
  Forall (same_number v') (swing_grid P (sw_start_time m) (sw_end_time m)
                             (fst (swing_model P m)) (snd (swing_model P m)) [t']).
Proof. exact swing_special. Qed.
Print Assumptions c07_not_finite_values_exact.

(** With the lossless bound, one value per second and timestamps in microseconds since 1970, the
    second of ten values is restored as another value. *)
Theorem c07_lossless_refuted : exists P points m t v,
  (8 <= length points)%nat /\ valid_timestamps (map fst points)
  /\ Forall (fun p => finite32 (snd p)) points
  /\ swing_fit_data_points P (swing_new (f64_num P) Lossless) points = Some m
  /\ In (t, v) points
  /\ ~ Forall (same_number v) (swing_grid P (sw_start_time m) (sw_end_time m)
                                 (fst (swing_model P m)) (snd (swing_model P m)) [t]).
Proof. exact swing_lossless_wrong. Qed.
Print Assumptions c07_lossless_refuted.

(** An absolute bound can be exceeded by almost half if it is close to the precision of the values. *)
Theorem c07_absolute_refuted : exists P eb points m t v,
  valid_error_bound eb
  /\ (8 <= length points)%nat /\ valid_timestamps (map fst points)
  /\ Forall (fun p => finite32 (snd p)) points
  /\ swing_fit_data_points P (swing_new (f64_num P) eb) points = Some m
  /\ In (t, v) points
  /\ ~ Forall (within_bound (49 / 100) eb v) (swing_grid P (sw_start_time m) (sw_end_time m)
                                 (fst (swing_model P m)) (snd (swing_model P m)) [t]).
Proof. exact swing_absolute_wrong. Qed.
Print Assumptions c07_absolute_refuted.

(** Three data points on a line are accepted without loss in exact arithmetic. *)
Example c07_example :
  let points := [(10, 1); (20, 3); (30, 5)]%Z in
  exists m, swing_offer_all exact_num (swing_new exact_num Lossless)
    (map (fun p => (fst p, Some (IZR (snd p)))) points)
  = (map (fun p => (fst p, Some (IZR (snd p)))) points, m).
Proof. exact exact_line_accepted. Qed.

(** Values measured each second in 2023 with timestamps in microseconds: two are accepted with an
    absolute bound, one is rejected, and another one is accepted. The rounding errors are small. *)
Example c07_example_f64 :
  (exists m, swing_offer_all (f64_num exact_platform) (swing_new (f64_num exact_platform) (Absolute (f32_of_Z 1)))
     (map (fun p => (fst p, f64_of_f32 (snd p))) example_offered)
   = (map (fun p => (fst p, f64_of_f32 (snd p))) example_accepted, m))
  /\ length example_offered = 4%nat /\ length example_accepted = 3%nat
  /\ StronglySorted (fun t t' => (t + 1000000 <= t')%Z) (map fst example_accepted)
  /\ Forall (fun p => (Z.abs (fst p) <= 1700000003000000)%Z /\ finite32 (snd p)
       /\ Rabs (R32 (snd p)) + exact_deviation (Absolute (f32_of_Z 1)) (R32 (snd p)) <= 101)
       example_accepted
  /\ IZR 1700000003000000 / IZR 1000000 + INR (length example_accepted) <= 2 ^ 44
  /\ rounding 101 1700000003000000 1000000 (length example_accepted)
     <= margin (Absolute (f32_of_Z 1)) 0.
Proof. exact swing_f64_example. Qed.

(** Three NaN values are accepted by the program. *)
Example c07_example_nan :
  match swing_fit_data_points exact_platform (swing_new (f64_num exact_platform) Lossless)
          [(1, f32_nan); (2, f32_nan); (3, f32_nan)]%Z with Some _ => true | None => false end = true.
Proof. vm_compute. reflexivity. Qed.
