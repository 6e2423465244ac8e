(** What it means for a segment to restore data points. *)
From Coq Require Import ZArith Reals List.
From Verif Require Import Model.Base Model.Float Model.ErrorBound Model.Swing Model.Segments
  Spec.ErrorBoundSpec Spec.SwingSpec Spec.SegmentsSpec.
Import ListNotations.
Open Scope Z_scope.

(** No two timestamps are more than an i64 apart. *)
Definition span_fits (ts : list Z) : Prop := forall t t', In t ts -> In t' ts -> is_i64 (t - t').

(** Decompression yields all data points in order with their timestamps. If the model is not a
    linear function, all values are within the bound. If it is, the values of the model are those
    of the line that was fitted to these data points, and the residuals are within the bound if
    the line ends in exactly the value it was stored with. *)
Definition restores (P : platform) (eb : error_bound) (s : segment) (points : list (Z * f32)) : Prop :=
  exists out, grid P s = Ok (map fst points, out)
  /\ length out = length points
  /\ (sg_model_type_id s <> swing_id ->
      Forall2 (within_bound check_slack eb) (map snd points) out)
  /\ (sg_model_type_id s = swing_id ->
      let k := model_values s (length points) in
      exists m, swing_fit_data_points P (swing_new (f64_num P) eb) (firstn k points) = Some m
      /\ firstn k out = swing_grid P (sw_start_time m) (sw_end_time m) (fst (swing_model P m))
                          (snd (swing_model P m)) (map fst (firstn k points))
      /\ (last (firstn k out) f32_zero = snd (swing_model P m) ->
          Forall2 (within_bound check_slack eb) (map snd (skipn k points)) (skipn k out))).

(** A value is within the bound or at most [extra] further away than its deviation. *)
Definition near (eb : error_bound) (extra : R) (real approximate : f32) : Prop :=
  within_bound check_slack eb real approximate
  \/ finite32 real /\ finite32 approximate
     /\ (Rabs (R32 real - R32 approximate) <= exact_deviation eb (R32 real) + extra)%R.

(** Decompression yields all data points in order with their timestamps, and [ok] relates every
    value to the restored one. The exception are residuals stored after a linear function. *)
Definition restores_as (P : platform) (ok : f32 -> f32 -> Prop) (s : segment)
  (points : list (Z * f32)) : Prop :=
  exists out, grid P s = Ok (map fst points, out)
  /\ length out = length points
  /\ let k := if sg_model_type_id s =? swing_id then model_values s (length points)
              else length points in
     Forall2 ok (map snd (firstn k points)) (firstn k out).
