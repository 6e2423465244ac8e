(** What it means for segments to represent data points. *)
From Coq Require Import ZArith List.
From Verif Require Import Model.Base Model.Float Model.Timestamps Model.Segments
  Spec.TimestampsSpec Spec.ErrorBoundSpec.
Import ListNotations.
Open Scope Z_scope.

(** [min] and [max] return their first argument if both are equal, as on x86-64. *)
Definition ties_first (P : platform) : Prop :=
  (forall x y, min_takes_first P x y = true) /\ (forall x y, max_takes_first P x y = true).

(** The parameters of a linear function model without residuals as they are stored in a segment:
    minimum, maximum and whether the minimum is first, types.rs l.125-135. *)
Definition swing_min (P : platform) (first last : f32) : f32 := f32_min P first last.
Definition swing_max (P : platform) (first last : f32) : f32 := f32_max P first last.

(** The number of values represented by the model of a segment with [n] data points. *)
Definition model_values (s : segment) (n : nat) : nat := (n - residuals_length (sg_residuals s))%nat.

(** A segment covers a non-empty sequence of data points: its timestamps are the timestamps of
    these data points, it has at most 255 residuals, a function model represents at least 8 of the
    data points, and a segment without a function model has no residuals. *)
Definition covers (s : segment) (points : list (Z * f32)) : Prop :=
  points <> []
  /\ sg_start_time s = first_timestamp (map fst points)
  /\ sg_end_time s = last_timestamp (map fst points)
  /\ decompress_all_timestamps (sg_start_time s) (sg_end_time s) (sg_timestamps s)
     = Ok (map fst points)
  /\ (residuals_length (sg_residuals s) <= 255)%nat
  /\ (residuals_length (sg_residuals s) < length points)%nat
  /\ (sg_model_type_id s = pmc_mean_id \/ sg_model_type_id s = swing_id ->
      (8 <= model_values s (length points))%nat)
  /\ (sg_model_type_id s = pmc_mean_id \/ sg_model_type_id s = swing_id
      \/ sg_model_type_id s = macaque_v_id /\ sg_residuals s = []).

(** [k] is the length of the longest prefix of [l] that [fit] accepts and [m] is the result. *)
Definition longest {A M : Type} (fit : list A -> option M) (l : list A) (k : nat) (m : M) : Prop :=
  (k <= length l)%nat /\ fit (firstn k l) = Some m
  /\ forall k', (k < k' <= length l)%nat -> fit (firstn k' l) = None.
