(** Aggregates of linear functions, which are rounded. *)
From Coq Require Import ZArith Reals List.
From Verif Require Import Model.Base Model.Float Model.Segments
  Spec.ErrorBoundSpec Spec.SwingSpec.
Import ListNotations.
Open Scope R_scope.

(** A linear function without residuals whose values and timestamps are not extreme: [size] bounds
    the absolute values of the line, and [latest] those of the timestamps. *)
Definition plain_line (size : R) (latest : Z) (s : segment) : Prop :=
  sg_residuals s = []
  /\ finite32 (sg_min s) /\ finite32 (sg_max s)
  /\ Rabs (R32 (sg_min s)) <= size /\ Rabs (R32 (sg_max s)) <= size
  /\ (Z.abs (sg_start_time s) <= latest)%Z /\ (Z.abs (sg_end_time s) <= latest)%Z
  /\ (latest <= 2 ^ 44 * (sg_end_time s - sg_start_time s))%Z.

(** How much the values of the line are rounded, SwingSpec. *)
Definition line_error (size : R) (latest : Z) (s : segment) : R :=
  rounding size latest (sg_end_time s - sg_start_time s) 0.

(** Segments that are not linear functions, or linear functions that are rounded by at most [e]. *)
Definition lines_within (size : R) (latest : Z) (e : R) (s : segment) : Prop :=
  sg_model_type_id s = swing_id -> plain_line size latest s /\ line_error size latest s <= e.

(** [m] is the least (greatest) of the values up to [e]. *)
Definition near_least (e : R) (m : f32) (l : list f32) : Prop :=
  finite32 m /\ (exists x, In x l /\ Rabs (R32 x - R32 m) <= e)
  /\ forall x, In x l -> R32 m - e <= R32 x.
Definition near_greatest (e : R) (m : f32) (l : list f32) : Prop :=
  finite32 m /\ (exists x, In x l /\ Rabs (R32 x - R32 m) <= e)
  /\ forall x, In x l -> R32 x <= R32 m + e.
