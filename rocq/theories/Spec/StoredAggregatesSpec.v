(** How much aggregates of stored data points may differ from those of the data points received. *)
From Coq Require Import ZArith Reals List.
From Verif Require Import Model.Base Model.Float Model.ErrorBound
  Spec.PlatformSpec Spec.ErrorBoundSpec Spec.PmcSpec Spec.SegmentsSpec Spec.GridSpec Spec.AggregateSpec.
Import ListNotations.
Open Scope R_scope.

(** How much a restored value may differ from a value: the error bound and rounding errors. *)
Definition width (eb : error_bound) (extra : R) (v : f32) : R :=
  match eb with
  | Absolute e => (1 + check_slack) * R32 e
  | Relative e => (1 + check_slack) * (R32 e / 100) * Rabs (R32 v)
  | Lossless => 0
  end + extra.
Definition widths (eb : error_bound) (extra : R) (l : list f32) : R :=
  fold_right (fun v s => width eb extra v + s) 0 l.

(** [m] is the least (greatest) of the values except for what each of them may differ by. *)
Definition about_least (eb : error_bound) (extra e : R) (m : f32) (l : list f32) : Prop :=
  finite32 m /\ (exists v, In v l /\ Rabs (R32 v - R32 m) <= width eb extra v + e)
  /\ forall v, In v l -> R32 m <= R32 v + width eb extra v + e.
Definition about_greatest (eb : error_bound) (extra e : R) (m : f32) (l : list f32) : Prop :=
  finite32 m /\ (exists v, In v l /\ Rabs (R32 v - R32 m) <= width eb extra v + e)
  /\ forall v, In v l -> R32 v - width eb extra v - e <= R32 m.
