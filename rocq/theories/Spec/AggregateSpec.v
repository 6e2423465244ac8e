(** What aggregates of data points are. *)
From Coq Require Import ZArith Reals List.
From Verif Require Import Model.Base Model.Float Model.ErrorBound Model.Segments
  Spec.TimestampsSpec Spec.ErrorBoundSpec Spec.PlatformSpec Spec.MacaqueVSpec Spec.PmcSpec
  Spec.SegmentsSpec Spec.GridSpec.
Import ListNotations.
Open Scope Z_scope.

(** A segment created for any time series for which C10 states that segments can be read. *)
Definition created (P : platform) (s : segment) : Prop :=
  exists eb ts vs segments, valid_error_bound eb
    /\ (forall e, eb = Relative e -> (R32 e < 100)%R \/ same_sign vs)
    /\ Forall (rewritable eb) vs /\ Forall (fun v => f32_is_nan v = false) vs
    /\ valid_timestamps ts /\ span_fits ts /\ length ts = length vs
    /\ compress_univariate P eb ts vs = Ok segments /\ In s segments.

(** [restored] are the values decompressed from [segments], segment by segment. *)
Definition decompressed (P : platform) (segments : list segment) (restored : list f32) : Prop :=
  exists parts, Forall2 (fun s out => exists ts, grid P s = Ok (ts, out)) segments parts
    /\ concat parts = restored.

(** [m] is the least (greatest) of the values. *)
Definition least (m : f32) (l : list f32) : Prop :=
  (exists x, In x l /\ same_number x m) /\ forall x, In x l -> f32_le m x = true.
Definition greatest (m : f32) (l : list f32) : Prop :=
  (exists x, In x l /\ same_number x m) /\ forall x, In x l -> f32_le x m = true.

(** At most 2^24 values per segment, so that the number of values is an f32. *)
Definition short (P : platform) (s : segment) : Prop :=
  forall ts out, grid P s = Ok (ts, out) -> Z.of_nat (length out) <= 2 ^ 24.

(** The exact sum of finite values and of their absolute values. *)
Definition total (l : list f32) : R := fold_right (fun v s => R32 v + s)%R 0%R l.
Definition magnitude (l : list f32) : R := fold_right (fun v s => Rabs (R32 v) + s)%R 0%R l.

(** A relative rounding error of an f32 operation. *)
Definition unit32 : R := (/ 16777216)%R.
