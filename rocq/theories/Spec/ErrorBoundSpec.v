(** What an error bound means, stated on real numbers. *)
From Coq Require Import ZArith Reals.
From Flocq Require Import Core IEEE754.Binary.
From Verif Require Import Model.Float Model.ErrorBound.
Open Scope R_scope.

(** The real number a finite f32 or f64 denotes (0 for infinities and NaN). *)
Definition R32 (x : f32) : R := B2R 24 128 x.
Definition R64 (x : f64) : R := B2R 53 1024 x.

Definition finite32 (x : f32) : Prop := is_finite 24 128 x = true.
Definition finite64 (x : f64) : Prop := is_finite 53 1024 x = true.

(** Two values that denote the same number, the same infinity, or are both NaN. *)
Definition same_number (x y : f32) : Prop :=
  (finite32 x /\ finite32 y /\ R32 x = R32 y)
  \/ (x = y /\ f32_is_infinite x = true)
  \/ (f32_is_nan x = true /\ f32_is_nan y = true).

(** The error bounds a user can create: positive and finite, at most 100 if relative. *)
Definition valid_error_bound (eb : error_bound) : Prop :=
  match eb with
  | Absolute e => finite32 e /\ 0 < R32 e
  | Relative e => finite32 e /\ 0 < R32 e <= 100
  | Lossless => True
  end.

(** [approximate] may replace [real]: they are the same, or both are finite and the exact error
    is at most [1 + slack] times the bound. *)
Definition within_bound (slack : R) (eb : error_bound) (real approximate : f32) : Prop :=
  same_number real approximate
  \/ finite32 real /\ finite32 approximate /\
     match eb with
     | Absolute e => Rabs (R32 real - R32 approximate) <= (1 + slack) * R32 e
     | Relative e =>
         Rabs (R32 real - R32 approximate) <= (1 + slack) * (R32 e / 100) * Rabs (R32 real)
     | Lossless => False
     end.

(** The rounding errors of the three f32 operations of a check: less than 2^-22. *)
Definition check_slack : R := / 4194304.
