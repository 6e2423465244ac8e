(** Model of the error bound checks in crates/modelardb_compression/src/models/mod.rs and of
    [ErrorBound] in crates/modelardb_types/src/types.rs. *)
From Coq Require Import ZArith List Bool.
From Flocq Require Import IEEE754.Binary IEEE754.Bits.
From Verif Require Import Model.Base Model.Float.
Import ListNotations.
Open Scope Z_scope.

(** [ErrorBound], modelardb_types/src/types.rs l.300-307. *)
Inductive error_bound : Type :=
| Absolute (e : f32)
| Relative (e : f32)
| Lossless.

(** [equal_or_nan], models/mod.rs l.93-95. *)
Definition equal_or_nan (v1 v2 : f64) : bool :=
  f64_eq v1 v2 || (f64_is_nan v1 && f64_is_nan v2).

(** The constant 100.0 as f32. *)
Definition f32_100 : f32 := f32_of_Z 100.

(** [is_value_within_error_bound], models/mod.rs l.53-80. *)
Definition is_value_within_error_bound (eb : error_bound) (real approximate : f32) : bool :=
  match eb with
  | Absolute e =>
      if equal_or_nan (f64_of_f32 real) (f64_of_f32 approximate) then true
      else f32_le (f32_abs (f32_sub real approximate)) e
  | Relative e =>
      if equal_or_nan (f64_of_f32 real) (f64_of_f32 approximate) then true
      else
        let difference := f32_sub real approximate in
        let result := f32_abs (f32_div difference real) in
        f32_le (f32_mul result f32_100) e
  | Lossless => equal_or_nan (f64_of_f32 real) (f64_of_f32 approximate)
  end.

(** The constants 0.99 and 100.1 as f64: the nearest doubles. *)
Definition f64_0_99 : f64 := b64_of_bits 4607092346807469998.
Definition f64_100_1 : f64 := b64_of_bits 4636744328229054054.

(** [maximum_allowed_deviation], models/mod.rs l.83-90. *)
Definition maximum_allowed_deviation (eb : error_bound) (value : f64) : f64 :=
  match eb with
  | Absolute e => f64_mul (f64_of_f32 e) f64_0_99
  | Relative e => f64_abs (f64_mul value (f64_div (f64_of_f32 e) f64_100_1))
  | Lossless => f64_zero
  end.

(** [ErrorBound::try_new_absolute], modelardb_types/src/types.rs l.312-320. *)
Definition try_new_absolute (value : f32) : outcome error_bound :=
  if negb (is_finite 24 128 value) || f32_le value f32_zero then Err else Ok (Absolute value).

(** [ErrorBound::try_new_relative], modelardb_types/src/types.rs l.325-334. *)
Definition try_new_relative (percentage : f32) : outcome error_bound :=
  if negb (f32_lt f32_zero percentage && f32_le percentage f32_100) then Err
  else Ok (Relative percentage).
