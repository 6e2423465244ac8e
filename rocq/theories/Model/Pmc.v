(** Model of crates/modelardb_compression/src/models/pmc_mean.rs: constant functions. *)
From Coq Require Import ZArith List Bool.
From Verif Require Import Model.Base Model.Float Model.ErrorBound.
Import ListNotations.
Open Scope Z_scope.

(** [PMCMean], pmc_mean.rs l.31-42. *)
Record pmc : Type := Pmc {
  pmc_error_bound : error_bound;
  pmc_min : f32;
  pmc_max : f32;
  pmc_sum : f64;
  pmc_length : nat
}.

(** [PMCMean::new], pmc_mean.rs l.45-53. *)
Definition pmc_new (eb : error_bound) : pmc := Pmc eb f32_nan f32_nan f64_zero 0.

(** [(sum_of_values / length as f64) as Value] in pmc_mean.rs l.63 and l.92. *)
Definition average_of (sum : f64) (length : nat) : f32 :=
  f32_of_f64 (f64_div sum (f64_of_Z (Z.of_nat length))).

(** [PMCMean::fit_value], pmc_mean.rs l.58-75. *)
Definition pmc_fit_value (P : platform) (m : pmc) (value : f32) : bool * pmc :=
  let next_min := f32_min P (pmc_min m) value in
  let next_max := f32_max P (pmc_max m) value in
  let next_sum := f64_add (pmc_sum m) (f64_of_f32 value) in
  let next_length := S (pmc_length m) in
  let average := average_of next_sum next_length in
  if is_value_within_error_bound (pmc_error_bound m) next_min average
     && is_value_within_error_bound (pmc_error_bound m) next_max average
  then (true, Pmc (pmc_error_bound m) next_min next_max next_sum next_length)
  else (false, m).

(** [PMCMean::model], pmc_mean.rs l.91-93. *)
Definition pmc_model (m : pmc) : f32 := average_of (pmc_sum m) (pmc_length m).

(** [pmc_mean::sum], pmc_mean.rs l.98-100. *)
Definition pmc_sum_of (model_length : nat) (value : f32) : f32 :=
  f32_mul (f32_of_Z (Z.of_nat model_length)) value.

(** [pmc_mean::grid], pmc_mean.rs l.104-108: one value for each of [n] timestamps. *)
Definition pmc_grid (value : f32) (n : nat) : list f32 := repeat value n.
