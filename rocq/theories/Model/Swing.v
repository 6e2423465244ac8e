(** Model of crates/modelardb_compression/src/models/swing.rs: linear functions. The code is
    written once over a record of arithmetic operations and used with IEEE f64 arithmetic
    ([f64_num], what the program does) and with exact real arithmetic ([exact_num] in
    Spec/SwingSpec.v, to separate the algorithm from its rounding errors). *)
From Coq Require Import ZArith List Bool.
From Verif Require Import Model.Base Model.Float Model.ErrorBound Model.Timestamps.
Import ListNotations.
Open Scope Z_scope.

(** The operations on f64 used by swing.rs; [num_deviation] is [maximum_allowed_deviation],
    models/mod.rs l.83-90. *)
Record num : Type := Num {
  num_t : Type;
  num_of_Z : Z -> num_t;
  num_nan : num_t;
  num_add : num_t -> num_t -> num_t;
  num_sub : num_t -> num_t -> num_t;
  num_mul : num_t -> num_t -> num_t;
  num_div : num_t -> num_t -> num_t;
  num_lt : num_t -> num_t -> bool;
  num_eq : num_t -> num_t -> bool;
  num_is_nan : num_t -> bool;
  num_is_finite : num_t -> bool;
  num_min : num_t -> num_t -> num_t;
  num_max : num_t -> num_t -> num_t;
  num_deviation : error_bound -> num_t -> num_t
}.

Definition f64_num (P : platform) : num :=
  Num f64 f64_of_Z f64_nan f64_add f64_sub f64_mul f64_div f64_lt f64_eq f64_is_nan
    f64_is_finite (f64_min P) (f64_max P) maximum_allowed_deviation.

Section Swing.
Context (N : num).
Notation T := (num_t N).

(** [equal_or_nan], models/mod.rs l.93-95. *)
Definition num_equal_or_nan (x y : T) : bool :=
  num_eq N x y || num_is_nan N x && num_is_nan N y.

(** [(end_time - start_time) as f64] with the wrapping subtraction of release builds. *)
Definition duration (start_time end_time : Z) : T := num_of_Z N (i64 (end_time - start_time)).

(** [compute_slope_and_intercept], swing.rs l.323-340. *)
Definition compute_slope_and_intercept (start_time : Z) (first_value : T) (end_time : Z)
  (last_value : T) : T * T :=
  if num_equal_or_nan first_value last_value then (num_of_Z N 0, first_value)
  else
    let slope := num_div N (num_sub N last_value first_value) (duration start_time end_time) in
    (slope, num_sub N first_value (num_mul N slope (num_of_Z N start_time))).

(** [compute_slope_with_minimum_mse], swing.rs l.214-230. [x.powi(2)] is [x * x]. *)
Definition compute_slope_with_minimum_mse (start_time : Z) (first_value : T) (end_time : Z)
  (last_value : T) : T * T :=
  if num_equal_or_nan first_value last_value then (num_of_Z N 0, num_of_Z N 0)
  else
    let d := duration start_time end_time in
    (num_mul N (num_sub N last_value first_value) d, num_mul N d d).

(** [Swing], swing.rs l.34-64. *)
Record swing : Type := Swing {
  sw_error_bound : error_bound;
  sw_start_time : Z;
  sw_end_time : Z;
  sw_first_value : T;
  sw_upper_slope : T;
  sw_upper_intercept : T;
  sw_lower_slope : T;
  sw_lower_intercept : T;
  sw_mse_numerator : T;
  sw_mse_denominator : T;
  sw_length : nat
}.

(** [Swing::new], swing.rs l.67-81. *)
Definition swing_new (eb : error_bound) : swing :=
  let nan := num_nan N in
  Swing eb 0 0 nan nan nan nan nan (num_of_Z N 0) (num_of_Z N 0) 0.

(** [Swing::fit_data_point], swing.rs l.101-198. The cast of the value to f64 is done by the
    caller, see [swing_fit_data_point]. *)
Definition swing_fit (m : swing) (timestamp : Z) (value : T) : bool * swing :=
  let deviation := num_deviation N (sw_error_bound m) value in
  let first := sw_first_value m in
  let start := sw_start_time m in
  if Nat.eqb (sw_length m) 0 then
    (true, Swing (sw_error_bound m) timestamp timestamp value
             (sw_upper_slope m) (sw_upper_intercept m) (sw_lower_slope m) (sw_lower_intercept m)
             (sw_mse_numerator m) (sw_mse_denominator m) 1)
  else if negb (num_is_finite N first) || negb (num_is_finite N value) then
    if num_equal_or_nan first value then
      (true, Swing (sw_error_bound m) start timestamp first value value value value
               (sw_mse_numerator m) (sw_mse_denominator m) (S (sw_length m)))
    else (false, m)
  else if Nat.eqb (sw_length m) 1 then
    let upper := compute_slope_and_intercept start first timestamp (num_add N value deviation) in
    let lower := compute_slope_and_intercept start first timestamp (num_sub N value deviation) in
    (true, Swing (sw_error_bound m) start timestamp first
             (fst upper) (snd upper) (fst lower) (snd lower)
             (sw_mse_numerator m) (sw_mse_denominator m) 2)
  else
    let upper_value :=
      num_add N (num_mul N (sw_upper_slope m) (num_of_Z N timestamp)) (sw_upper_intercept m) in
    let lower_value :=
      num_add N (num_mul N (sw_lower_slope m) (num_of_Z N timestamp)) (sw_lower_intercept m) in
    if num_lt N (num_add N upper_value deviation) value
       || num_lt N value (num_sub N lower_value deviation)
    then (false, m)
    else
      let upper :=
        if num_lt N value (num_sub N upper_value deviation)
        then compute_slope_and_intercept start first timestamp (num_add N value deviation)
        else (sw_upper_slope m, sw_upper_intercept m) in
      let lower :=
        if num_lt N (num_add N lower_value deviation) value
        then compute_slope_and_intercept start first timestamp (num_sub N value deviation)
        else (sw_lower_slope m, sw_lower_intercept m) in
      let mse := compute_slope_with_minimum_mse start first timestamp value in
      (true, Swing (sw_error_bound m) start timestamp first
               (fst upper) (snd upper) (fst lower) (snd lower)
               (num_add N (sw_mse_numerator m) (fst mse))
               (num_add N (sw_mse_denominator m) (snd mse)) (S (sw_length m))).

(** [Swing::model], swing.rs l.246-259, before the casts to [Value]. *)
Definition swing_line (m : swing) : T * T :=
  let projected := num_div N (sw_mse_numerator m) (sw_mse_denominator m) in
  let slope := num_max N (sw_lower_slope m) (num_min N projected (sw_upper_slope m)) in
  (sw_first_value m,
   num_add N (num_mul N slope (duration (sw_start_time m) (sw_end_time m))) (sw_first_value m)).

(** The value of the line at a timestamp in [grid], swing.rs l.304-319, before the cast. *)
Definition swing_value (start_time end_time : Z) (first_value last_value : T) (timestamp : Z) : T :=
  let line := compute_slope_and_intercept start_time first_value end_time last_value in
  num_add N (num_mul N (fst line) (num_of_Z N timestamp)) (snd line).

End Swing.

Arguments sw_error_bound {N}.
Arguments sw_start_time {N}.
Arguments sw_end_time {N}.
Arguments sw_first_value {N}.
Arguments sw_upper_slope {N}.
Arguments sw_upper_intercept {N}.
Arguments sw_lower_slope {N}.
Arguments sw_lower_intercept {N}.
Arguments sw_mse_numerator {N}.
Arguments sw_mse_denominator {N}.
Arguments sw_length {N}.

(** What the program runs: [Value] is f32 and the calculations are in f64. *)
Definition swing_fit_data_point (P : platform) (m : swing (f64_num P)) (timestamp : Z) (value : f32)
  : bool * swing (f64_num P) := swing_fit (f64_num P) m timestamp (f64_of_f32 value).

(** [Swing::model], swing.rs l.246-259. *)
Definition swing_model (P : platform) (m : swing (f64_num P)) : f32 * f32 :=
  let line := swing_line (f64_num P) m in (f32_of_f64 (fst line), f32_of_f64 (snd line)).

(** [swing::grid], swing.rs l.304-319. *)
Definition swing_grid (P : platform) (start_time end_time : Z) (first_value last_value : f32)
  (timestamps : list Z) : list f32 :=
  map (fun t => f32_of_f64 (swing_value (f64_num P) start_time end_time
                              (f64_of_f32 first_value) (f64_of_f32 last_value) t)) timestamps.

(** [swing::sum], swing.rs l.264-300. [first_len] models [models::len]; the subtractions of
    lengths are assumed not to wrap, which holds for all segments that are created. *)
Definition swing_sum (P : platform) (start_time end_time : Z) (timestamps : list Z)
  (first_value last_value : f32) (residuals_length : nat) : outcome f32 :=
  let N := f64_num P in
  let line := compute_slope_and_intercept N start_time (f64_of_f32 first_value)
                end_time (f64_of_f32 last_value) in
  let at_time t := f64_add (f64_mul (fst line) (f64_of_Z t)) (snd line) in
  if are_compressed_timestamps_regular timestamps then
    let average := f64_div (f64_add (at_time start_time) (at_time end_time)) (f64_of_Z 2) in
    let? n := len start_time end_time timestamps in
    Ok (f32_of_f64 (f64_mul average (f64_of_Z (n - Z.of_nat residuals_length))))
  else
    let? ts := decompress_all_timestamps start_time end_time timestamps in
    Ok (f32_of_f64 (fold_left (fun sum t => f64_add sum (at_time t))
                      (firstn (length ts - residuals_length) ts) f64_zero)).
