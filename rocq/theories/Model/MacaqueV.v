(** Model of crates/modelardb_compression/src/models/macaque_v.rs: values compressed by XOR with
    the previous value, optionally after rewriting them within the error bound. *)
From Coq Require Import ZArith List Bool.
From Flocq Require Import IEEE754.Binary IEEE754.Bits.
From Verif Require Import Model.Base Model.Float Model.ErrorBound Model.Bits.
Import ListNotations.
Open Scope Z_scope.

(** [u32::leading_zeros] and [u32::trailing_zeros] of a non-zero integer. *)
Definition leading_zeros (x : Z) : Z := 31 - Z.log2 x.
Fixpoint ctz_pos (p : positive) : Z := match p with xO p => 1 + ctz_pos p | _ => 0 end.
Definition trailing_zeros (x : Z) : Z := match x with Zpos p => ctz_pos p | _ => 32 end.

(** [VALUE_SIZE_IN_BITS], models/mod.rs l.49. *)
Definition value_size_in_bits : Z := 32.

(** [MacaqueV], macaque_v.rs l.39-58. *)
Record macaque_v : Type := MacaqueV {
  mv_error_bound : error_bound;
  mv_min : f32;
  mv_max : f32;
  mv_last : f32;
  mv_leading : Z;
  mv_trailing : Z;
  mv_compressed : builder;
  mv_length : nat
}.

(** [MacaqueV::new], macaque_v.rs l.61-72. *)
Definition macaque_v_new (eb : error_bound) : macaque_v :=
  MacaqueV eb f32_nan f32_nan f32_zero 255 0 builder_new 0.

(** [get_exponent], macaque_v.rs l.326-330. *)
Definition get_exponent (value : f32) : Z :=
  Z.land (Z.shiftr (to_bits value) 23) 255 - 127.

(** [rewrite_bits_by_n], macaque_v.rs l.333-336: the shift amount is taken modulo 32. *)
Definition rewrite_bits_by_n (bits positions : Z) : Z :=
  Z.land bits (u32 (Z.shiftl (2 ^ 32 - 1) (positions mod 32))).

(** [rewrite_least_mantissa_bits], macaque_v.rs l.168-196. [2f32.powi(exponent)] is exact for
    the exponents -127..=127 that reach it. [log2_abs_floor] is a saturating cast to i32. *)
Definition rewrite_least_mantissa_bits (P : platform) (eb : error_bound) (value : f32) : f32 :=
  if f32_eq (f32_abs value) f32_zero || f32_is_nan value || f32_is_infinite value then value
  else
    let abs_error_bound := f32_of_f64 (maximum_allowed_deviation eb (f64_of_f32 value)) in
    let factorized_epsilon := f32_div abs_error_bound (f32_pow2 (get_exponent value)) in
    let rewrite_position := i32 (23 - log2_abs_floor P factorized_epsilon) in
    let rewritten := from_bits (rewrite_bits_by_n (to_bits value) rewrite_position) in
    if negb (is_value_within_error_bound eb value rewritten) then
      from_bits (rewrite_bits_by_n (to_bits value) (i32 (rewrite_position - 1)))
    else rewritten.

(** The value that is stored instead of [value], macaque_v.rs l.101-113. *)
Definition stored_value (P : platform) (eb : error_bound) (last value : f32) : f32 :=
  match eb with
  | Lossless => value
  | _ => if is_value_within_error_bound eb value last then last
         else rewrite_least_mantissa_bits P eb value
  end.

(** The bits that are appended for a value and the new leading and trailing zero bits,
    macaque_v.rs l.115-160. All u8 subtractions are exact because leading and trailing zero
    bits of a non-zero u32 add up to at most 31. *)
Definition append_value_xor_last_value (b : builder) (leading trailing : Z) (last value : Z)
  : builder * Z * Z :=
  let xor := Z.lxor value last in
  if xor =? 0 then (append_a_zero_bit (append_a_one_bit b), leading, trailing)
  else
    let leading_zero_bits := leading_zeros xor in
    let trailing_zero_bits := trailing_zeros xor in
    if (leading <=? leading_zero_bits) && (trailing <=? trailing_zero_bits) then
      let b := append_a_zero_bit b in
      let meaningful_bits := u8 (value_size_in_bits - leading - trailing) in
      (append_bits b (Z.shiftr xor trailing) meaningful_bits, leading, trailing)
    else
      let b := append_a_one_bit (append_a_one_bit b) in
      let b := append_bits b leading_zero_bits 5 in
      let meaningful_bits := value_size_in_bits - leading_zero_bits - trailing_zero_bits in
      let b := append_bits b meaningful_bits 6 in
      (append_bits b (Z.shiftr xor trailing_zero_bits) meaningful_bits,
       leading_zero_bits, trailing_zero_bits).

(** [update_min_max_and_last_value], macaque_v.rs l.199-204, with the other new fields. *)
Definition update_min_max_and_last_value (P : platform) (m : macaque_v) (b : builder)
  (leading trailing : Z) (value : f32) : macaque_v :=
  MacaqueV (mv_error_bound m) (f32_min P (mv_min m) value) (f32_max P (mv_max m) value) value
    leading trailing b (S (mv_length m)).

(** [compress_value_xor_last_value], macaque_v.rs l.100-164. *)
Definition compress_value_xor_last_value (P : platform) (m : macaque_v) (value : f32)
  : macaque_v :=
  let value := stored_value P (mv_error_bound m) (mv_last m) value in
  let '(b, leading, trailing) :=
    append_value_xor_last_value (mv_compressed m) (mv_leading m) (mv_trailing m)
      (to_bits (mv_last m)) (to_bits value) in
  update_min_max_and_last_value P m b leading trailing value.

(** [compress_values], macaque_v.rs l.76-88. *)
Definition compress_value (P : platform) (m : macaque_v) (value : f32) : macaque_v :=
  if builder_is_empty (mv_compressed m) then
    update_min_max_and_last_value P m
      (append_bits (mv_compressed m) (to_bits value) value_size_in_bits)
      (mv_leading m) (mv_trailing m) value
  else compress_value_xor_last_value P m value.
Definition compress_values (P : platform) (m : macaque_v) (values : list f32) : macaque_v :=
  fold_left (compress_value P) values m.

(** [compress_values_without_first], macaque_v.rs l.92-97. *)
Definition compress_values_without_first (P : platform) (m : macaque_v) (values : list f32)
  (model_last_value : f32) : macaque_v :=
  let m := MacaqueV (mv_error_bound m) (mv_min m) (mv_max m) model_last_value
             (mv_leading m) (mv_trailing m) (mv_compressed m) (mv_length m) in
  fold_left (compress_value_xor_last_value P) values m.

(** [MacaqueV::model], macaque_v.rs l.208-214. *)
Definition macaque_v_model (m : macaque_v) : list Z * f32 * f32 :=
  (finish (mv_compressed m), mv_min m, mv_max m).

(** One iteration of the loop in [sum], l.244-263, and [grid], l.300-321: the code is the same.
    Leading and trailing zeros are u8 and the subtractions wrap. *)
Definition decode_one (r : reader) (leading trailing last : Z)
  : outcome (reader * Z * Z * Z) :=
  let? (bit, r) := read_bit r in
  if bit then
    let? (bit, r) := read_bit r in
    if bit then
      let? (leading, r) := read_bits r 5 in
      let? (meaningful_bits, r) := read_bits r 6 in
      let trailing := u8 (value_size_in_bits - meaningful_bits - leading) in
      let meaningful_bits := u8 (value_size_in_bits - leading - trailing) in
      let? (value, r) := read_bits r (Z.to_nat meaningful_bits) in
      let value := u32 (Z.shiftl (u32 value) (trailing mod 32)) in
      Ok (r, leading, trailing, Z.lxor value last)
    else Ok (r, leading, trailing, last)
  else
    let meaningful_bits := u8 (value_size_in_bits - leading - trailing) in
    let? (value, r) := read_bits r (Z.to_nat meaningful_bits) in
    let value := u32 (Z.shiftl (u32 value) (trailing mod 32)) in
    Ok (r, leading, trailing, Z.lxor value last).

Fixpoint decode_loop (n : nat) (r : reader) (leading trailing last : Z) : outcome (list Z) :=
  match n with
  | O => Ok []
  | S n =>
      let? (r, leading, trailing, last) := decode_one r leading trailing last in
      let? rest := decode_loop n r leading trailing last in
      Ok (last :: rest)
  end.

(** [macaque_v::grid], macaque_v.rs l.272-323: the values appended for [n] timestamps.
    Without a model there is always at least one timestamp, so [n - 1] does not underflow. *)
Definition macaque_v_grid (bytes : list Z) (n : nat) (model_last_value : option f32)
  : outcome (list f32) :=
  let? r := match reader_try_new bytes with Ok r => Ok r | _ => Panic end in
  match model_last_value with
  | Some v =>
      let? values := decode_loop n r 255 0 (to_bits v) in Ok (map from_bits values)
  | None =>
      let? (first, r) := read_bits r 32 in
      let? values := decode_loop (n - 1) r 255 0 (u32 first) in
      Ok (map from_bits (u32 first :: values))
  end.

(** The additions of [macaque_v::sum]. *)
Definition sum_f32 (acc : f32) (values : list f32) : f32 := fold_left f32_add values acc.

(** [macaque_v::sum], macaque_v.rs l.220-265. *)
Definition macaque_v_sum (n : nat) (bytes : list Z) (model_last_value : option f32)
  : outcome f32 :=
  let? r := match reader_try_new bytes with Ok r => Ok r | _ => Panic end in
  match model_last_value with
  | Some v =>
      let? values := decode_loop n r 255 0 (to_bits v) in
      Ok (sum_f32 f32_zero (map from_bits values))
  | None =>
      let? (first, r) := read_bits r 32 in
      let? values := decode_loop (n - 1) r 255 0 (u32 first) in
      Ok (sum_f32 (from_bits (u32 first)) (map from_bits values))
  end.
