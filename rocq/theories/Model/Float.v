(** IEEE 754 binary32 (f32) and binary64 (f64), using Flocq. Floats include NaN payloads, so
    equality of [f32] is equality of bit patterns. Rust rounds to nearest, ties to even. The
    payload of a NaN produced by an arithmetic operation is platform dependent in Rust; Flocq's
    choice is used (no property below depends on it). *)
From Coq Require Import ZArith List Bool.
From Flocq Require Import Core.Zaux IEEE754.BinarySingleNaN IEEE754.Binary IEEE754.Bits.
From Verif Require Import Model.Base.
Import ListNotations.
Open Scope Z_scope.

Definition f32 : Type := binary32.
Definition f64 : Type := binary64.

(** [f32::to_bits] and [f32::from_bits]. *)
Definition to_bits (x : f32) : Z := bits_of_b32 x.
Definition from_bits (z : Z) : f32 := b32_of_bits z.

Definition f32_is_nan (x : f32) : bool := is_nan 24 128 x.
Definition f64_is_nan (x : f64) : bool := is_nan 53 1024 x.
Definition f32_is_infinite (x : f32) : bool :=
  match x with B754_infinity _ _ _ => true | _ => false end.

(** Arithmetic. *)
Definition f32_add (x y : f32) : f32 := b32_plus mode_NE x y.
Definition f32_sub (x y : f32) : f32 := b32_minus mode_NE x y.
Definition f32_mul (x y : f32) : f32 := b32_mult mode_NE x y.
Definition f32_div (x y : f32) : f32 := b32_div mode_NE x y.
Definition f32_abs (x : f32) : f32 := b32_abs x.
Definition f64_add (x y : f64) : f64 := b64_plus mode_NE x y.
Definition f64_sub (x y : f64) : f64 := b64_minus mode_NE x y.
Definition f64_mul (x y : f64) : f64 := b64_mult mode_NE x y.
Definition f64_div (x y : f64) : f64 := b64_div mode_NE x y.
Definition f64_abs (x : f64) : f64 := b64_abs x.

(** Comparisons are false if an argument is NaN. *)
Definition f32_eq (x y : f32) : bool := match b32_compare x y with Some Eq => true | _ => false end.
Definition f32_lt (x y : f32) : bool := match b32_compare x y with Some Lt => true | _ => false end.
Definition f32_le (x y : f32) : bool :=
  match b32_compare x y with Some Lt => true | Some Eq => true | _ => false end.
Definition f64_eq (x y : f64) : bool := match b64_compare x y with Some Eq => true | _ => false end.
Definition f64_lt (x y : f64) : bool := match b64_compare x y with Some Lt => true | _ => false end.
Definition f64_le (x y : f64) : bool :=
  match b64_compare x y with Some Lt => true | Some Eq => true | _ => false end.

(** Conversions: [x as f64], [x as f32] and [z as f64]. *)
Definition f64_of_f32 (x : f32) : f64 :=
  match x with
  | B754_zero _ _ s => B754_zero 53 1024 s
  | B754_infinity _ _ s => B754_infinity 53 1024 s
  | B754_nan _ _ _ _ _ => proj1_sig default_nan_pl64
  | B754_finite _ _ s m e _ =>
      binary_normalize 53 1024 (refl_equal _) (refl_equal _) mode_NE
        (cond_Zopp s (Zpos m)) e s
  end.
Definition f32_of_f64 (x : f64) : f32 :=
  match x with
  | B754_zero _ _ s => B754_zero 24 128 s
  | B754_infinity _ _ s => B754_infinity 24 128 s
  | B754_nan _ _ _ _ _ => proj1_sig default_nan_pl32
  | B754_finite _ _ s m e _ =>
      binary_normalize 24 128 (refl_equal _) (refl_equal _) mode_NE
        (cond_Zopp s (Zpos m)) e s
  end.
Definition f64_of_Z (z : Z) : f64 :=
  binary_normalize 53 1024 (refl_equal _) (refl_equal _) mode_NE z 0 false.
Definition f32_of_Z (z : Z) : f32 :=
  binary_normalize 24 128 (refl_equal _) (refl_equal _) mode_NE z 0 false.

(** [m * 2 ^ e], used for exact powers of two. *)
Definition f32_pow2 (e : Z) : f32 :=
  binary_normalize 24 128 (refl_equal _) (refl_equal _) mode_NE 1 e false.

Definition f32_zero : f32 := B754_zero 24 128 false.
Definition f32_nan : f32 := proj1_sig default_nan_pl32.
Definition f64_zero : f64 := B754_zero 53 1024 false.

(** What Rust leaves to the platform: which argument [min] and [max] of [f32] and [f64] return if
    they compare equal (they differ for 0.0 and -0.0), and the result of
    [x.log2().abs().floor() as i32] in the C math library. *)
Record platform : Type := Platform {
  min_takes_first : f32 -> f32 -> bool;
  max_takes_first : f32 -> f32 -> bool;
  min64_takes_first : f64 -> f64 -> bool;
  max64_takes_first : f64 -> f64 -> bool;
  log2_abs_floor : f32 -> Z
}.

(** [f32::min] and [f32::max]: a NaN is ignored if the other argument is not NaN. *)
Definition f32_min (P : platform) (x y : f32) : f32 :=
  if f32_is_nan x then y
  else if f32_is_nan y then x
  else match b32_compare x y with
       | Some Lt => x
       | Some Gt => y
       | _ => if min_takes_first P x y then x else y
       end.
Definition f32_max (P : platform) (x y : f32) : f32 :=
  if f32_is_nan x then y
  else if f32_is_nan y then x
  else match b32_compare x y with
       | Some Gt => x
       | Some Lt => y
       | _ => if max_takes_first P x y then x else y
       end.

(** [f64::min] and [f64::max]. *)
Definition f64_min (P : platform) (x y : f64) : f64 :=
  if f64_is_nan x then y
  else if f64_is_nan y then x
  else match b64_compare x y with
       | Some Lt => x
       | Some Gt => y
       | _ => if min64_takes_first P x y then x else y
       end.
Definition f64_max (P : platform) (x y : f64) : f64 :=
  if f64_is_nan x then y
  else if f64_is_nan y then x
  else match b64_compare x y with
       | Some Gt => x
       | Some Lt => y
       | _ => if max64_takes_first P x y then x else y
       end.
Definition f64_is_finite (x : f64) : bool := is_finite 53 1024 x.
Definition f64_nan : f64 := proj1_sig default_nan_pl64.
