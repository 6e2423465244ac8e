(** Fitting linear function models with exact arithmetic and to a whole sequence. *)
From Coq Require Import ZArith Reals List Bool.
From Verif Require Import Model.Float Model.ErrorBound Model.Swing Spec.ErrorBoundSpec.
Import ListNotations.
Open Scope R_scope.

(** Real numbers with one additional value for undefined results ([None]). *)
Definition lift2 (f : R -> R -> R) (x y : option R) : option R :=
  match x, y with Some x, Some y => Some (f x y) | _, _ => None end.
Definition exact_div (x y : option R) : option R :=
  match x, y with
  | Some x, Some y => if Req_EM_T y 0 then None else Some (x / y)
  | _, _ => None
  end.
Definition exact_lt (x y : option R) : bool :=
  match x, y with Some x, Some y => if Rlt_dec x y then true else false | _, _ => false end.
Definition exact_eq (x y : option R) : bool :=
  match x, y with Some x, Some y => if Req_EM_T x y then true else false | _, _ => false end.
Definition exact_is_nan (x : option R) : bool := match x with None => true | Some _ => false end.
Definition exact_min (x y : option R) : option R :=
  match x, y with Some x, Some y => Some (Rmin x y) | Some x, None => Some x | None, y => y end.
Definition exact_max (x y : option R) : option R :=
  match x, y with Some x, Some y => Some (Rmax x y) | Some x, None => Some x | None, y => y end.

(** How far a stored value may be from a value: 99% of an absolute bound and
    [bound / 100.1] of the value for a relative bound. *)
Definition exact_deviation (eb : error_bound) (v : R) : R :=
  match eb with
  | Absolute e => R32 e * (99 / 100)
  | Relative e => Rabs (v * (R32 e / (1001 / 10)))
  | Lossless => 0
  end.

Definition exact_num : num :=
  Num (option R) (fun z => Some (IZR z)) None (lift2 Rplus) (lift2 Rminus) (lift2 Rmult) exact_div
    exact_lt exact_eq exact_is_nan (fun x => negb (exact_is_nan x)) exact_min exact_max
    (fun eb x => option_map (exact_deviation eb) x).

(** The state after all data points have been accepted, [None] if one was rejected. *)
Fixpoint swing_fit_all (N : num) (m : swing N) (points : list (Z * num_t N)) : option (swing N) :=
  match points with
  | [] => Some m
  | (t, v) :: points =>
      match swing_fit N m t v with
      | (true, m') => swing_fit_all N m' points
      | (false, _) => None
      end
  end.

(** The data points that are accepted when all data points are offered one after the other, no
    matter if others are rejected, and the state afterwards. *)
Fixpoint swing_offer_all (N : num) (m : swing N) (points : list (Z * num_t N))
  : list (Z * num_t N) * swing N :=
  match points with
  | [] => ([], m)
  | (t, v) :: points =>
      let (accepted, m') := swing_fit N m t v in
      let (others, final) := swing_offer_all N m' points in
      (if accepted then (t, v) :: others else others, final)
  end.

Fixpoint swing_fit_data_points (P : platform) (m : swing (f64_num P)) (points : list (Z * f32))
  : option (swing (f64_num P)) :=
  match points with
  | [] => Some m
  | (t, v) :: points =>
      match swing_fit_data_point P m t v with
      | (true, m') => swing_fit_data_points P m' points
      | (false, _) => None
      end
  end.

(** The value the stored line has at a timestamp. *)
Definition line_value (N : num) (m : swing N) (timestamp : Z) : num_t N :=
  swing_value N (sw_start_time m) (sw_end_time m) (fst (swing_line N m)) (snd (swing_line N m))
    timestamp.

(** The bound without any rounding. *)
Definition exactly_within (eb : error_bound) (real approximate : R) : Prop :=
  match eb with
  | Absolute e => Rabs (real - approximate) <= R32 e
  | Relative e => Rabs (real - approximate) <= R32 e / 100 * Rabs real
  | Lossless => approximate = real
  end.

(** ** Rounding errors *)
(** What f64 arithmetic adds to the error of a model that represents [n] data points: [size]
    bounds the values together with their deviation, [latest] the absolute value of the
    timestamps, and [interval] is the shortest time between two data points. *)
Definition rounding (size : R) (latest interval : Z) (n : nat) : R :=
  size * (/ 2 ^ 22 + (IZR latest / IZR interval + INR n) / 2 ^ 46) + / 2 ^ 148.

(** How much smaller than the bound the deviation of a value is. *)
Definition margin (eb : error_bound) (v : R) : R :=
  match eb with
  | Absolute e => R32 e * (1 / 100)
  | Relative e => R32 e / 100100 * Rabs v
  | Lossless => 0
  end.
