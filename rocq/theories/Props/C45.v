(** C45: exactly the meaningful error bounds can be constructed. *)
From Coq Require Import ZArith Reals Bool List Lra.
From Flocq Require Import IEEE754.Binary.
From Verif Require Import Model.Base Model.Float Model.ErrorBound
  Spec.ErrorBoundSpec Proofs.FloatProofs Proofs.ErrorBoundProofs.
Open Scope R_scope.

Theorem c45_absolute : forall value,
  try_new_absolute value =
    (if bool_dec (is_finite 24 128 value) true
     then if Rlt_dec 0 (R32 value) then Ok (Absolute value) else Err
     else Err).
Proof. exact try_new_absolute_iff. Qed.
Print Assumptions c45_absolute.

Theorem c45_relative : forall value,
  try_new_relative value =
    (if bool_dec (is_finite 24 128 value) true
     then if Rlt_dec 0 (R32 value)
          then if Rle_dec (R32 value) 100 then Ok (Relative value) else Err
          else Err
     else Err).
Proof. exact try_new_relative_iff. Qed.
Print Assumptions c45_relative.

(** Every constructed error bound is valid, and every valid one can be constructed. *)
Theorem c45_constructed_iff_valid : forall eb value,
  (try_new_absolute value = Ok eb <-> eb = Absolute value /\ valid_error_bound eb)
  /\ (try_new_relative value = Ok eb <-> eb = Relative value /\ valid_error_bound eb).
Proof. exact try_new_valid. Qed.
Print Assumptions c45_constructed_iff_valid.

Example c45_example :
  is_ok (try_new_absolute (f32_of_Z 5)) = true
  /\ is_ok (try_new_relative (f32_of_Z 100)) = true
  /\ is_ok (try_new_relative (f32_of_Z 101)) = false
  /\ is_ok (try_new_absolute f32_zero) = false
  /\ is_ok (try_new_absolute f32_nan) = false.
Proof.
  split; [vm_compute; reflexivity|]. split; [vm_compute; reflexivity|].
  split; [vm_compute; reflexivity|]. split; vm_compute; reflexivity.
Qed.
