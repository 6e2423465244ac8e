(** C13: what it means that an approximation passes the error bound check. *)
From Coq Require Import ZArith Reals List Lra Lia.
From Verif Require Import Model.Base Model.Float Model.ErrorBound
  Spec.ErrorBoundSpec Proofs.FloatProofs Proofs.ErrorBoundProofs.
Import ListNotations.
Open Scope R_scope.

(** Soundness: the exact error is at most the bound (up to the rounding of the check itself);
    infinities and NaN are only accepted for themselves. *)
Theorem c13_check_sound : forall eb real approximate,
  valid_error_bound eb ->
  is_value_within_error_bound eb real approximate = true ->
  within_bound check_slack eb real approximate.
Proof. exact check_sound. Qed.
Print Assumptions c13_check_sound.

(** A lossless bound accepts exactly the same number. *)
Theorem c13_lossless_exact : forall real approximate,
  is_value_within_error_bound Lossless real approximate = true
  <-> same_number real approximate.
Proof. exact equal_or_nan_iff. Qed.
Print Assumptions c13_lossless_exact.

(** Completeness: approximations within the bound are not rejected. *)
Theorem c13_check_complete_absolute : forall e real approximate,
  finite32 e -> finite32 real -> finite32 approximate ->
  Rabs (R32 real - R32 approximate) <= R32 e ->
  is_value_within_error_bound (Absolute e) real approximate = true.
Proof. exact check_complete_absolute. Qed.
Print Assumptions c13_check_complete_absolute.

Theorem c13_check_complete_relative : forall e real approximate,
  finite32 e -> 0 < R32 e <= 100 -> finite32 real -> finite32 approximate ->
  Rabs (R32 real - R32 approximate) <= (1 - check_slack) * (R32 e / 100) * Rabs (R32 real) ->
  is_value_within_error_bound (Relative e) real approximate = true.
Proof. exact check_complete_relative. Qed.
Print Assumptions c13_check_complete_relative.

(** 100 may be replaced by 104 with a relative bound of 5%, not by 106. *)
Example c13_example :
  valid_error_bound (Relative (f32_of_Z 5))
  /\ is_value_within_error_bound (Relative (f32_of_Z 5)) (f32_of_Z 100) (f32_of_Z 104) = true
  /\ is_value_within_error_bound (Relative (f32_of_Z 5)) (f32_of_Z 100) (f32_of_Z 106) = false
  /\ is_value_within_error_bound (Absolute (f32_of_Z 5)) (f32_of_Z 100) (f32_of_Z 105) = true
  /\ is_value_within_error_bound (Absolute (f32_of_Z 5)) (f32_of_Z 100) (f32_of_Z 106) = false.
Proof.
  destruct (f32_of_Z_exact 5 ltac:(cbn; lia)) as [Hf Hr].
  split; [split; [exact Hf | rewrite Hr; lra]|].
  split; [vm_compute; reflexivity|]. split; [vm_compute; reflexivity|].
  split; vm_compute; reflexivity.
Qed.
