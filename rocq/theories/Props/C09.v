(** C09: the parameters of models survive their compact encoding. *)
From Coq Require Import ZArith List.
From Verif Require Import Model.Base Model.Float Model.Segments
  Spec.ErrorBoundSpec Spec.SegmentsSpec Proofs.ParameterProofs.
Import ListNotations.
Open Scope Z_scope.

(** The value of a constant function, for every minimum and maximum of the residuals (NaN if
    there are none or all are NaN). The bits are the same if [min] and [max] return the first of
    equal arguments; otherwise only the sign of a zero can change. Missing: models that are NaN,
    for which the claim is false, see below. *)
Theorem c09_pmc_parameters_partial : forall P v residuals_min residuals_max,
  f32_is_nan v = false ->
  exists v', decode_values_for_pmc_mean (f32_min P v residuals_min) (f32_max P v residuals_max)
               (encode_values_for_pmc_mean v v residuals_min residuals_max) = Ok v'
    /\ same_number v v' /\ (ties_first P -> v' = v).
Proof. exact pmc_parameters. Qed.
Print Assumptions c09_pmc_parameters_partial.

(** The first and last value of a linear function, without and with residuals. *)
Theorem c09_swing_parameters_partial : forall P first last,
  f32_is_nan first = false -> f32_is_nan last = false ->
  let min := swing_min P first last in
  let max := swing_max P first last in
  let min_is_first := f32_lt first last in
  let restored r := exists f l, r = Ok (f, l) /\ same_number first f /\ same_number last l
    /\ (ties_first P -> f = first /\ ((same_number first last -> first = last) -> l = last)) in
  restored (decode_values_for_swing min max (if min_is_first then [] else [0]))
  /\ forall residuals_min residuals_max,
     restored (decode_values_for_swing (f32_min P min residuals_min) (f32_max P max residuals_max)
                 (encode_values_for_swing min max min_is_first residuals_min residuals_max)).
Proof. exact swing_parameters. Qed.
Print Assumptions c09_swing_parameters_partial.

(** A model that is NaN becomes a number if its segment has a residual that is a number. *)
Theorem c09_pmc_nan_refuted : forall P, exists v residuals_min residuals_max v',
  f32_is_nan v = true /\ f32_is_nan residuals_min = false /\ f32_is_nan residuals_max = false
  /\ decode_values_for_pmc_mean (f32_min P v residuals_min) (f32_max P v residuals_max)
       (encode_values_for_pmc_mean v v residuals_min residuals_max) = Ok v'
  /\ ~ same_number v v'.
Proof. exact pmc_parameters_nan. Qed.
Print Assumptions c09_pmc_nan_refuted.

Theorem c09_swing_nan_refuted : forall P, exists first last residuals_min residuals_max f l,
  f32_is_nan first = true /\ f32_is_nan last = true
  /\ f32_is_nan residuals_min = false /\ f32_is_nan residuals_max = false
  /\ decode_values_for_swing (f32_min P (swing_min P first last) residuals_min)
       (f32_max P (swing_max P first last) residuals_max)
       (encode_values_for_swing (swing_min P first last) (swing_max P first last)
          (f32_lt first last) residuals_min residuals_max) = Ok (f, l)
  /\ ~ same_number first f.
Proof. exact swing_parameters_nan. Qed.
Print Assumptions c09_swing_nan_refuted.

(** All forms of the encoding occur: nothing, one byte, and the value itself. *)
Example c09_example_pmc :
  let e a b := length (encode_values_for_pmc_mean (f32_of_Z 5) (f32_of_Z 5) (f32_of_Z a) (f32_of_Z b)) in
  e 6 7 = 0%nat /\ e 1 2 = 1%nat /\ e 1 9 = 4%nat /\ f32_is_nan (f32_of_Z 5) = false.
Proof. vm_compute. auto. Qed.

Example c09_example_swing :
  let e first a b := length (encode_values_for_swing (f32_of_Z 2) (f32_of_Z 5) first (f32_of_Z a) (f32_of_Z b)) in
  e true 3 4 = 0%nat /\ e false 3 4 = 1%nat /\ e true 1 4 = 5%nat /\ e true 3 9 = 5%nat
  /\ e false 1 9 = 8%nat /\ f32_is_nan (f32_of_Z 2) = false.
Proof. vm_compute. repeat split. Qed.
