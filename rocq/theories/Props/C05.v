(** C05: MacaqueV stores every value within the error bound. *)
From Coq Require Import ZArith Reals List Lra Lia.
From Flocq Require Import Core.
From Verif Require Import Model.Base Model.Float Model.ErrorBound Model.MacaqueV
  Spec.ErrorBoundSpec Spec.PlatformSpec Spec.MacaqueVSpec
  Proofs.FloatProofs Proofs.ErrorBoundProofs Proofs.MacaqueVLossyProofs.
Import ListNotations.
Open Scope R_scope.

(** For every platform with a reasonable logarithm, every valid error bound and every non-empty
    sequence of values of any length, both with the first value stored and with a given value
    before the first. Missing: values that are not [rewritable], i.e. values of more than 8
    million times an absolute bound, tiny values with a relative bound, and relative bounds below
    1/80000 percent. The second theorem shows that the claim is false for some of those. *)
Theorem c05_macaque_v_within_error_bound_partial : forall P eb values,
  good_log2 P -> valid_error_bound eb -> values <> [] -> Forall (rewritable eb) values ->
  (let bytes := fst (fst (macaque_v_model (compress_values P (macaque_v_new eb) values))) in
   exists restored, macaque_v_grid bytes (length values) None = Ok restored
     /\ Forall2 (within_bound check_slack eb) values restored)
  /\ (forall last,
        let bytes := fst (fst (macaque_v_model
                       (compress_values_without_first P (macaque_v_new eb) values last))) in
        exists restored, macaque_v_grid bytes (length values) (Some last) = Ok restored
          /\ Forall2 (within_bound check_slack eb) values restored).
Proof. exact macaque_v_lossy. Qed.
Print Assumptions c05_macaque_v_within_error_bound_partial.

(** Even with an exact logarithm the stored value can be a million error bounds away. *)
Theorem c05_small_bound_refuted : exists P eb last v,
  good_log2 P /\ valid_error_bound eb /\ finite32 v
  /\ ~ within_bound 1000000 eb v (stored_value P eb last v).
Proof. exact macaque_v_small_bound. Qed.
Print Assumptions c05_small_bound_refuted.

(** An exact logarithm, an absolute bound of 10 and the values 37.0, 123.0 and -54.0. *)
Example c05_example :
  let eb := Absolute (f32_of_Z 10) in
  let values := map f32_of_Z [37; 123; -54]%Z in
  good_log2 exact_platform /\ valid_error_bound eb /\ values <> [] /\ Forall (rewritable eb) values.
Proof.
  intros eb values. destruct (f32_of_Z_exact 10 ltac:(cbn; lia)) as [Hf Hr].
  split; [exact exact_log2_good|]. split; [split; [exact Hf|rewrite Hr; lra]|].
  split; [discriminate|].
  assert (Hin : forall z, (Z.abs z <= 1000)%Z -> rewritable eb (f32_of_Z z)).
  { intros z Hz. destruct (f32_of_Z_exact z ltac:(cbn; lia)) as [_ Hz2]. right. right.
    unfold eb. rewrite Hr, Hz2. split.
    - change (-125)%Z with (-(125))%Z. rewrite bpow_opp.
      assert (1 <= bpow radix2 125) by (change 1 with (bpow radix2 0); apply bpow_le; lia).
      assert (/ bpow radix2 125 <= / 1) by (apply Rinv_le; lra). lra.
    - rewrite <- abs_IZR. apply IZR_le in Hz. lra. }
  unfold values. cbn [map].
  apply Forall_cons; [apply Hin; lia|]. apply Forall_cons; [apply Hin; lia|].
  apply Forall_cons; [apply Hin; lia|]. apply Forall_nil.
Qed.

(** -54.0 is stored as -48.0 after 123.0, i.e. it is changed. *)
Example c05_example_changes :
  to_bits (stored_value exact_platform (Absolute (f32_of_Z 10)) (f32_of_Z 123) (f32_of_Z (-54)))
  = to_bits (f32_of_Z (-48)).
Proof. vm_compute. reflexivity. Qed.
