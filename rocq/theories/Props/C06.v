(** C06: a constant function model represents every value it accepted within the error bound. *)
From Coq Require Import ZArith Reals List Lra Lia.
From Verif Require Import Model.Base Model.Float Model.ErrorBound Model.Pmc
  Spec.ErrorBoundSpec Spec.PmcSpec Proofs.FloatProofs Proofs.ErrorBoundProofs Proofs.PmcProofs
  Proofs.MacaqueVLossyProofs.
Import ListNotations.
Open Scope R_scope.

(** For every platform, every valid error bound and every sequence of values of any length that is
    offered to the model, no matter which of them are rejected. The only excluded case is a relative bound of exactly 100% with values that are not
    all positive or all negative; the second theorem shows that it has to be excluded. *)
Theorem c06_pmc_within_error_bound_partial : forall P eb offered accepted m,
  valid_error_bound eb ->
  (forall e, eb = Relative e -> R32 e < 100 \/ same_sign accepted) ->
  pmc_offer_all P (pmc_new eb) offered = (accepted, m) ->
  forall v, In v accepted -> within_bound check_slack eb v (pmc_model m).
Proof. exact pmc_offer_all_within. Qed.
Print Assumptions c06_pmc_within_error_bound_partial.

Theorem c06_relative_100_refuted : forall P, exists values m v,
  pmc_fit_all P (pmc_new (Relative f32_100)) values = Some m /\ In v values
  /\ forall slack, ~ within_bound slack (Relative f32_100) v (pmc_model m).
Proof. exact pmc_relative_100. Qed.
Print Assumptions c06_relative_100_refuted.

(** 10.0, 10.5 and 9.8 are accepted with a relative bound of 10%, and 20.0 is rejected. *)
Example c06_example :
  let eb := Relative (f32_of_Z 10) in
  let offered := map from_bits [1092616192; 1093140480; 1101004800; 1092406477]%Z in
  valid_error_bound eb /\ R32 (f32_of_Z 10) < 100
  /\ map to_bits (fst (pmc_offer_all exact_platform (pmc_new eb) offered))
     = [1092616192; 1093140480; 1092406477]%Z.
Proof.
  intros eb offered. destruct (f32_of_Z_exact 10 ltac:(cbn; lia)) as [Hf Hr].
  split; [|split].
  - split; [exact Hf|]. rewrite Hr. lra.
  - rewrite Hr. lra.
  - vm_compute. reflexivity.
Qed.
