(** C11: the cheapest model is selected and only stored if it is cheaper than the values. *)
From Coq Require Import ZArith List.
From Verif Require Import Model.Base Model.Float Model.ErrorBound Model.Pmc Model.Swing
  Model.Segments Spec.PmcSpec Spec.SwingSpec Spec.SegmentsSpec
  Proofs.MacaqueVLossyProofs Proofs.SelectionProofs Proofs.RestoreWitnesses.
Import ListNotations.
Open Scope Z_scope.

(** For every platform, error bound and remaining data points: [np] and [ns] are the lengths of
    the longest prefixes the two model types accept. A constant function uses 29 bytes and a
    linear function 30. The linear function is selected exactly if 30 / ns < 29 / np. The selected
    model is kept exactly if it represents at least 8 values, i.e. if 29 / np or 30 / ns is at most
    the 4 bytes of a value. Up to 65,536 values, the capacity of the buffers that are compressed,
    rounding never changes the selection. *)
Theorem c11_cheapest_model_selected : forall P eb c points, (c < length points)%nat ->
  Z.of_nat (length points) < 2 ^ 63 ->
  exists np mp ns ms,
    longest (fun l => pmc_fit_all P (pmc_new eb) (map snd l)) (skipn c points) np mp
    /\ longest (fun l => swing_fit_data_points P (swing_new (f64_num P) eb) l) (skipn c points) ns ms
    /\ let chosen := fit_next_model P c eb points in
       (chosen = select_swing P c ms /\ sb_end_index chosen = (c + ns - 1)%nat
        /\ (Z.of_nat np <= 65536 -> Z.of_nat ns <= 65536 -> (30 * np < 29 * ns)%nat)
        /\ (f32_le (sb_bytes_per_value chosen) value_size_in_bytes_f32 = true <-> (8 <= ns)%nat))
       \/ (chosen = select_pmc_mean c mp /\ sb_end_index chosen = (c + np - 1)%nat
           /\ (Z.of_nat np <= 65536 -> Z.of_nat ns <= 65536 -> (29 * ns <= 30 * np)%nat)
           /\ (f32_le (sb_bytes_per_value chosen) value_size_in_bytes_f32 = true <-> (8 <= np)%nat)).
Proof. exact selection. Qed.
Print Assumptions c11_cheapest_model_selected.

(** In a falling series the linear function represents ten values and the constant one. *)
Example c11_example :
  let points := combine (every_second 11) falling in
  let chosen := fit_next_model exact_platform 0 (Absolute (f32_of_Z 1)) points in
  (0 < length points)%nat /\ Z.of_nat (length points) < 2 ^ 63
  /\ sb_model_type_id chosen = swing_id /\ sb_end_index chosen = 9%nat.
Proof. vm_compute. repeat split; auto with arith. Qed.
