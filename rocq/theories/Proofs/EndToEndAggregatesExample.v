(** The aggregates of the readings of Proofs/EndToEndExample.v. *)
From Coq Require Import ZArith Reals Bool String List Permutation Lia Lra.
From Verif Require Import Model.Base Model.Float Model.ErrorBound Model.Segments Model.Aggregates
  Model.Filters Model.Streams Model.Table Model.Scan Model.DataSource Model.EndToEnd
  Spec.PlatformSpec Spec.ErrorBoundSpec Spec.PmcSpec Spec.SwingSpec Spec.FiltersSpec
  Spec.SegmentsSpec Spec.GridSpec Spec.StreamsSpec Spec.TableSpec Spec.ScanSpec Spec.EndToEndSpec
  Spec.AggregateSpec Spec.LineSpec Spec.StoredAggregatesSpec
  Proofs.MacaqueVLossyProofs Proofs.ErrorBoundProofs Proofs.SwingBound Proofs.SwingStored Proofs.RestoreWitnesses
  Proofs.EndToEndExample.
From Verif Require Model.Pipeline Spec.PipelineSpec Proofs.PipelineExamples.
Import ListNotations.
Open Scope nat_scope.
Open Scope string_scope.
Open Scope list_scope.

Definition meters_read_y : list stored_segment := rev (flat_map segments_in (meters_files 3)).

Lemma y_field : field_at meters_table 1 3 "y" (Absolute (f32_of_Z 1)).
Proof. constructor; reflexivity. Qed.

Lemma y_no_line : Forall (fun x => lines_within 200 meters_latest 0 (st_segment x)) meters_read_y.
Proof.
  assert (H : forallb (fun x => negb (sg_model_type_id (st_segment x) =? swing_id)%Z) meters_read_y = true)
    by (vm_compute; reflexivity).
  apply Forall_forall. intros x Hx E. rewrite forallb_forall in H. specialize (H x Hx).
  rewrite E, Z.eqb_refl in H. discriminate H.
Qed.

Lemma y_finite : Forall (fun x => finite32 (value_of 1 x)) (sent_to "meters" meters_state).
Proof.
  apply Forall_forall. intros x Hx.
  destruct (reading_values _ meters_ids meters_sent_ids eq_refl ltac:(cbn; lia) 1 x ltac:(lia) Hx) as (z & Hz & ->).
  apply f32_of_Z_exact. lia.
Qed.

Lemma y_small x : In x (sent_to "meters" meters_state) -> (Rabs (R32 (value_of 1 x)) <= 100)%R.
Proof.
  intros Hx.
  destruct (reading_values _ meters_ids meters_sent_ids eq_refl ltac:(cbn; lia) 1 x ltac:(lia) Hx) as (z & Hz & ->).
  rewrite (proj2 (f32_of_Z_exact z ltac:(lia))). rewrite Rabs_pos_eq by (apply IZR_le; lia). apply IZR_le. lia.
Qed.

Lemma small_most (l : list item) : length l = 12 -> (forall x, In x l -> (Rabs (R32 (value_of 1 x)) <= 100)%R) ->
  let values := map (value_of 1) l in
  let extra := rounding 200 meters_latest 1000000 12 in
  ((1 + unit32) ^ (12 + length meters_read_y)
   * (magnitude values + widths (Absolute (f32_of_Z 1)) extra values + INR 12 * (2 * 0)) <= IZR (2 ^ 127))%R.
Proof.
  intros Hl Hx. cbv zeta. set (values := map (value_of 1) l).
  set (extra := rounding 200 meters_latest 1000000 12).
  assert (He : (extra <= 1)%R).
  { unfold extra.  destruct powers as (P22 & P44 & P46 & P148 & _). destruct slop_bounds as (_ & _ & _ & Hh).
    unfold rounding, meters_latest, second. change (1700000000000000 + 1000000 * 20)%Z with 1700000020000000%Z.
    rewrite P22, P46, P148. replace (INR 12) with 12%R by (cbn; lra). lra. }
  assert (Hv : forall v, In v values -> (Rabs (R32 v) <= 100)%R).
  { intros v Hin. unfold values in Hin. apply in_map_iff in Hin. destruct Hin as [x [<- Hin]]. apply Hx, Hin. }
  assert (Hn : length values = 12) by (unfold values; rewrite map_length; exact Hl).
  clearbody values. clearbody extra.
  assert (O : R32 (f32_of_Z 1) = 1%R) by (apply (f32_of_Z_exact 1); lia).
  assert (Hm : (magnitude values + widths (Absolute (f32_of_Z 1)) extra values <= INR (length values) * 103)%R).
  { clear Hn. induction values as [|v values IH]; unfold magnitude, widths in *; cbn [fold_right].
    - cbn. lra.
    - specialize (IH (fun w H => Hv w (or_intror H))). specialize (Hv v (or_introl eq_refl)).
      replace (length (v :: values)) with (S (length values)) by reflexivity. rewrite S_INR.
      unfold width at 1. rewrite O. unfold check_slack at 1. lra. }
  rewrite Hn in Hm. replace (INR 12) with 12%R in * by (cbn; lra).
  assert (Hk : length meters_read_y <= 20).
  { apply Nat.leb_le. vm_compute. reflexivity. }
  assert (Hf : ((1 + unit32) ^ (12 + length meters_read_y) <= 2 ^ 32)%R).
  { apply Rle_trans with (2 ^ (12 + length meters_read_y))%R.
    - apply pow_incr. unfold unit32. lra.
    - apply Rle_pow; [lra|lia]. }
  assert (Hp : (0 <= (1 + unit32) ^ (12 + length meters_read_y))%R) by (apply pow_le; unfold unit32; lra).
  apply Rle_trans with (2 ^ 32 * (12 * 103))%R.
  - apply Rle_trans with ((1 + unit32) ^ (12 + length meters_read_y) * (12 * 103))%R.
    + apply Rmult_le_compat_l; [exact Hp|]. lra.
    + apply Rmult_le_compat_r; [lra|exact Hf].
  - rewrite (pow_IZR 2 32).
    rewrite <- !mult_IZR. apply IZR_le. vm_compute. discriminate.
Qed.

Lemma aggregates_example : exists s1,
  let s := meters_state in
  let m := meters_table in
  let sent := sent_to (table_name m) s in
  let values := map (value_of 1) sent in
  let extra := rounding 200 meters_latest 1000000 (length sent) in
  PipelineSpec.sorts_points PipelineExamples.toy_sort /\ PipelineSpec.nonneg_limits meters_limits
  /\ Pipeline.run PipelineExamples.toy_hash 10 PipelineExamples.toy_sort true meters_events
       (Pipeline.start true meters_limits [] []) = Pipeline.Next s1
  /\ PipelineSpec.along PipelineExamples.toy_hash 10 PipelineExamples.toy_sort true
       PipelineSpec.usual meters_events (Pipeline.start true meters_limits [] [])
  /\ ~ In Pipeline.Crash meters_events
  /\ PipelineSpec.collision_free PipelineExamples.toy_hash (PipelineSpec.received s1)
  /\ PipelineSpec.distinct_times (PipelineSpec.received s1)
  /\ Pipeline.step PipelineExamples.toy_hash 10 PipelineExamples.toy_sort true Pipeline.Return s1
     = Pipeline.Next s
  /\ valid_table m /\ can_store exact_platform m 200 meters_latest 1000000 sent
  /\ field_at m 1 3 "y" (Absolute (f32_of_Z 1))
  /\ (forall l, all_segments exact_platform m 1 3 (committed_to (table_name m) s) = Ok l ->
        hold (meters_files 3) l)
  /\ Permutation meters_read_y (flat_map segments_in (meters_files 3))
  /\ length sent = 12
  /\ Forall (fun x => lines_within 200 meters_latest 0 (st_segment x)) meters_read_y
  /\ Forall (fun x => finite32 (value_of 1 x)) sent
  /\ ((1 + unit32) ^ (length sent + length meters_read_y)
      * (magnitude values + widths (Absolute (f32_of_Z 1)) extra values
         + INR (length sent) * (2 * 0)) <= IZR (2 ^ 127))%R
  /\ model_count 0 (map st_segment meters_read_y) = Ok 12%Z
  /\ to_bits (model_max exact_platform (map st_segment meters_read_y)) = to_bits (f32_of_Z 44).
Proof.
  destruct meters_ingested as (s1 & H1 & H2 & H3 & H4 & H5 & H6). exists s1. cbv zeta.
  change (table_name meters_table) with "meters".
  assert (Hn : length (sent_to "meters" meters_state) = 12) by (rewrite meters_sent; reflexivity).
  split; [exact PipelineExamples.toy_sorts|]. split; [repeat split; intros C; discriminate C|].
  split; [exact H1|]. split; [exact H2|]. split; [exact H3|]. split; [exact H4|]. split; [exact H5|]. split; [exact H6|].
  split; [exact meters_valid|]. split; [exact meters_can_store|]. split; [exact y_field|].
  split; [intros l; apply (meters_hold _ _ _ _ l y_field)|].
  split; [apply Permutation_sym, Permutation_rev|]. split; [exact Hn|].
  split; [exact y_no_line|]. split; [exact y_finite|]. rewrite Hn. split; [exact (small_most _ Hn y_small)|].
  split; vm_compute; reflexivity.
Qed.

Lemma crash_count_example :
  length (sent_to "meters" crash_state) = 13
  /\ model_count 0 (map st_segment meters_read_y) = Ok (Z.of_nat (length (saved_in "meters" crash_state)))
  /\ length (saved_in "meters" crash_state) = 12.
Proof. repeat split; vm_compute; reflexivity. Qed.

Lemma capacity_example :
  map (fun g => length (Pipeline.g_points g)) (committed_to "meters" meters_state) = [10; 1; 1].
Proof. vm_compute. reflexivity. Qed.
