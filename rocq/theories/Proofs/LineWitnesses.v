(** A linear function whose minimum is not one of its values. *)
From Coq Require Import ZArith Reals Bool Lia Lra List Sorting.Sorted.
From Flocq Require Import Core IEEE754.Binary.
From Verif Require Import Model.Base Model.Float Model.ErrorBound Model.MacaqueV Model.Segments
  Model.Aggregates
  Spec.TimestampsSpec Spec.ErrorBoundSpec Spec.PlatformSpec Spec.MacaqueVSpec Spec.PmcSpec
  Spec.SegmentsSpec Spec.GridSpec Spec.SwingSpec Spec.AggregateSpec Spec.LineSpec
  Proofs.FloatProofs Proofs.ErrorBoundProofs Proofs.MacaqueVProofs Proofs.MacaqueVLossyProofs
  Proofs.OrderProofs Proofs.RestoreProofs Proofs.RestoreWitnesses Proofs.AggregateSumProofs
  Proofs.AggregateWitnesses Proofs.LineSegmentProofs.
Import ListNotations.
Open Scope Z_scope.

Definition every_millisecond : list Z :=
  map (fun t => 1700000000000000 + 1000 * t) [0; 1; 2; 3; 4; 5; 6; 7; 8; 9].
Definition almost_linear : list Z := [63; 56; 49; 43; 35; 28; 21; 14; 7; 0].

Definition line_check (s : segment) : bool :=
  match grid exact_platform s with
  | Ok (_, out) =>
      forallb (fun p => to_bits (fst p) =? snd p)
        (combine out [1115422720; 1113590272; 1111757824; 1109925888; 1108093440;
                      1105226752; 1101561856; 1096886272; 1088598016; 1035993088])
      && Nat.eqb (length out) 10
  | _ => false
  end
  && (sg_model_type_id s =? swing_id)
  && match sg_residuals s with [] => true | _ => false end
  && (sg_start_time s =? 1700000000000000) && (sg_end_time s =? 1700000000009000)
  && is_finite 24 128 (sg_min s) && is_finite 24 128 (sg_max s)
  && f32_le f32_zero (sg_min s) && f32_le (sg_min s) (f32_of_Z 64)
  && f32_le f32_zero (sg_max s) && f32_le (sg_max s) (f32_of_Z 64)
  && f32_lt (from_bits 1035993088) (sg_min s)
  && is_finite 24 128 (from_bits 1035993088)
  && f32_lt (from_bits 1035993088) (model_min exact_platform [s])
  && is_finite 24 128 (model_min exact_platform [s]).

Lemma line_witness : exists s ts out x, created exact_platform s /\ sg_model_type_id s = swing_id
  /\ plain_line 64 1700000000009000 s /\ (line_error 64 1700000000009000 s <= / 4)%R
  /\ short exact_platform s
  /\ grid exact_platform s = Ok (ts, out) /\ In x out
  /\ finite32 x /\ finite32 (model_min exact_platform [s])
  /\ (R32 x < R32 (model_min exact_platform [s]))%R /\ length out = 10%nat.
Proof.
  set (eb := Absolute (f32_of_Z 1)).
  assert (Hz : Forall (fun z => Z.abs z <= 1000) almost_linear)
    by (repeat (apply Forall_cons; [lia|]); apply Forall_nil).
  destruct (small_integers _ Hz) as (S1 & S2 & S3).
  assert (H : match compress_univariate exact_platform eb every_millisecond
                      (map f32_of_Z almost_linear) with
              | Ok [s] => line_check s | _ => false end = true) by (vm_compute; reflexivity).
  destruct (compress_univariate exact_platform eb every_millisecond (map f32_of_Z almost_linear))
    as [[|s [|s' l]]| |] eqn:E; try discriminate H.
  unfold line_check in H.
  repeat match type of H with (_ && _ = true) =>
    let H' := fresh "C" in apply andb_true_iff in H; destruct H as [H H'] end.
  destruct (grid exact_platform s) as [[ts out]| |] eqn:G; try discriminate H.
  apply andb_true_iff in H. destruct H as [H H0]. apply Nat.eqb_eq in H0.
  rewrite forallb_forall in H.
  exists s, ts, out, (from_bits 1035993088).
  destruct (valid_by_check every_millisecond) as [V1 V2];
    [vm_compute; reflexivity|discriminate|reflexivity|].
  destruct (f32_of_Z_exact 64 ltac:(lia)) as [F64 R64'].
  assert (Hz0 : finite32 f32_zero /\ R32 f32_zero = 0%R) by (split; reflexivity).
  destruct Hz0 as [Fz Rz].
  match goal with H' : (sg_model_type_id s =? swing_id) = true |- _ => apply Z.eqb_eq in H'; rename H' into Hid end.
  match goal with H' : (sg_start_time s =? _) = true |- _ => apply Z.eqb_eq in H'; rename H' into Hst end.
  match goal with H' : (sg_end_time s =? _) = true |- _ => apply Z.eqb_eq in H'; rename H' into Hen end.
  match goal with H' : is_finite 24 128 (sg_min s) = true |- _ => rename H' into Fm end.
  match goal with H' : is_finite 24 128 (sg_max s) = true |- _ => rename H' into FM end.
  match goal with H' : f32_le f32_zero (sg_min s) = true |- _ =>
    apply (f32_le_iff _ _ Fz Fm) in H'; rewrite Rz in H'; rename H' into M1 end.
  match goal with H' : f32_le f32_zero (sg_max s) = true |- _ =>
    apply (f32_le_iff _ _ Fz FM) in H'; rewrite Rz in H'; rename H' into M2 end.
  match goal with H' : f32_le (sg_min s) _ = true |- _ =>
    apply (f32_le_iff _ _ Fm F64) in H'; rewrite R64' in H'; rename H' into M3 end.
  match goal with H' : f32_le (sg_max s) _ = true |- _ =>
    apply (f32_le_iff _ _ FM F64) in H'; rewrite R64' in H'; rename H' into M4 end.
  match goal with H' : is_finite 24 128 (from_bits _) = true |- _ => rename H' into Fx end.
  match goal with H' : is_finite 24 128 (model_min _ _) = true |- _ => rename H' into Fr end.
  match goal with H' : f32_lt _ (model_min _ _) = true |- _ =>
    apply (f32_lt_iff _ _ Fx Fr) in H'; rename H' into Hlt end.
  split.
  { exists eb, every_millisecond, (map f32_of_Z almost_linear), [s].
    destruct (f32_of_Z_exact 1 ltac:(lia)) as [F1 R1].
    split; [split; [exact F1|rewrite R1; lra]|].
    split; [unfold eb; intros e He; discriminate He|].
    split; [exact S1|]. split; [exact S2|]. split; [exact V1|]. split; [exact V2|].
    split; [reflexivity|]. split; [exact E|now left]. }
  split; [exact Hid|]. split.
  { split; [destruct (sg_residuals s); [reflexivity|discriminate]|].
    split; [exact Fm|]. split; [exact FM|].
    split; [rewrite Rabs_pos_eq; lra|]. split; [rewrite Rabs_pos_eq; lra|].
    rewrite Hst, Hen. lia. }
  split.
  { unfold line_error, rounding. rewrite Hst, Hen.
    assert (Hp : (/ 2 ^ 148 <= / 1000)%R).
    { apply Rinv_le_contravar; [lra|]. rewrite pow_IZR. apply IZR_le. vm_compute. discriminate. }
    change (1700000000009000 - 1700000000000000) with 9000. change (INR 0) with 0%R.
    replace (2 ^ 22)%R with 4194304%R by (rewrite pow_IZR; reflexivity).
    replace (2 ^ 46)%R with 70368744177664%R by (rewrite pow_IZR; reflexivity). lra. }
  split.
  { intros ts' out' G'. rewrite G in G'. injection G' as _ <-. rewrite H0. lia. }
  split; [exact G|]. split.
  { do 9 (destruct out as [|? out]; [discriminate H0|]).
    destruct out as [|x [|? ?]]; try discriminate H0.
    cbn [combine] in H. do 9 right. left.
    specialize (H (x, 1035993088)). cbn [fst snd] in H. rewrite Z.eqb_eq in H.
    rewrite <- H; [symmetry; apply from_to_bits|]. do 9 right. now left. }
  auto 8.
Qed.

Lemma line_min_wrong : exists P s ts out x, good_log2 P /\ ties_first P /\ created P s
  /\ sg_residuals s = [] /\ grid P s = Ok (ts, out) /\ Forall finite32 out
  /\ In x out /\ f32_lt x (model_min P [s]) = true.
Proof.
  destruct line_witness as (s & ts & out & x & H1 & H2 & H3 & H4 & H5 & H6 & H7 & H8 & H9 & H10 & _).
  exists exact_platform, s, ts, out, x.
  destruct (line_segment exact_platform s 64 1700000000009000 H1 H2 H3 ltac:(lia))
    as (ts' & out' & G & Hf & _).
  { rewrite pow_IZR. apply IZR_le. lia. }
  rewrite H6 in G. injection G as <- <-.
  split; [exact exact_log2_good|]. split; [split; intros; reflexivity|].
  split; [exact H1|]. split; [apply H3|]. split; [exact H6|]. split; [exact Hf|].
  split; [exact H7|]. now apply f32_lt_iff.
Qed.

Lemma lines_example : exists s, created exact_platform s /\ sg_model_type_id s = swing_id
  /\ lines_within 64 1700000000009000 (/ 4) s /\ short exact_platform s.
Proof.
  destruct line_witness as (s & ts & out & x & H1 & H2 & H3 & H4 & H5 & _).
  exists s. split; [exact H1|]. split; [exact H2|]. split; [intros _; now split|exact H5].
Qed.
