(** Time series that are not restored within the bound. *)
From Coq Require Import ZArith Reals Bool Lia Lra List Sorting.Sorted.
From Flocq Require Import Core IEEE754.Binary.
From Verif Require Import Model.Base Model.Float Model.ErrorBound Model.Segments
  Spec.TimestampsSpec Spec.ErrorBoundSpec Spec.PlatformSpec Spec.MacaqueVSpec Spec.PmcSpec
  Spec.SegmentsSpec Spec.GridSpec
  Proofs.FloatProofs Proofs.ErrorBoundProofs Proofs.MacaqueVLossyProofs Proofs.RestoreProofs.
Import ListNotations.
Open Scope Z_scope.

Lemma forall2_nth : forall (A B : Type) (R : A -> B -> Prop) la lb i da db,
  Forall2 R la lb -> (i < length la)%nat -> R (nth i la da) (nth i lb db).
Proof.
  intros A B R la lb i da db H. revert i. induction H as [|a b la lb Hab H IH]; intros i Hi.
  - cbn in Hi. lia.
  - destruct i as [|i]; [exact Hab|]. cbn [nth]. apply IH. cbn [length] in Hi. lia.
Qed.

(** [f] holds for the values restored from the only segment of a time series. *)
Definition restored_as (P : platform) (eb : error_bound) (ts : list Z) (vs : list f32)
  (f : list f32 -> bool) : bool :=
  match compress_univariate P eb ts vs with
  | Ok [s] => match grid P s with Ok (_, out) => f out | _ => false end
  | _ => false
  end.

Lemma restored_as_inv : forall P eb ts vs f, restored_as P eb ts vs f = true ->
  exists s ts' out, compress_univariate P eb ts vs = Ok [s] /\ grid P s = Ok (ts', out) /\ f out = true.
Proof.
  intros P eb ts vs f H. unfold restored_as in H.
  destruct (compress_univariate P eb ts vs) as [[|s [|s' l]]| |]; try discriminate.
  destruct (grid P s) as [[ts' out]| |] eqn:E; try discriminate. eauto 10.
Qed.

(** One value per second with timestamps in microseconds since 1970. *)
Definition every_second (n : nat) : list Z :=
  map (fun k => 1700000000000000 + 1000000 * Z.of_nat k) (seq 0 n).

Lemma every_second_valid : forall n, (n <> 0)%nat -> Z.of_nat n < 2 ^ 40 ->
  valid_timestamps (every_second n) /\ span_fits (every_second n).
Proof.
  intros n Hn Hn40. unfold every_second.
  assert (Hin : forall t, In t (map (fun k => 1700000000000000 + 1000000 * Z.of_nat k) (seq 0 n)) ->
            1700000000000000 <= t < 1700000000000000 + 2 ^ 60).
  { intros t H. apply in_map_iff in H. destruct H as (k & <- & Hk). apply in_seq in Hk. lia. }
  split; [split; [|split; [|split]]|].
  - destruct n; [congruence|discriminate].
  - apply Forall_forall. intros t H. apply Hin in H. unfold is_i64. lia.
  - unfold strictly_increasing. clear. generalize 0%nat. induction n as [|n IH]; intros i; cbn [seq map].
    + constructor.
    + constructor; [apply IH|]. apply Forall_forall. intros t H. apply in_map_iff in H.
      destruct H as (k & <- & Hk). apply in_seq in Hk. lia.
  - rewrite map_length, seq_length. lia.
  - intros t t' H H'. apply Hin in H. apply Hin in H'. unfold is_i64. lia.
Qed.

(** ** The residuals of a linear function *)
Definition falling : list f32 := map f32_of_Z [90; 80; 70; 60; 50; 40; 30; 20; 10; 0; 1000].

Lemma falling_hypotheses :
  let P := exact_platform in
  let eb := Absolute (f32_of_Z 1) in
  let ts := every_second 11 in
  good_log2 P /\ ties_first P /\ valid_error_bound eb
  /\ (forall e, eb = Relative e -> (R32 e < 100)%R \/ same_sign falling)
  /\ Forall (rewritable eb) falling
  /\ Forall (fun v => f32_is_nan v = false) falling /\ valid_timestamps ts /\ span_fits ts
  /\ length ts = length falling.
Proof.
  intros P eb ts.
  destruct (every_second_valid 11 ltac:(lia) ltac:(lia)) as [V1 V2].
  assert (Hz : forall z, (Z.abs z <= 1000)%Z -> rewritable eb (f32_of_Z z) /\ f32_is_nan (f32_of_Z z) = false).
  { intros z Hz. destruct (f32_of_Z_exact z ltac:(lia)) as [F R].
    destruct (f32_of_Z_exact 1 ltac:(lia)) as [F1 R1]. split.
    - right. right. unfold eb. rewrite R, R1. split.
      + change 1%R with (bpow radix2 0). apply bpow_le. lia.
      + rewrite <- abs_IZR. apply IZR_le in Hz. lra.
    - destruct (f32_is_nan (f32_of_Z z)) eqn:En; [|reflexivity]. now apply nan_not_finite in En. }
  assert (Hin : forall v, In v falling -> exists z, v = f32_of_Z z /\ (Z.abs z <= 1000)%Z).
  { intros v Hv. apply in_map_iff in Hv. destruct Hv as (z & <- & Hzin). exists z. split; [reflexivity|].
    repeat (destruct Hzin as [<-|Hzin]; [lia|]). destruct Hzin. }
  split; [exact exact_log2_good|].
  split; [split; intros; reflexivity|].
  split; [destruct (f32_of_Z_exact 1 ltac:(lia)) as [F1 R1]; split; [exact F1|rewrite R1; lra]|].
  split; [unfold eb; intros e H; discriminate H|].
  split; [apply Forall_forall; intros v Hv; destruct (Hin v Hv) as (z & -> & Hz'); now apply Hz|].
  split; [apply Forall_forall; intros v Hv; destruct (Hin v Hv) as (z & -> & Hz'); now apply Hz|].
  split; [exact V1|]. split; [exact V2|]. reflexivity.
Qed.

Lemma residual_after_line : exists P eb ts vs s ts' out,
  good_log2 P /\ ties_first P /\ valid_error_bound eb
  /\ (forall e, eb = Relative e -> (R32 e < 100)%R \/ same_sign vs)
  /\ Forall (rewritable eb) vs
  /\ Forall (fun v => f32_is_nan v = false) vs /\ valid_timestamps ts /\ span_fits ts
  /\ length ts = length vs
  /\ compress_univariate P eb ts vs = Ok [s] /\ grid P s = Ok (ts', out)
  /\ ~ Forall2 (within_bound 900 eb) vs out.
Proof.
  set (eb := Absolute (f32_of_Z 1)).
  assert (H : restored_as exact_platform eb (every_second 11) falling
                (fun out => is_finite 24 128 (nth 10 out f32_zero) && f32_lt (nth 10 out f32_zero) f32_zero)
              = true) by (vm_compute; reflexivity).
  apply restored_as_inv in H. destruct H as (s & ts' & out & E1 & E2 & E3).
  exists exact_platform, eb, (every_second 11), falling, s, ts', out.
  destruct falling_hypotheses as (H1 & H2 & H3 & H4 & H5 & H6 & H7 & H8 & H9). cbv zeta in *.
  fold eb in H3, H4, H5.
  split; [exact H1|]. split; [exact H2|]. split; [exact H3|]. split; [exact H4|]. split; [exact H5|].
  split; [exact H6|]. split; [exact H7|]. split; [exact H8|]. split; [exact H9|].
  split; [exact E1|]. split; [exact E2|].
  intros HF. pose proof (forall2_nth _ _ _ _ _ 10 f32_zero f32_zero HF ltac:(cbn [falling length map]; lia)) as Hw.
  apply andb_true_iff in E3. destruct E3 as [E3 E4].
  apply (f32_lt_iff _ f32_zero E3 eq_refl) in E4. change (R32 f32_zero) with 0%R in E4.
  change (nth 10 falling f32_zero) with (f32_of_Z 1000) in Hw.
  destruct (f32_of_Z_exact 1000 ltac:(lia)) as [F R].
  destruct (f32_of_Z_exact 1 ltac:(lia)) as [F1 R1].
  destruct Hw as [[(_ & _ & Hs)|[[Hs Hs2]|[Hs _]]]|(_ & _ & Hw)].
  - rewrite R in Hs. lra.
  - now apply infinite_not_finite in Hs2.
  - now apply nan_not_finite in Hs.
  - unfold eb in Hw. rewrite R, R1 in Hw. rewrite Rabs_pos_eq in Hw by lra. lra.
Qed.

(** ** Values after NaN *)
Definition after_nan : list f32 := repeat f32_nan 8 ++ [f32_of_Z 1].

Lemma nan_model : exists ts vs s ts' out,
  let P := exact_platform in
  valid_timestamps ts /\ span_fits ts /\ length ts = length vs
  /\ compress_univariate P Lossless ts vs = Ok [s] /\ grid P s = Ok (ts', out)
  /\ (forall v, nth 0 vs v = f32_nan) /\ forall eb slack, ~ Forall2 (within_bound slack eb) vs out.
Proof.
  assert (H : restored_as exact_platform Lossless (every_second 9) after_nan
                (fun out => negb (f32_is_nan (nth 0 out f32_zero))) = true) by (vm_compute; reflexivity).
  apply restored_as_inv in H. destruct H as (s & ts' & out & E1 & E2 & E3).
  exists (every_second 9), after_nan, s, ts', out. cbv zeta.
  destruct (every_second_valid 9 ltac:(lia) ltac:(lia)) as [V1 V2].
  split; [exact V1|]. split; [exact V2|]. split; [reflexivity|]. split; [exact E1|]. split; [exact E2|].
  split; [reflexivity|].
  intros eb slack HF.
  pose proof (forall2_nth _ _ _ _ _ 0 f32_zero f32_zero HF ltac:(cbn [after_nan length app repeat]; lia)) as Hw.
  change (nth 0 after_nan f32_zero) with f32_nan in Hw.
  clear E1 E2 HF.
  destruct Hw as [[(Hs & _)|[[_ Hs]|[_ Hs]]]|(Hs & _)]; try discriminate Hs.
  rewrite Hs in E3. discriminate E3.
Qed.

(** ** Signed zeros *)
(** [min] and [max] order -0.0 before 0.0, as the instructions of AArch64 do. *)
Definition ordered_zeros_platform : platform :=
  Platform (fun x _ => Bsign 24 128 x) (fun x _ => negb (Bsign 24 128 x))
    (fun x _ => Bsign 53 1024 x) (fun x _ => negb (Bsign 53 1024 x)) exact_log2_abs_floor.

Definition zeros : list f32 := repeat f32_zero 8 ++ [f32_of_Z 5; B754_zero 24 128 true].

Lemma signed_zeros : exists P ts vs s ts' out,
  good_log2 P /\ Forall (fun v => finite32 v) vs
  /\ valid_timestamps ts /\ span_fits ts /\ length ts = length vs
  /\ compress_univariate P Lossless ts vs = Ok [s] /\ grid P s = Ok (ts', out)
  /\ forall slack, ~ Forall2 (within_bound slack Lossless) vs out.
Proof.
  assert (H : restored_as ordered_zeros_platform Lossless (every_second 10) zeros
                (fun out => is_finite 24 128 (nth 8 out f32_zero) && f32_lt (nth 8 out f32_zero) f32_zero)
              = true) by (vm_compute; reflexivity).
  apply restored_as_inv in H. destruct H as (s & ts' & out & E1 & E2 & E3).
  exists ordered_zeros_platform, (every_second 10), zeros, s, ts', out.
  destruct (every_second_valid 10 ltac:(lia) ltac:(lia)) as [V1 V2].
  destruct (f32_of_Z_exact 5 ltac:(lia)) as [F R].
  split; [exact exact_log2_good|].
  split.
  { unfold zeros. apply Forall_app. split.
    - apply Forall_forall. intros v Hv. apply repeat_spec in Hv. subst. reflexivity.
    - apply Forall_cons; [exact F|]. apply Forall_cons; [reflexivity|]. apply Forall_nil. }
  split; [exact V1|]. split; [exact V2|]. split; [reflexivity|]. split; [exact E1|]. split; [exact E2|].
  intros slack HF.
  pose proof (forall2_nth _ _ _ _ _ 8 f32_zero f32_zero HF ltac:(cbn [zeros length app repeat]; lia)) as Hw.
  change (nth 8 zeros f32_zero) with (f32_of_Z 5) in Hw.
  apply andb_true_iff in E3. destruct E3 as [E3 E4].
  apply (f32_lt_iff _ f32_zero E3 eq_refl) in E4. change (R32 f32_zero) with 0%R in E4.
  destruct Hw as [[(_ & _ & Hs)|[[Hs Hs2]|[Hs _]]]|(_ & _ & Hw)].
  - rewrite R in Hs. lra.
  - now apply infinite_not_finite in Hs2.
  - now apply nan_not_finite in Hs.
  - exact Hw.
Qed.
