(** Segments whose aggregates are not those of the decompressed values. *)
From Coq Require Import ZArith Reals Bool Lia Lra List Sorting.Sorted.
From Flocq Require Import Core IEEE754.Binary.
From Verif Require Import Model.Base Model.Float Model.ErrorBound Model.MacaqueV Model.Segments
  Model.Aggregates
  Spec.TimestampsSpec Spec.ErrorBoundSpec Spec.PlatformSpec Spec.MacaqueVSpec Spec.PmcSpec
  Spec.SegmentsSpec Spec.GridSpec Spec.AggregateSpec
  Proofs.FloatProofs Proofs.ErrorBoundProofs Proofs.MacaqueVProofs Proofs.MacaqueVLossyProofs
  Proofs.OrderProofs Proofs.RestoreProofs Proofs.RestoreWitnesses Proofs.AggregateSumProofs.
Import ListNotations.
Open Scope Z_scope.

Lemma small_integers : forall zs, Forall (fun z => Z.abs z <= 1000) zs ->
  Forall (rewritable (Absolute (f32_of_Z 1))) (map f32_of_Z zs)
  /\ Forall (fun v => f32_is_nan v = false) (map f32_of_Z zs)
  /\ Forall finite32 (map f32_of_Z zs).
Proof.
  intros zs H. induction H as [|z zs Hz H (I1 & I2 & I3)]; [repeat split; constructor|].
  destruct (f32_of_Z_exact z ltac:(lia)) as [F R].
  destruct (f32_of_Z_exact 1 ltac:(lia)) as [F1 R1].
  cbn [map]. split; [|split].
  - apply Forall_cons; [|exact I1]. right. right. rewrite R, R1. split.
    + change 1%R with (bpow radix2 0). apply bpow_le. lia.
    + rewrite <- abs_IZR. apply IZR_le in Hz. lra.
  - apply Forall_cons; [|exact I2]. now apply finite_not_nan.
  - now apply Forall_cons.
Qed.

Lemma valid_by_check : forall ts,
  forallb (fun t => (0 <=? t) && (t <? 2 ^ 60)) ts
  && (fix inc (l : list Z) : bool :=
        match l with a :: (b :: _) as l' => (a <? b) && inc l' | _ => true end) ts = true ->
  ts <> [] -> Z.of_nat (length ts) < 2 ^ 40 -> valid_timestamps ts /\ span_fits ts.
Proof.
  intros ts H Hne Hl. apply andb_true_iff in H. destruct H as [H1 H2].
  rewrite forallb_forall in H1.
  assert (Hr : forall t, In t ts -> 0 <= t < 2 ^ 60).
  { intros t Ht. specialize (H1 t Ht). lia. }
  split; [split; [|split; [|split]]|].
  - exact Hne.
  - apply Forall_forall. intros t Ht. specialize (Hr t Ht). unfold is_i64. lia.
  - unfold strictly_increasing. apply Sorted_StronglySorted; [intros a b c; lia|].
    clear - H2. induction ts as [|a ts IH]; [constructor|]. destruct ts as [|b ts].
    + repeat constructor.
    + apply andb_true_iff in H2. destruct H2 as [H2 H3]. constructor; [now apply IH|].
      constructor. lia.
  - lia.
  - intros t t' Ht Ht'. specialize (Hr t Ht) as A. specialize (Hr t' Ht') as B. unfold is_i64. lia.
Qed.

(** ** The sum of a line *)
Definition uneven_timestamps : list Z :=
  map (fun t => 1700000000000000 + 1000000 * t) [0; 92; 93; 94; 95; 96; 97; 98; 99; 100; 10000].
Definition uneven_integers : list Z := [100; 8; 7; 6; 5; 4; 3; 2; 1; 0; 1000].

Definition sum_check (s : segment) : bool :=
  match grid exact_platform s, segment_sum exact_platform s with
  | Ok (_, out), Ok x =>
      forallb (fun p => to_bits (fst p) =? to_bits (snd p)) (combine out (map f32_of_Z uneven_integers))
      && Nat.eqb (length out) 11 && is_finite 24 128 x && f32_le (f32_of_Z 1900) x
  | _, _ => false
  end.

Lemma combine_bits : forall a b : list f32, length a = length b ->
  forallb (fun p => to_bits (fst p) =? to_bits (snd p)) (combine a b) = true -> a = b.
Proof.
  induction a as [|x a IH]; intros [|y b] Hl H; try discriminate; [reflexivity|].
  cbn [combine forallb fst snd] in H. apply andb_true_iff in H. destruct H as [H1 H2].
  apply Z.eqb_eq in H1. f_equal; [|apply IH; auto].
  rewrite <- (from_to_bits x), <- (from_to_bits y). now rewrite H1.
Qed.

Lemma total_integers : forall zs, Forall (fun z => Z.abs z <= 1000) zs ->
  total (map f32_of_Z zs) = IZR (fold_right Z.add 0 zs).
Proof.
  intros zs H. induction H as [|z zs Hz H IH]; [reflexivity|]. cbn [map fold_right].
  change (total (f32_of_Z z :: map f32_of_Z zs)) with (R32 (f32_of_Z z) + total (map f32_of_Z zs))%R.
  rewrite IH, plus_IZR. now rewrite (proj2 (f32_of_Z_exact z ltac:(lia))).
Qed.

Lemma swing_sum_wrong : exists P s ts out x, good_log2 P /\ ties_first P /\ created P s
  /\ grid P s = Ok (ts, out) /\ Forall finite32 out /\ segment_sum P s = Ok x
  /\ (0 <= total out <= 1136)%R /\ (1900 <= R32 x)%R.
Proof.
  set (eb := Absolute (f32_of_Z 1)).
  assert (Hz : Forall (fun z => Z.abs z <= 1000) uneven_integers)
    by (repeat (apply Forall_cons; [lia|]); apply Forall_nil).
  destruct (small_integers _ Hz) as (S1 & S2 & S3).
  assert (H : match compress_univariate exact_platform eb uneven_timestamps
                      (map f32_of_Z uneven_integers) with
              | Ok [s] => sum_check s | _ => false end = true) by (vm_compute; reflexivity).
  destruct (compress_univariate exact_platform eb uneven_timestamps (map f32_of_Z uneven_integers))
    as [[|s [|s' l]]| |] eqn:E; try discriminate H.
  unfold sum_check in H.
  destruct (grid exact_platform s) as [[ts out]| |] eqn:G; try discriminate H.
  destruct (segment_sum exact_platform s) as [x| |] eqn:X; try discriminate H.
  apply andb_true_iff in H. destruct H as [H H4]. apply andb_true_iff in H. destruct H as [H H3].
  apply andb_true_iff in H. destruct H as [H1 H2]. apply Nat.eqb_eq in H2.
  apply combine_bits in H1; [|rewrite H2; reflexivity].
  exists exact_platform, s, ts, out, x.
  destruct (valid_by_check uneven_timestamps) as [V1 V2];
    [vm_compute; reflexivity|discriminate|reflexivity|].
  split; [exact exact_log2_good|]. split; [split; intros; reflexivity|].
  split.
  { exists eb, uneven_timestamps, (map f32_of_Z uneven_integers), [s].
    destruct (f32_of_Z_exact 1 ltac:(lia)) as [F1 R1].
    split; [split; [exact F1|rewrite R1; lra]|].
    split; [unfold eb; intros e He; discriminate He|].
    split; [exact S1|]. split; [exact S2|]. split; [exact V1|]. split; [exact V2|].
    split; [reflexivity|]. split; [exact E|now left]. }
  split; [exact G|]. rewrite H1. split; [exact S3|]. split; [exact X|].
  destruct (f32_of_Z_exact 1900 ltac:(lia)) as [F19 R19].
  apply (f32_le_iff _ _ F19 H3) in H4. rewrite R19 in H4.
  rewrite (total_integers _ Hz). change (fold_right Z.add 0 uneven_integers) with 1136.
  split; [lra|exact H4].
Qed.

(** ** The minimum of infinities *)
Definition infinities : list f32 := repeat (B754_infinity 24 128 false) 8.

Lemma min_infinity_wrong : exists P s ts out, good_log2 P /\ ties_first P /\ created P s
  /\ grid P s = Ok (ts, out) /\ out <> [] /\ ~ least (model_min P [s]) out.
Proof.
  assert (H : match compress_univariate exact_platform Lossless (every_second 8) infinities with
              | Ok [s] => match grid exact_platform s with
                          | Ok (_, out) => Nat.eqb (length out) 8
                              && forallb f32_is_infinite out
                              && is_finite 24 128 (model_min exact_platform [s])
                          | _ => false end
              | _ => false end = true) by (vm_compute; reflexivity).
  destruct (compress_univariate exact_platform Lossless (every_second 8) infinities)
    as [[|s [|s' l]]| |] eqn:E; try discriminate H.
  destruct (grid exact_platform s) as [[ts out]| |] eqn:G; try discriminate H.
  apply andb_true_iff in H. destruct H as [H H3]. apply andb_true_iff in H. destruct H as [H1 H2].
  exists exact_platform, s, ts, out.
  destruct (every_second_valid 8 ltac:(lia) ltac:(lia)) as [V1 V2].
  assert (Hin : forall v, In v infinities -> v = B754_infinity 24 128 false)
    by (intros v; apply repeat_spec).
  split; [exact exact_log2_good|]. split; [split; intros; reflexivity|].
  split.
  { exists Lossless, (every_second 8), infinities, [s].
    split; [exact I|]. split; [intros e He; discriminate He|].
    split; [apply Forall_forall; intros v Hv; right; right; exact I|].
    split; [apply Forall_forall; intros v Hv; rewrite (Hin v Hv); reflexivity|].
    split; [exact V1|]. split; [exact V2|].
    split; [reflexivity|]. split; [exact E|now left]. }
  split; [exact G|]. split.
  { intros C. rewrite C in H1. discriminate H1. }
  intros [(x & Hx & Hs) _]. rewrite forallb_forall in H2. specialize (H2 x Hx).
  destruct Hs as [(Hf & _)|[[Hs _]|[Hn _]]].
  - now apply infinite_not_finite in H2.
  - rewrite <- Hs in H3. now apply infinite_not_finite in H2.
  - clear - H2 Hn. destruct x; discriminate.
Qed.

(** ** The sum of large values *)
Definition large : list f32 := repeat (from_bits 2122317824) 8.

Lemma total_below : forall l, Forall finite32 l -> (Rabs (total l) <= INR (length l) * bpow radix2 128)%R.
Proof.
  induction l as [|v l IH]; intros H.
  - change (total []) with 0%R. rewrite Rabs_R0. cbn [length INR]. lra.
  - inversion H as [|? ? H1 H2]; subst. change (total (v :: l)) with (R32 v + total l)%R.
    replace (length (v :: l)) with (S (length l)) by reflexivity. rewrite S_INR.
    pose proof (Rabs_triang (R32 v) (total l)) as T. specialize (IH H2).
    pose proof (abs_B2R_lt_emax 24 128 v) as B. unfold R32 in *. lra.
Qed.

Lemma sum_overflows : exists P s ts out sum, good_log2 P /\ ties_first P /\ created P s
  /\ grid P s = Ok (ts, out) /\ Forall finite32 out /\ (Rabs (total out) <= bpow radix2 131)%R
  /\ model_sum P f64_zero [s] = Ok sum /\ ~ finite64 sum.
Proof.
  assert (H : match compress_univariate exact_platform Lossless (every_second 8) large with
              | Ok [s] => match grid exact_platform s, model_sum exact_platform f64_zero [s] with
                          | Ok (_, out), Ok sum => Nat.eqb (length out) 8
                              && forallb (is_finite 24 128) out
                              && negb (is_finite 53 1024 sum)
                          | _, _ => false end
              | _ => false end = true) by (vm_compute; reflexivity).
  destruct (compress_univariate exact_platform Lossless (every_second 8) large)
    as [[|s [|s' l]]| |] eqn:E; try discriminate H.
  destruct (grid exact_platform s) as [[ts out]| |] eqn:G; try discriminate H.
  destruct (model_sum exact_platform f64_zero [s]) as [sum| |] eqn:M; try discriminate H.
  apply andb_true_iff in H. destruct H as [H H3]. apply andb_true_iff in H. destruct H as [H1 H2].
  exists exact_platform, s, ts, out, sum.
  destruct (every_second_valid 8 ltac:(lia) ltac:(lia)) as [V1 V2].
  assert (Hin : forall v, In v large -> v = from_bits 2122317824) by (intros v; apply repeat_spec).
  assert (F : Forall finite32 out).
  { apply Forall_forall. intros v Hv. rewrite forallb_forall in H2. exact (H2 v Hv). }
  split; [exact exact_log2_good|]. split; [split; intros; reflexivity|].
  split.
  { exists Lossless, (every_second 8), large, [s].
    split; [exact I|]. split; [intros e He; discriminate He|].
    split; [apply Forall_forall; intros v Hv; right; right; exact I|].
    split; [apply Forall_forall; intros v Hv; rewrite (Hin v Hv); reflexivity|].
    split; [exact V1|]. split; [exact V2|].
    split; [reflexivity|]. split; [exact E|now left]. }
  split; [exact G|]. split; [exact F|]. split.
  { apply Nat.eqb_eq in H1. pose proof (total_below out F) as B. rewrite H1 in B.
    replace (INR 8) with (bpow radix2 3) in B by (cbn; lra). rewrite <- bpow_plus in B. exact B. }
  split; [exact M|]. intros C. unfold finite64 in C. rewrite C in H3. discriminate H3.
Qed.

(** ** A segment that meets the hypotheses *)
Definition sevens : list Z := [7; 7; 7; 7; 7; 7; 7; 7; 90].

Definition aggregates_check (s : segment) : bool :=
  match grid exact_platform s, model_count 0 [s; s] with
  | Ok (_, out), Ok n =>
      Nat.eqb (length out) 9
      && forallb (fun p => to_bits (fst p) =? to_bits (snd p)) (combine out (map f32_of_Z sevens))
      && (n =? 18) && (sg_model_type_id s =? 0)
      && (to_bits (model_min exact_platform [s; s]) =? to_bits (f32_of_Z 7))
      && (to_bits (model_max exact_platform [s; s]) =? to_bits (f32_of_Z 90))
  | _, _ => false
  end.

Lemma aggregates_example : exists s, created exact_platform s /\ sg_model_type_id s <> swing_id
  /\ short exact_platform s
  /\ (exists ts out, grid exact_platform s = Ok (ts, out) /\ map to_bits out
        = map (fun z => to_bits (f32_of_Z z)) [7; 7; 7; 7; 7; 7; 7; 7; 90])
  /\ model_count 0 [s; s] = Ok 18
  /\ to_bits (model_min exact_platform [s; s]) = to_bits (f32_of_Z 7)
  /\ to_bits (model_max exact_platform [s; s]) = to_bits (f32_of_Z 90).
Proof.
  set (eb := Absolute (f32_of_Z 1)).
  assert (Hz : Forall (fun z => Z.abs z <= 1000) sevens)
    by (repeat (apply Forall_cons; [lia|]); apply Forall_nil).
  destruct (small_integers _ Hz) as (S1 & S2 & S3).
  assert (H : match compress_univariate exact_platform eb (every_second 9) (map f32_of_Z sevens) with
              | Ok [s] => aggregates_check s | _ => false end = true) by (vm_compute; reflexivity).
  destruct (compress_univariate exact_platform eb (every_second 9) (map f32_of_Z sevens))
    as [[|s [|s' l]]| |] eqn:E; try discriminate H.
  unfold aggregates_check in H.
  destruct (grid exact_platform s) as [[ts out]| |] eqn:G; try discriminate H.
  destruct (model_count 0 [s; s]) as [n| |] eqn:C; try discriminate H.
  apply andb_true_iff in H. destruct H as [H H6]. apply andb_true_iff in H. destruct H as [H H5].
  apply andb_true_iff in H. destruct H as [H H4]. apply andb_true_iff in H. destruct H as [H H3].
  apply andb_true_iff in H. destruct H as [H1 H2].
  apply Nat.eqb_eq in H1. apply combine_bits in H2; [|rewrite H1; reflexivity].
  apply Z.eqb_eq in H3, H4, H5, H6. subst n.
  exists s. destruct (every_second_valid 9 ltac:(lia) ltac:(lia)) as [V1 V2].
  split.
  { exists eb, (every_second 9), (map f32_of_Z sevens), [s].
    destruct (f32_of_Z_exact 1 ltac:(lia)) as [F1 R1].
    split; [split; [exact F1|rewrite R1; lra]|].
    split; [unfold eb; intros e He; discriminate He|].
    split; [exact S1|]. split; [exact S2|]. split; [exact V1|]. split; [exact V2|].
    split; [reflexivity|]. split; [exact E|now left]. }
  split; [intros X; rewrite X in H4; discriminate H4|].
  split.
  { intros ts' out' G'. assert (out' = out) by congruence. subst out'. rewrite H1. lia. }
  split.
  { exists ts, out. split; [exact G|]. rewrite H2. unfold sevens. now rewrite map_map. }
  split; [exact C|]. split; [exact H5|exact H6].
Qed.
