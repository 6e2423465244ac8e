(** The last value of a line fitted to values that are not NaN is not NaN. *)
From Coq Require Import ZArith Reals Bool Lia Lra List Sorting.Sorted.
From Flocq Require Import Core IEEE754.BinarySingleNaN IEEE754.Binary IEEE754.Bits.
From Verif Require Import Model.Base Model.Timestamps Model.Float Model.ErrorBound Model.Swing
  Spec.TimestampsSpec Spec.ErrorBoundSpec Spec.SwingSpec
  Proofs.FloatProofs Proofs.ErrorBoundProofs Proofs.SegmentsProofs Proofs.SwingFloatProofs
  Proofs.GridProofs.
Import ListNotations.
Open Scope Z_scope.

Definition no_nan (x : f64) : Prop := f64_is_nan x = false.

Lemma finite_no_nan : forall x, finite64 x -> no_nan x.
Proof. intros [s|s|s pl H|s m e H] Hf; try discriminate; reflexivity. Qed.

Lemma no_nan_cases : forall x, no_nan x -> finite64 x \/ exists s, x = B754_infinity 53 1024 s.
Proof. intros [s|s|s pl H|s m e H] Hx; try discriminate; [left|right|left]; try reflexivity. eauto. Qed.

Lemma overflow_no_nan : forall x s, B2FF 53 1024 x = binary_overflow 53 1024 mode_NE s -> no_nan x.
Proof. intros [s|s|s pl H|s m e H] t E; try reflexivity. discriminate. Qed.

Lemma add_finite : forall x y, finite64 x -> finite64 y -> no_nan (f64_add x y).
Proof.
  intros x y Hx Hy. unfold f64_add, b64_plus.
  match goal with |- no_nan (Bplus _ _ _ _ ?f _ _ _) =>
    generalize (Bplus_correct 53 1024 eq_refl eq_refl f mode_NE x y Hx Hy) end.
  destruct (Rlt_bool _ _).
  - intros (_ & H & _). now apply finite_no_nan.
  - intros (H & _). now apply overflow_no_nan in H.
Qed.
Lemma sub_finite : forall x y, finite64 x -> finite64 y -> no_nan (f64_sub x y).
Proof.
  intros x y Hx Hy. unfold f64_sub, b64_minus.
  match goal with |- no_nan (Bminus _ _ _ _ ?f _ _ _) =>
    generalize (Bminus_correct 53 1024 eq_refl eq_refl f mode_NE x y Hx Hy) end.
  destruct (Rlt_bool _ _).
  - intros (_ & H & _). now apply finite_no_nan.
  - intros (H & _). now apply overflow_no_nan in H.
Qed.
Lemma mul_finite : forall x y, finite64 x -> finite64 y -> no_nan (f64_mul x y).
Proof.
  intros x y Hx Hy. unfold f64_mul, b64_mult.
  match goal with |- no_nan (Bmult _ _ _ _ ?f _ _ _) =>
    generalize (Bmult_correct 53 1024 eq_refl eq_refl f mode_NE x y) end.
  destruct (Rlt_bool _ _).
  - intros (_ & H & _). apply finite_no_nan. unfold finite64 in *. rewrite H, Hx, Hy. reflexivity.
  - intros H. now apply overflow_no_nan in H.
Qed.
Lemma div_finite : forall x y, finite64 x -> R64 y <> 0%R -> no_nan (f64_div x y).
Proof.
  intros x y Hx Hy. unfold f64_div, b64_div.
  match goal with |- no_nan (Bdiv _ _ _ _ ?f _ _ _) =>
    generalize (Bdiv_correct 53 1024 eq_refl eq_refl f mode_NE x y Hy) end.
  destruct (Rlt_bool _ _).
  - intros (_ & H & _). apply finite_no_nan. unfold finite64 in *. rewrite H, Hx. reflexivity.
  - intros H. now apply overflow_no_nan in H.
Qed.

Lemma add_no_nan_r : forall x y, no_nan x -> finite64 y -> no_nan (f64_add x y).
Proof.
  intros x y Hx Hy. destruct (no_nan_cases x Hx) as [H|[s ->]]; [now apply add_finite|].
  destruct y; try discriminate; reflexivity.
Qed.
Lemma add_no_nan_l : forall x y, finite64 x -> no_nan y -> no_nan (f64_add x y).
Proof.
  intros x y Hx Hy. destruct (no_nan_cases y Hy) as [H|[s ->]]; [now apply add_finite|].
  destruct x; try discriminate; reflexivity.
Qed.
Lemma sub_no_nan_r : forall x y, no_nan x -> finite64 y -> no_nan (f64_sub x y).
Proof.
  intros x y Hx Hy. destruct (no_nan_cases x Hx) as [H|[s ->]]; [now apply sub_finite|].
  destruct y; try discriminate; reflexivity.
Qed.
Lemma sub_no_nan_l : forall x y, finite64 x -> no_nan y -> no_nan (f64_sub x y).
Proof.
  intros x y Hx Hy. destruct (no_nan_cases y Hy) as [H|[s ->]]; [now apply sub_finite|].
  destruct x; try discriminate; reflexivity.
Qed.

(** A duration is a positive number. *)
Definition positive64 (x : f64) : Prop := exists m e H, x = B754_finite 53 1024 false m e H.

Lemma positive_R : forall x, positive64 x -> finite64 x /\ R64 x <> 0%R.
Proof.
  intros x (m & e & H & ->). split; [reflexivity|].
  assert (0 < R64 (B754_finite 53 1024 false m e H))%R by (apply F2R_gt_0; reflexivity). lra.
Qed.
Lemma div_no_nan : forall x y, no_nan x -> positive64 y -> no_nan (f64_div x y).
Proof.
  intros x y Hx Hy. destruct (positive_R y Hy) as [_ Hr].
  destruct (no_nan_cases x Hx) as [H|[s ->]]; [now apply div_finite|].
  destruct Hy as (m & e & H & ->). destruct s; reflexivity.
Qed.
Lemma mul_no_nan : forall x y, no_nan x -> positive64 y -> no_nan (f64_mul x y).
Proof.
  intros x y Hx Hy. destruct (positive_R y Hy) as [Hf _].
  destruct (no_nan_cases x Hx) as [H|[s ->]]; [now apply mul_finite|].
  destruct Hy as (m & e & H & ->). destruct s; reflexivity.
Qed.

Lemma max_no_nan : forall P x y, no_nan x -> no_nan (f64_max P x y).
Proof.
  intros P x y Hx. unfold f64_max, no_nan in *. rewrite Hx.
  destruct (f64_is_nan y) eqn:Hy; [exact Hx|].
  destruct (b64_compare x y) as [[]|]; try assumption; destruct (max64_takes_first P x y); assumption.
Qed.

Section Line.
Context (P : platform).
Notation N := (f64_num P).

Lemma duration_positive : forall t0 t, t0 < t -> is_i64 (t - t0) -> positive64 (duration N t0 t).
Proof.
  intros t0 t Ht Hi. unfold duration. cbn [num_of_Z f64_num].
  replace (i64 (t - t0)) with (t - t0) by (unfold i64, is_i64 in *; rewrite Z.mod_small by lia; lia).
  apply f64_of_Z_pos. unfold is_i64 in Hi. lia.
Qed.

Lemma deviation_no_nan : forall eb x, valid_error_bound eb -> finite64 x ->
  no_nan (maximum_allowed_deviation eb x).
Proof.
  intros [e|e|] x He Hx; cbn [maximum_allowed_deviation valid_error_bound] in *.
  - destruct (f64_of_f32_finite e (proj1 He)) as [Hf _]. apply mul_finite; [exact Hf|reflexivity].
  - destruct (f64_of_f32_finite e (proj1 He)) as [Hf Hr].
    assert (H100 : (100 <= R64 f64_100_1)%R).
    { unfold R64, f64_100_1, b64_of_bits. cbn. unfold Defs.F2R. cbn. lra. }
    assert (Hq : finite64 (f64_div (f64_of_f32 e) f64_100_1)).
    { destruct (f64_div_correct (f64_of_f32 e) f64_100_1 Hf) as [H _]; [lra| |exact H].
      rewrite Hr. apply Rle_lt_trans with (bpow radix2 1); [|now apply bpow_lt].
      apply abs_round_le_generic; try typeclasses eauto.
      + apply generic_format_bpow. unfold FLT_exp. lia.
      + rewrite Rabs_pos_eq.
        * apply Rmult_le_reg_r with (R64 f64_100_1); [lra|].
          unfold Rdiv. rewrite Rmult_assoc, Rinv_l by lra. change (bpow radix2 1) with 2%R. lra.
        * apply Rmult_le_pos; [lra|]. apply Rlt_le, Rinv_0_lt_compat. lra. }
    pose proof (mul_finite x _ Hx Hq) as Hm. unfold f64_abs, b64_abs, no_nan, f64_is_nan in *.
    destruct (f64_mul x (f64_div (f64_of_f32 e) f64_100_1)); try discriminate; reflexivity.
  - reflexivity.
Qed.

Lemma slope_no_nan : forall t0 first t last, finite64 first -> no_nan last ->
  positive64 (duration N t0 t) ->
  no_nan (fst (compute_slope_and_intercept N t0 first t last)).
Proof.
  intros t0 first t last Hf Hl Hd. unfold compute_slope_and_intercept.
  destruct (num_equal_or_nan N first last); [reflexivity|]. cbn [fst].
  cbn [num_div num_sub f64_num]. apply div_no_nan; [|exact Hd]. now apply sub_no_nan_r.
Qed.

(** The state after at least one finite value. *)
Record finite_state (eb : error_bound) (t0 : Z) (m : swing N) : Prop := {
  fs_eb : sw_error_bound m = eb;
  fs_start : sw_start_time m = t0;
  fs_first : finite64 (sw_first_value m);
  fs_length : (1 <= sw_length m)%nat;
  fs_slopes : sw_length m = 1%nat \/ no_nan (sw_upper_slope m) /\ no_nan (sw_lower_slope m)
}.

Lemma finite_step : forall eb t0 m t v m', valid_error_bound eb -> t0 < t -> is_i64 (t - t0) ->
  finite_state eb t0 m -> swing_fit_data_point P m t v = (true, m') ->
  finite_state eb t0 m' /\ (2 <= sw_length m')%nat.
Proof.
  intros eb t0 m t v m' He Ht Hi [Heb Hstart Hfirst Hlen Hslopes] H.
  pose proof (duration_positive t0 t Ht Hi) as Hd.
  destruct (finite_first_step P m t v m' Hfirst Hlen H) as (Hv & _).
  destruct (f64_of_f32_finite v Hv) as [Hv64 _].
  pose proof (deviation_no_nan eb (f64_of_f32 v) He Hv64) as Hdev.
  unfold swing_fit_data_point, swing_fit in H. rewrite Heb, Hstart in H.
  destruct (sw_length m) as [|n] eqn:En; [lia|]. cbn [Nat.eqb] in H.
  cbn [num_is_finite f64_num] in H. change (f64_is_finite (sw_first_value m)) with (is_finite 53 1024 (sw_first_value m)) in H.
  rewrite Hfirst in H. change (f64_is_finite (f64_of_f32 v)) with (is_finite 53 1024 (f64_of_f32 v)) in H.
  rewrite Hv64 in H. cbn [negb orb] in H.
  cbn [num_deviation num_add num_sub f64_num] in H.
  assert (Hup : no_nan (fst (compute_slope_and_intercept N t0 (sw_first_value m) t
                               (f64_add (f64_of_f32 v) (maximum_allowed_deviation eb (f64_of_f32 v)))))).
  { apply slope_no_nan; auto. now apply add_no_nan_l. }
  assert (Hlow : no_nan (fst (compute_slope_and_intercept N t0 (sw_first_value m) t
                               (f64_sub (f64_of_f32 v) (maximum_allowed_deviation eb (f64_of_f32 v)))))).
  { apply slope_no_nan; auto. now apply sub_no_nan_l. }
  destruct (Nat.eqb n 0) eqn:En0.
  - apply (f_equal snd) in H. cbn [snd] in H. subst m'. split; [|cbn [sw_length]; lia].
    constructor; cbn [sw_error_bound sw_start_time sw_first_value sw_length sw_upper_slope sw_lower_slope];
      auto.
  - apply Nat.eqb_neq in En0. destruct Hslopes as [Hs|[Hs1 Hs2]]; [lia|].
    match type of H with (if ?c then _ else _) = _ => destruct c; [discriminate|] end.
    apply (f_equal snd) in H. cbn [snd] in H. subst m'. split; [|cbn [sw_length]; lia].
    constructor; cbn [sw_error_bound sw_start_time sw_first_value sw_length sw_upper_slope sw_lower_slope];
      auto; try lia. right. split.
    + match goal with |- no_nan (fst (if ?c then _ else _)) => destruct c end; assumption.
    + match goal with |- no_nan (fst (if ?c then _ else _)) => destruct c end; assumption.
Qed.

Lemma finite_run : forall eb t0 pts m m', valid_error_bound eb ->
  (forall t v, In (t, v) pts -> t0 < t /\ is_i64 (t - t0)) ->
  finite_state eb t0 m -> swing_fit_data_points P m pts = Some m' ->
  finite_state eb t0 m' /\ (pts <> [] -> (2 <= sw_length m')%nat).
Proof.
  intros eb t0 pts. induction pts as [|[t v] pts IH]; intros m m' He Ht Hs H;
    cbn [swing_fit_data_points] in H.
  - replace m' with m by congruence. split; [exact Hs|congruence].
  - destruct (swing_fit_data_point P m t v) as [[] m1] eqn:E; [|discriminate].
    destruct (Ht t v (or_introl eq_refl)) as [Ht1 Ht2].
    destruct (finite_step eb t0 m t v m1 He Ht1 Ht2 Hs E) as [Hs1 Hl1].
    destruct (IH m1 m' He (fun t v H => Ht t v (or_intror H)) Hs1 H) as [Hs2 Hl2].
    split; [exact Hs2|]. intros _. rewrite (swing_fit_all_length _ _ _ _ H). lia.
Qed.

Lemma to_f32_no_nan : forall x, no_nan x -> f32_is_nan (f32_of_f64 x) = false.
Proof.
  intros [s|s|s pl H|s m e H] Hx; try discriminate; try reflexivity.
  cbn [f32_of_f64]. unfold binary_normalize, f32_is_nan.
  apply is_nan_BSN2B'.
Qed.

Lemma last_not_nan : forall eb pts m, valid_error_bound eb -> (2 <= length pts)%nat ->
  valid_timestamps (map fst pts) ->
  (forall t v t' v', In (t, v) pts -> In (t', v') pts -> is_i64 (t - t')) ->
  Forall (fun v => f32_is_nan v = false) (map snd pts) ->
  swing_fit_data_points P (swing_new N eb) pts = Some m ->
  f32_is_nan (snd (swing_model P m)) = false.
Proof.
  intros eb pts m He Hlen Hts Hi Hnan Hfit.
  destruct pts as [|[t0 v0] pts]; [cbn in Hlen; lia|].
  destruct pts as [|[t1 v1] pts0] eqn:Epts; [cbn in Hlen; lia|]. rewrite <- Epts in *.
  destruct (swing_times P eb t0 v0 pts m Hfit) as (T1 & T2 & T3).
  cbn [swing_fit_data_points] in Hfit.
  destruct (swing_fit_data_point P (swing_new N eb) t0 v0) as [ok m0] eqn:E0.
  unfold swing_fit_data_point, swing_fit in E0. unfold swing_new in E0 at 1. cbn [sw_length Nat.eqb] in E0.
  assert (Hok : ok = true) by (apply (f_equal fst) in E0; cbn [fst] in E0; congruence).
  apply (f_equal snd) in E0. cbn [snd] in E0. subst ok.
  assert (Hm0 : sw_first_value m0 = f64_of_f32 v0 /\ sw_length m0 = 1%nat /\ sw_start_time m0 = t0
            /\ sw_error_bound m0 = eb /\ sw_mse_numerator m0 = f64_zero
            /\ sw_mse_denominator m0 = f64_zero).
  { rewrite <- E0. cbn [sw_first_value sw_length sw_start_time sw_error_bound sw_mse_numerator
      sw_mse_denominator swing_new]. repeat split; reflexivity. }
  clear E0. destruct Hm0 as (F1 & F2 & F3 & F4 & F5 & F6).
  assert (Ht : forall t v, In (t, v) pts -> t0 < t /\ is_i64 (t - t0)).
  { intros t v Hin. destruct Hts as (_ & _ & Hs & _). cbn [map fst] in Hs.
    apply StronglySorted_inv in Hs. destruct Hs as [_ Hs]. rewrite Forall_forall in Hs.
    split.
    - apply Hs. change t with (fst (t, v)). now apply in_map.
    - apply (Hi t v t0 v0); [now right|now left]. }
  assert (Hend : t0 < sw_end_time m /\ is_i64 (sw_end_time m - t0)).
  { rewrite T3. replace (last (map fst ((t0, v0) :: pts)) 0) with (last (map fst pts) 0)
      by (rewrite Epts; reflexivity).
    assert (Hin : In (last (map fst pts) 0) (map fst pts)).
    { rewrite Epts. clear. revert t1 v1.
      induction pts0 as [|[t v] l IH]; intros t1 v1; [now left|]. right.
      change (map fst ((t1, v1) :: (t, v) :: l)) with (t1 :: map fst ((t, v) :: l)).
      exact (IH t v). }
    apply in_map_iff in Hin. destruct Hin as ([t v] & Et & Hin). cbn [fst] in Et. rewrite <- Et.
    exact (Ht t v Hin). }
  destruct Hend as [Hend1 Hend2].
  pose proof (duration_positive t0 (sw_end_time m) Hend1 Hend2) as Hd.
  assert (Hne : pts <> []) by (rewrite Epts; discriminate).
  cbn [map snd] in Hnan. apply Forall_cons_iff in Hnan. destruct Hnan as [Hn0 _].
  unfold swing_model. cbn [snd]. apply to_f32_no_nan.
  unfold swing_line. cbn [snd num_add num_mul num_max num_min num_div f64_num]. rewrite T1, T2.
  destruct (finite_or_not v0) as [Hf0|[Hi0|Hn]]; [| |congruence].
  - destruct (f64_of_f32_finite v0 Hf0) as [Hf64 _].
    destruct (finite_run eb t0 pts m0 m He Ht) as [[S1 S2 S3 S4 S5] Hl]; auto.
    { constructor; auto; try lia. rewrite F1. exact Hf64. }
    specialize (Hl Hne). destruct S5 as [S5|[_ S5]]; [lia|].
    apply add_no_nan_r; [|exact Hf64]. apply mul_no_nan; [|exact Hd]. now apply max_no_nan.
  - destruct (infinite_shape v0 Hi0) as [s Es].
    assert (Hss : special_state P eb (Some s) t0 m0).
    { constructor; auto; try lia. rewrite F1, Es. reflexivity. }
    destruct (special_run P eb (Some s) t0 pts m0 m Hss Hfit) as (_ & [_ _ _ _ N1 N2 N3] & Hl).
    destruct (Hl Hne) as [_ Hl2]. destruct N3 as [N3|[N3 N4]]; [lia|]. cbn [special64] in *.
    rewrite N1, N2, N3, N4, Es.
    set (y := f64_min P (f64_div f64_zero f64_zero) (B754_infinity 53 1024 s)).
    assert (Ey : y = B754_infinity 53 1024 s) by reflexivity.
    rewrite Ey.
    assert (Em : f64_max P (B754_infinity 53 1024 s) (B754_infinity 53 1024 s) = B754_infinity 53 1024 s).
    { unfold f64_max. cbn [f64_is_nan is_nan].
      destruct (b64_compare _ _) as [[]|]; try reflexivity; destruct (max64_takes_first P _ _); reflexivity. }
    rewrite Em. destruct Hd as (dm & de & dH & ->).
    destruct s; reflexivity.
Qed.
End Line.
