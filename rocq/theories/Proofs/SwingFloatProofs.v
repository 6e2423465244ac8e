(** Lemmas about linear function models with f64 arithmetic. *)
From Coq Require Import ZArith Reals List Bool Lra Lia Sorting.Sorted.
From Flocq Require Import Core IEEE754.BinarySingleNaN IEEE754.Binary IEEE754.Bits.
From Verif Require Import Model.Base Model.Float Model.ErrorBound Model.Swing
  Spec.ErrorBoundSpec Spec.SwingSpec Spec.TimestampsSpec
  Proofs.FloatProofs Proofs.ErrorBoundProofs Proofs.MaskProofs Proofs.SwingProofs
  Proofs.MacaqueVLossyProofs.
Import ListNotations.
Open Scope R_scope.

Lemma f64_of_Z_correct : forall z, (Z.abs z <= 2 ^ 63)%Z ->
  finite64 (f64_of_Z z) /\ R64 (f64_of_Z z) = rnd64 (IZR z).
Proof.
  intros z Hz. unfold f64_of_Z.
  generalize (binary_normalize_correct 53 1024 eq_refl eq_refl mode_NE z 0 false).
  change (SpecFloat.fexp 53 1024) with fexp64. change (round_mode mode_NE) with ZnearestE.
  replace (F2R {| Fnum := z; Fexp := 0 |}) with (IZR z)
    by (unfold F2R; cbn [Fnum Fexp bpow]; ring).
  fold (rnd64 (IZR z)). rewrite Rlt_bool_true.
  - intros (H1 & H2 & _). split; assumption.
  - apply Rle_lt_trans with (bpow radix2 63); [|now apply bpow_lt].
    apply abs_round_le_generic; try typeclasses eauto.
    + apply generic_format_bpow. unfold FLT_exp. lia.
    + rewrite <- abs_IZR. change (bpow radix2 63) with (IZR (2 ^ 63)). now apply IZR_le.
Qed.

Lemma f64_of_Z_pos : forall z, (0 < z <= 2 ^ 63)%Z ->
  exists m e H, f64_of_Z z = B754_finite 53 1024 false m e H.
Proof.
  intros z Hz. destruct (f64_of_Z_correct z ltac:(lia)) as [Hf Hr].
  assert (Hp : 0 < R64 (f64_of_Z z)).
  { rewrite Hr. apply Rlt_le_trans with 1; [lra|].
    replace 1 with (rnd64 1).
    - apply rnd64_le. apply IZR_le. lia.
    - apply round_generic; [typeclasses eauto|].
      change 1 with (bpow radix2 0). apply generic_format_bpow. unfold FLT_exp. lia. }
  destruct (f64_of_Z z) as [s|s|s pl Hpl|s m e H]; try discriminate.
  - change (R64 _) with 0 in Hp. lra.
  - destruct s; [|eauto]. exfalso.
    assert (R64 (B754_finite 53 1024 true m e H) < 0) by (apply F2R_lt_0; reflexivity). lra.
Qed.

(** ** Values that are not finite *)
(** [x] is the infinity with sign [s] if [k = Some s], NaN if [k = None]. *)
Definition special64 (k : option bool) (x : f64) : Prop :=
  match k with Some s => x = B754_infinity 53 1024 s | None => f64_is_nan x = true end.
Definition special32 (k : option bool) (x : f32) : Prop :=
  match k with Some s => x = B754_infinity 24 128 s | None => f32_is_nan x = true end.

Lemma special_of_f32 : forall k x, special32 k x -> special64 k (f64_of_f32 x).
Proof.
  intros [s|] x H; cbn [special32 special64] in *.
  - now subst.
  - now rewrite f64_of_f32_nan.
Qed.
Lemma special_to_f32 : forall k x, special64 k x -> special32 k (f32_of_f64 x).
Proof.
  intros [s|] x H; cbn [special32 special64] in *.
  - now subst.
  - destruct x; try discriminate. reflexivity.
Qed.
Lemma not_finite_special : forall x, ~ finite32 x -> exists k, special32 k x.
Proof.
  intros x H. destruct (finite_or_not x) as [Hx|[Hx|Hx]]; [contradiction| |].
  - destruct (infinite_shape x Hx) as [s ->]. now exists (Some s).
  - now exists None.
Qed.
Lemma special_same : forall k x y, special32 k x -> special32 k y -> same_number x y.
Proof.
  intros [s|] x y Hx Hy; cbn [special32] in *.
  - subst. right. left. now split.
  - right. right. now split.
Qed.
Lemma same_special : forall k x y, special32 k x -> same_number x y -> special32 k y.
Proof.
  intros [s|] x y Hx [(H & _)|[[H H2]|[H H2]]]; cbn [special32] in *; try congruence.
  - subst. discriminate.
  - subst. discriminate.
  - now destruct x.
Qed.
Lemma special64_not_finite : forall k x, special64 k x -> f64_is_finite x = false.
Proof. intros [s|] x H; cbn [special64] in H; [now subst | now destruct x]. Qed.

Lemma eqn_special : forall k x y, special64 k x -> special64 k y -> equal_or_nan x y = true.
Proof.
  intros [s|] x y Hx Hy; cbn [special64] in *; unfold equal_or_nan.
  - subst. destruct s; reflexivity.
  - rewrite Hx, Hy. now rewrite orb_true_r.
Qed.

Section NotFinite.
Context (P : platform).
Notation N := (f64_num P).

Lemma special_mul : forall k x z, special64 k x -> (0 < z <= 2 ^ 63)%Z ->
  special64 k (f64_mul x (f64_of_Z z)).
Proof.
  intros k x z Hx Hz. destruct (f64_of_Z_pos z Hz) as (m & e & H & ->).
  destruct k as [s|]; cbn [special64] in *.
  - subst. destruct s; reflexivity.
  - destruct x; try discriminate. reflexivity.
Qed.

Lemma special_add : forall k x y, special64 k x -> special64 k y -> special64 k (f64_add x y).
Proof.
  intros [s|] x y Hx Hy; cbn [special64] in *.
  - subst. destruct s; reflexivity.
  - destruct x; try discriminate. reflexivity.
Qed.

Lemma zero_add_special : forall k x z, (Z.abs z <= 2 ^ 63)%Z -> special64 k x ->
  special64 k (f64_add (f64_mul (f64_of_Z 0) (f64_of_Z z)) x).
Proof.
  intros k x z Hz Hx. destruct (f64_of_Z_correct z Hz) as [Hf _].
  change (f64_of_Z 0) with f64_zero.
  assert (Hm : exists s, f64_mul f64_zero (f64_of_Z z) = B754_zero 53 1024 s).
  { destruct (f64_of_Z z); try discriminate; eexists; reflexivity. }
  destruct Hm as [s ->].
  destruct k as [s'|]; cbn [special64] in *.
  - subst. reflexivity.
  - destruct x; try discriminate. reflexivity.
Qed.

(** The state after values of the same kind. *)
Record special_state (eb : error_bound) (k : option bool) (t0 : Z) (m : swing N) : Prop := {
  ss_eb : sw_error_bound m = eb;
  ss_start : sw_start_time m = t0;
  ss_first : special64 k (sw_first_value m);
  ss_length : (1 <= sw_length m)%nat;
  ss_num : sw_mse_numerator m = f64_zero;
  ss_den : sw_mse_denominator m = f64_zero;
  ss_upper : sw_length m = 1%nat \/ special64 k (sw_upper_slope m) /\ special64 k (sw_lower_slope m)
}.

Lemma special_step : forall eb k t0 m t v m',
  special_state eb k t0 m -> swing_fit_data_point P m t v = (true, m') ->
  special32 k v /\ special_state eb k t0 m' /\ sw_end_time m' = t /\ (2 <= sw_length m')%nat.
Proof.
  intros eb k t0 m t v m' [Heb Hstart Hfirst Hlen Hnum Hden Hupper] H.
  unfold swing_fit_data_point, swing_fit in H.
  destruct (sw_length m) as [|n] eqn:En; [lia|].
  cbn [Nat.eqb num_is_finite f64_num] in H.
  rewrite (special64_not_finite k _ Hfirst) in H. cbn [negb orb] in H.
  change (num_equal_or_nan N) with equal_or_nan in H.
  destruct (equal_or_nan (sw_first_value m) (f64_of_f32 v)) eqn:Ee; [|discriminate].
  assert (Hv : special32 k v).
  { unfold equal_or_nan in Ee. apply orb_true_iff in Ee. destruct k as [s|]; cbn [special64 special32] in *.
    - rewrite Hfirst in Ee. destruct Ee as [Ee|Ee]; [|discriminate].
      destruct (finite_or_not v) as [Hv|[Hv|Hv]].
      + destruct (f64_of_f32_finite v Hv) as [Hf _]. unfold finite64 in Hf.
        destruct (f64_of_f32 v) as [?|?|? ? ?|? ? ? ?]; try discriminate; destruct s; discriminate.
      + destruct (infinite_shape v Hv) as [s' ->]. destruct s, s'; try discriminate; reflexivity.
      + rewrite <- f64_of_f32_nan in Hv. destruct (f64_of_f32 v); try discriminate.
    - destruct Ee as [Ee|Ee].
      + destruct (sw_first_value m); discriminate.
      + apply andb_true_iff in Ee. now rewrite <- f64_of_f32_nan. }
  split; [exact Hv|].
  apply (f_equal snd) in H. cbn [snd] in H. subst m'.
  pose proof (special_of_f32 k v Hv) as Hv64.
  split; [|split; [reflexivity|cbn [sw_length]; lia]].
  constructor; cbn [sw_error_bound sw_start_time sw_first_value sw_length sw_mse_numerator
    sw_mse_denominator sw_upper_slope sw_lower_slope]; auto; lia.
Qed.

Lemma special_run : forall eb k t0 points m m', special_state eb k t0 m ->
  swing_fit_data_points P m points = Some m' ->
  (forall t v, In (t, v) points -> special32 k v) /\ special_state eb k t0 m'
  /\ (points <> [] -> sw_end_time m' = fst (last points (0%Z, f32_zero)) /\ (2 <= sw_length m')%nat).
Proof.
  intros eb k t0 points. induction points as [|[t v] points IH]; intros m m' Hs H.
  - cbn [swing_fit_data_points] in H.
    assert (m = m') by congruence. subst.
    split; [intros ? ? []|]. split; [exact Hs|congruence].
  - cbn [swing_fit_data_points] in H.
    destruct (swing_fit_data_point P m t v) as [[] m1] eqn:E1; [|discriminate].
    destruct (special_step eb k t0 m t v m1 Hs E1) as (Hv & Hs1 & He1 & Hl1).
    destruct (IH m1 m' Hs1 H) as (Hvs & Hs2 & He2).
    split; [|split; [exact Hs2|]].
    + intros t' v' [[= <- <-]|Hin]; [exact Hv | eauto].
    + intros _. destruct points as [|p points].
      * cbn [swing_fit_data_points] in H. assert (m1 = m') by congruence. subst. now split.
      * destruct (He2 ltac:(discriminate)) as [He3 Hl3]. split; [|exact Hl3]. rewrite He3. reflexivity.
Qed.

(** A finite first value rules out values that are not finite. *)
Lemma finite_first_step : forall (m : swing N) t v m',
  f64_is_finite (sw_first_value m) = true -> (1 <= sw_length m)%nat ->
  swing_fit_data_point P m t v = (true, m') ->
  finite32 v /\ f64_is_finite (sw_first_value m') = true /\ (1 <= sw_length m')%nat.
Proof.
  intros m t v m' Hf Hlen H. unfold swing_fit_data_point, swing_fit in H.
  destruct (sw_length m) as [|n] eqn:En; [lia|]. cbn [Nat.eqb] in H.
  cbn [num_is_finite f64_num] in H. rewrite Hf in H. cbn [negb orb] in H.
  assert (Hv : f64_is_finite (f64_of_f32 v) = true).
  { destruct (f64_is_finite (f64_of_f32 v)) eqn:Ev; [reflexivity|]. exfalso. cbn [negb] in H.
    change (num_equal_or_nan N) with equal_or_nan in H.
    destruct (equal_or_nan (sw_first_value m) (f64_of_f32 v)) eqn:Ee; [|discriminate].
    clear H. unfold equal_or_nan in Ee.
    destruct (sw_first_value m) as [?|?|? ? ?|? ? ? ?]; try discriminate;
      destruct (f64_of_f32 v) as [s1|s1|? ? ?|s1 ? ? ?]; try discriminate;
      destruct s1; discriminate. }
  assert (Hv32 : finite32 v).
  { unfold finite32. destruct v; try discriminate; reflexivity. }
  split; [exact Hv32|].
  rewrite Hv in H. cbn [negb] in H.
  destruct (Nat.eqb n 0).
  - apply (f_equal snd) in H. cbn [snd] in H. subst m'. cbn [sw_first_value sw_length]. split; [exact Hf|lia].
  - match type of H with (if ?c then _ else _) = _ => destruct c; [discriminate|] end.
    apply (f_equal snd) in H. cbn [snd] in H. subst m'. cbn [sw_first_value sw_length]. split; [exact Hf|lia].
Qed.

Lemma finite_first_run : forall points (m m' : swing N),
  f64_is_finite (sw_first_value m) = true -> (1 <= sw_length m)%nat ->
  swing_fit_data_points P m points = Some m' ->
  forall t v, In (t, v) points -> finite32 v.
Proof.
  induction points as [|[t v] points IH]; intros m m' Hf Hl H t' v' Hin; [destruct Hin|].
  cbn [swing_fit_data_points] in H.
  destruct (swing_fit_data_point P m t v) as [[] m1] eqn:E1; [|discriminate].
  destruct (finite_first_step m t v m1 Hf Hl E1) as (Hv & Hf1 & Hl1).
  destruct Hin as [[= <- <-]|Hin]; [exact Hv|]. exact (IH m1 m' Hf1 Hl1 H t' v' Hin).
Qed.

Lemma swing_special : forall eb points m t v, (2 <= length points)%nat ->
  valid_timestamps (map fst points) ->
  (forall t v t' v', In (t, v) points -> In (t', v') points -> is_i64 (t - t')) ->
  swing_fit_data_points P (swing_new N eb) points = Some m ->
  In (t, v) points -> ~ finite32 v ->
  forall t' v', In (t', v') points ->
  Forall (same_number v') (swing_grid P (sw_start_time m) (sw_end_time m)
                             (fst (swing_model P m)) (snd (swing_model P m)) [t']).
Proof.
  intros eb points m t v Hlen Hts Hi H Hin Hv t' v' Hin'.
  destruct points as [|[t0 v0] points]; [cbn in Hlen; lia|].
  cbn [swing_fit_data_points] in H.
  destruct (swing_fit_data_point P (swing_new N eb) t0 v0) as [ok m0] eqn:E0.
  unfold swing_fit_data_point, swing_fit in E0. unfold swing_new in E0 at 1. cbn [sw_length Nat.eqb] in E0.
  assert (Hok : ok = true) by (apply (f_equal fst) in E0; cbn [fst] in E0; congruence).
  apply (f_equal snd) in E0. cbn [snd] in E0. subst ok.
  assert (Hm0 : sw_first_value m0 = f64_of_f32 v0 /\ sw_length m0 = 1%nat /\ sw_start_time m0 = t0
            /\ sw_error_bound m0 = eb /\ sw_mse_numerator m0 = f64_zero
            /\ sw_mse_denominator m0 = f64_zero).
  { rewrite <- E0. cbn [sw_first_value sw_length sw_start_time sw_error_bound sw_mse_numerator
      sw_mse_denominator swing_new]. repeat split; reflexivity. }
  clear E0. destruct Hm0 as (F1 & F2 & F3 & F4 & F5 & F6).
  destruct (finite_or_not v0) as [Hf0|Hnf0].
  { exfalso. apply Hv. destruct Hin as [[= <- <-]|Hin]; [exact Hf0|].
    apply (finite_first_run points m0 m) with t; auto.
    - rewrite F1. apply (f64_of_f32_finite v0 Hf0).
    - rewrite F2. lia. }
  assert (Hk : exists k, special32 k v0).
  { apply not_finite_special. intros Hf. destruct Hnf0 as [Hn|Hn].
    - now apply infinite_not_finite in Hn.
    - now apply nan_not_finite in Hn. }
  destruct Hk as [k Hk].
  assert (Hs0 : special_state eb k t0 m0).
  { constructor; auto; [rewrite F1; now apply special_of_f32 | rewrite F2; lia]. }
  destruct (special_run eb k t0 points m0 m Hs0 H) as (Hvs & Hs & He).
  destruct points as [|p points']; [cbn in Hlen; lia|].
  destruct (He ltac:(discriminate)) as [He1 Hl]. clear He.
  assert (Hlast : In (last (p :: points') (0%Z, f32_zero)) (p :: points')).
  { destruct (exists_last (l := p :: points') ltac:(discriminate)) as (l & x & ->).
    rewrite last_snoc. apply in_app_iff. right. now left. }
  remember (p :: points') as rest eqn:Erest.
  destruct (last rest (0%Z, f32_zero)) as [te ve] eqn:Ete. cbn [fst] in He1.
  destruct Hts as (_ & Hi64 & Hsorted & _). cbn [map fst] in Hi64, Hsorted.
  assert (Hd : (t0 < te)%Z /\ is_i64 (te - t0)).
  { split.
    - apply StronglySorted_inv in Hsorted. destruct Hsorted as [_ Hf].
      rewrite Forall_forall in Hf. apply Hf. apply in_map_iff. exists (te, ve). now split.
    - eapply Hi; [right; exact Hlast | left; reflexivity]. }
  destruct Hd as [Hd1 Hd2].
  assert (Hdur : (0 < i64 (te - t0) <= 2 ^ 63)%Z).
  { rewrite i64_id by exact Hd2. unfold is_i64 in Hd2. lia. }
  (* The line. *)
  unfold swing_grid, swing_model, swing_line. cbn [map fst snd].
  destruct Hs as [_ Hstart Hfirst _ Hnum Hden [Hl1|[HU HL]]]; [lia|].
  rewrite Hstart, He1, Hnum, Hden.
  assert (Hproj : num_div N f64_zero f64_zero = f64_nan) by reflexivity.
  rewrite Hproj.
  assert (Hmin : num_min N f64_nan (sw_upper_slope m) = sw_upper_slope m) by reflexivity.
  rewrite Hmin.
  assert (Hmax : special64 k (num_max N (sw_lower_slope m) (sw_upper_slope m))).
  { cbn [num_max f64_num]. unfold f64_max.
    destruct (f64_is_nan (sw_lower_slope m)); [exact HU|].
    destruct (f64_is_nan (sw_upper_slope m)); [exact HL|].
    destruct (b64_compare _ _) as [[]|]; try assumption; destruct (max64_takes_first P _ _); assumption. }
  set (slope := num_max N (sw_lower_slope m) (sw_upper_slope m)) in *.
  set (last_value := num_add N _ _).
  assert (Hlv : special64 k last_value).
  { unfold last_value. apply special_add; [|exact Hfirst]. apply special_mul; assumption. }
  clearbody last_value.
  constructor; [|constructor].
  apply (special_same k).
  { destruct Hin' as [[= <- <-]|Hin']; [exact Hk|]. apply (Hvs t' v'). exact Hin'. }
  apply special_to_f32. unfold swing_value, compute_slope_and_intercept.
  pose proof (special_of_f32 _ _ (special_to_f32 _ _ Hfirst)) as Hfirst'.
  pose proof (special_of_f32 _ _ (special_to_f32 _ _ Hlv)) as Hlv'.
  change (num_equal_or_nan N) with equal_or_nan.
  rewrite (eqn_special k _ _ Hfirst' Hlv'). cbn [fst snd].
  apply zero_add_special; [|exact Hfirst'].
  rewrite Forall_forall in Hi64.
  assert (Ht' : is_i64 t').
  { destruct Hin' as [[= <- <-]|Hin']; apply Hi64; [now left|right].
    apply in_map_iff. exists (t', v'). now split. }
  unfold is_i64 in Ht'. lia.
Qed.
End NotFinite.

(** ** Counterexamples *)
Definition lossless_points : list (Z * f32) :=
  combine (map (fun k => 1700000000000000 + 1000000 * k)%Z [0; 1; 2; 3; 4; 5; 6; 7; 8; 9]%Z)
    (map from_bits [3187671040; 813694976; 1040187392; 1048576000; 1052770304; 1056964608;
                    1059061760; 1061158912; 1063256064; 1065353216]%Z).

Definition restored (P : platform) (m : swing (f64_num P)) (t : Z) : f32 :=
  hd f32_zero (swing_grid P (sw_start_time m) (sw_end_time m)
                 (fst (swing_model P m)) (snd (swing_model P m)) [t]).

Lemma restored_grid : forall P m t,
  swing_grid P (sw_start_time m) (sw_end_time m)
    (fst (swing_model P m)) (snd (swing_model P m)) [t] = [restored P m t].
Proof. reflexivity. Qed.

Lemma lossless_computed :
  match swing_fit_data_points exact_platform (swing_new (f64_num exact_platform) Lossless)
          lossless_points with
  | Some m => (to_bits (restored exact_platform m 1700000001000000) =? 0)%Z
  | None => false
  end = true.
Proof. vm_compute. reflexivity. Qed.

Definition absolute_points : list (Z * f32) :=
  combine [0; 1; 2; 3; 4; 5; 6; 7]%Z
    (map from_bits [1224736768; 1224736767; 1224736767; 1224736768; 1224736769; 1224736767;
                    1224736769; 1224736768]%Z).

Lemma absolute_computed :
  match swing_fit_data_points exact_platform
          (swing_new (f64_num exact_platform) (Absolute (from_bits 1031798784))) absolute_points with
  | Some m => (to_bits (restored exact_platform m 5) =? 1224736769)%Z
  | None => false
  end = true.
Proof. vm_compute. reflexivity. Qed.

Lemma swing_lossless_wrong : exists P points m t v,
  (8 <= length points)%nat /\ valid_timestamps (map fst points)
  /\ Forall (fun p => finite32 (snd p)) points
  /\ swing_fit_data_points P (swing_new (f64_num P) Lossless) points = Some m
  /\ In (t, v) points
  /\ ~ Forall (same_number v) (swing_grid P (sw_start_time m) (sw_end_time m)
                                 (fst (swing_model P m)) (snd (swing_model P m)) [t]).
Proof.
  exists exact_platform, lossless_points.
  pose proof lossless_computed as H.
  destruct (swing_fit_data_points exact_platform (swing_new (f64_num exact_platform) Lossless)
              lossless_points) as [m|]; [|discriminate].
  exists m, 1700000001000000%Z, (from_bits 813694976).
  split; [vm_compute; lia|]. split.
  { split; [discriminate|]. unfold lossless_points. cbn [map combine fst length].
    split; [|split].
    - repeat constructor; unfold is_i64; lia.
    - unfold strictly_increasing.
      repeat (apply SSorted_cons; [|repeat (apply Forall_cons; [lia|]); apply Forall_nil]).
      apply SSorted_nil.
    - lia. }
  split.
  { unfold lossless_points. cbn [map combine].
    repeat (apply Forall_cons; [vm_compute; reflexivity|]). apply Forall_nil. }
  split; [reflexivity|]. split; [right; left; reflexivity|].
  rewrite restored_grid. intros Hsame. inversion Hsame as [|? ? Hs _]; subst. clear Hsame.
  apply Z.eqb_eq in H. 
  assert (Hr : restored exact_platform m 1700000001000000 = from_bits 0).
  { rewrite <- H. symmetry. apply MacaqueVProofs.from_to_bits. }
  rewrite Hr in Hs. apply equal_or_nan_iff in Hs.
  assert (Hc : equal_or_nan (f64_of_f32 (from_bits 813694976)) (f64_of_f32 (from_bits 0)) = false)
    by (vm_compute; reflexivity).
  congruence.
Qed.

Lemma swing_absolute_wrong : exists P eb points m t v,
  valid_error_bound eb
  /\ (8 <= length points)%nat /\ valid_timestamps (map fst points)
  /\ Forall (fun p => finite32 (snd p)) points
  /\ swing_fit_data_points P (swing_new (f64_num P) eb) points = Some m
  /\ In (t, v) points
  /\ ~ Forall (within_bound (49 / 100) eb v) (swing_grid P (sw_start_time m) (sw_end_time m)
                                 (fst (swing_model P m)) (snd (swing_model P m)) [t]).
Proof.
  exists exact_platform, (Absolute (from_bits 1031798784)), absolute_points.
  pose proof absolute_computed as H.
  destruct (swing_fit_data_points exact_platform
              (swing_new (f64_num exact_platform) (Absolute (from_bits 1031798784)))
              absolute_points) as [m|]; [|discriminate].
  exists m, 5%Z, (from_bits 1224736767).
  assert (Hb : forall z s E M, z = bits_from s E M -> (0 <= M < 2 ^ 23)%Z -> (0 <= E < 255)%Z ->
            finite32 (from_bits z) /\ R32 (from_bits z) = signed s (magnitude E M)).
  { intros z s E0 M -> HM HE. now apply from_bits_R. }
  destruct (Hb 1031798784%Z false 123%Z 0%Z eq_refl ltac:(lia) ltac:(lia)) as [He1 He2].
  destruct (Hb 1224736767%Z false 145%Z 8388607%Z eq_refl ltac:(lia) ltac:(lia)) as [Hv1 Hv2].
  destruct (Hb 1224736769%Z false 146%Z 1%Z eq_refl ltac:(lia) ltac:(lia)) as [Hw1 Hw2].
  unfold signed, magnitude in He2, Hv2, Hw2. cbn [Z.eqb] in He2, Hv2, Hw2.
  unfold F2R in He2, Hv2, Hw2. cbn [Fnum Fexp] in He2, Hv2, Hw2.
  change (0 + 2 ^ 23)%Z with 8388608%Z in He2. change (bpow radix2 (123 - 150)) with (/ 134217728) in He2.
  change (8388607 + 2 ^ 23)%Z with 16777215%Z in Hv2. change (bpow radix2 (145 - 150)) with (/ 32) in Hv2.
  change (1 + 2 ^ 23)%Z with 8388609%Z in Hw2. change (bpow radix2 (146 - 150)) with (/ 16) in Hw2.
  split; [split; [exact He1|rewrite He2; lra]|].
  split; [vm_compute; lia|]. split.
  { split; [discriminate|]. unfold absolute_points. cbn [map combine fst length].
    split; [|split].
    - repeat constructor; unfold is_i64; lia.
    - unfold strictly_increasing.
      repeat (apply SSorted_cons; [|repeat (apply Forall_cons; [lia|]); apply Forall_nil]).
      apply SSorted_nil.
    - lia. }
  split.
  { unfold absolute_points. cbn [map combine].
    repeat (apply Forall_cons; [vm_compute; reflexivity|]). apply Forall_nil. }
  split; [reflexivity|]. split; [do 5 right; left; reflexivity|].
  rewrite restored_grid. intros Hsame. inversion Hsame as [|? ? Hs _]; subst. clear Hsame.
  apply Z.eqb_eq in H.
  assert (Hr : restored exact_platform m 5 = from_bits 1224736769).
  { rewrite <- H. symmetry. apply MacaqueVProofs.from_to_bits. }
  rewrite Hr in Hs.
  destruct Hs as [[(_ & _ & Hs)|[[_ Hs]|[Hs _]]]|(_ & _ & Hs)].
  - lra.
  - now apply infinite_not_finite in Hs.
  - now apply nan_not_finite in Hs.
  - rewrite He2, Hv2, Hw2 in Hs. rewrite Rabs_minus_sym, Rabs_pos_eq in Hs by lra. lra.
Qed.
