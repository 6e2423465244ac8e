(** Lemmas about linear function models. *)
From Coq Require Import ZArith Reals List Bool Lra Lia Sorting.Sorted.
From Verif Require Import Model.Base Model.Float Model.ErrorBound Model.Swing
  Spec.ErrorBoundSpec Spec.SwingSpec Spec.TimestampsSpec.
Import ListNotations.
Open Scope R_scope.

Notation E := exact_num.

Lemma exact_deviation_pos : forall eb v, valid_error_bound eb -> 0 <= exact_deviation eb v.
Proof.
  intros [e|e|] v H; cbn [exact_deviation].
  - destruct H. lra.
  - apply Rabs_pos.
  - lra.
Qed.

Lemma i64_id : forall z, is_i64 z -> i64 z = z.
Proof.
  intros z H. unfold i64, is_i64 in *. rewrite Z.mod_small by lia. lia.
Qed.

Lemma exact_slope : forall t0 t v w, (t0 < t)%Z -> is_i64 (t - t0) ->
  compute_slope_and_intercept E t0 (Some v) t (Some w) =
    (Some ((w - v) / IZR (t - t0)), Some (v - (w - v) / IZR (t - t0) * IZR t0)).
Proof.
  intros t0 t v w Ht Hi. unfold compute_slope_and_intercept, num_equal_or_nan.
  cbn [num_eq num_is_nan exact_num exact_eq exact_is_nan andb orb].
  destruct (Req_EM_T v w) as [->|Hne]; cbn [orb].
  - cbn [num_of_Z exact_num]. replace ((w - w) / IZR (t - t0)) with 0.
    + f_equal. f_equal. ring.
    + unfold Rdiv. rewrite Rminus_diag_eq by reflexivity. ring.
  - unfold duration. rewrite i64_id by exact Hi.
    cbn [num_div num_sub num_mul num_of_Z exact_num lift2 exact_div].
    destruct (Req_EM_T (IZR (t - t0)) 0) as [H0|H0].
    + apply eq_IZR_R0 in H0. lia.
    + reflexivity.
Qed.

Definition spans (t0 : Z) (points : list (Z * option R)) : Prop :=
  forall p, In p points -> (t0 < fst p)%Z /\ is_i64 (fst p - t0).

(** What is known after at least two data points: both lines satisfy all constraints. *)
Record swing_inv (eb : error_bound) (t0 : Z) (v0 : R) (points : list (Z * R)) (m : swing E) : Prop := {
  inv_eb : sw_error_bound m = eb;
  inv_start : sw_start_time m = t0;
  inv_first : sw_first_value m = Some v0;
  inv_length : sw_length m = S (length points);
  inv_nonempty : points <> [];
  inv_end : sw_end_time m = fst (last points (t0, v0));
  inv_before : forall t v, In (t, v) points ->
    (t0 < t <= sw_end_time m)%Z /\ is_i64 (t - t0);
  inv_lines : exists U L, sw_upper_slope m = Some U /\ sw_lower_slope m = Some L
    /\ sw_upper_intercept m = Some (v0 - U * IZR t0) /\ sw_lower_intercept m = Some (v0 - L * IZR t0)
    /\ L <= U
    /\ forall t v, In (t, v) points ->
         v0 + U * (IZR t - IZR t0) <= v + exact_deviation eb v
         /\ v - exact_deviation eb v <= v0 + L * (IZR t - IZR t0)
}.

Lemma IZR_duration : forall t0 t, (t0 < t)%Z -> 0 < IZR (t - t0) /\ IZR (t - t0) = IZR t - IZR t0.
Proof. intros t0 t H. rewrite minus_IZR. apply IZR_lt in H. lra. Qed.

Lemma slope_times : forall w v D, 0 < D -> (w - v) / D * D = w - v.
Proof. intros. field. lra. Qed.

Lemma last_snoc : forall A (l : list A) x d, last (l ++ [x]) d = x.
Proof. intros. apply last_last. Qed.

(** The second data point. *)
Lemma swing_second : forall eb t0 v0 t v m0 m,
  valid_error_bound eb -> (t0 < t)%Z -> is_i64 (t - t0) ->
  swing_fit E (swing_new E eb) t0 (Some v0) = (true, m0) ->
  swing_fit E m0 t (Some v) = (true, m) ->
  swing_inv eb t0 v0 [(t, v)] m.
Proof.
  intros eb t0 v0 t v m0 m Heb Ht Hi H0 H1.
  unfold swing_fit, swing_new in H0.
  cbn [sw_length Nat.eqb sw_error_bound sw_upper_slope sw_upper_intercept sw_lower_slope
       sw_lower_intercept sw_mse_numerator sw_mse_denominator] in H0.
  apply (f_equal snd) in H0. cbn [snd] in H0. subst m0.
  unfold swing_fit in H1.
  cbn [sw_length Nat.eqb sw_error_bound sw_first_value sw_start_time
       num_is_finite exact_num exact_is_nan negb orb] in H1.
  cbn [num_deviation num_add num_sub exact_num option_map lift2] in H1.
  rewrite !exact_slope in H1 by assumption. cbn [fst snd] in H1.
  apply (f_equal snd) in H1. cbn [snd] in H1. subst m.
  pose proof (exact_deviation_pos eb v Heb) as Hd.
  destruct (IZR_duration t0 t Ht) as [HD HD2].
  constructor; cbn [sw_error_bound sw_start_time sw_first_value sw_length sw_end_time length last
    sw_upper_slope sw_lower_slope sw_upper_intercept sw_lower_intercept fst]; auto.
  - discriminate.
  - intros t' v' [[= <- <-]|[]]. split; [lia | exact Hi].
  - eexists _, _. repeat split; try reflexivity.
    + unfold Rdiv. apply Rmult_le_compat_r; [|lra]. left. now apply Rinv_0_lt_compat.
    + destruct H as [[= <- <-]|[]]. rewrite <- HD2, slope_times by exact HD. lra.
    + destruct H as [[= <- <-]|[]]. rewrite <- HD2, slope_times by exact HD. lra.
Qed.

(** Every further data point. *)
Lemma swing_step : forall eb t0 v0 points m t v m',
  valid_error_bound eb -> swing_inv eb t0 v0 points m ->
  (sw_end_time m < t)%Z -> is_i64 (t - t0) ->
  swing_fit E m t (Some v) = (true, m') ->
  swing_inv eb t0 v0 (points ++ [(t, v)]) m'.
Proof.
  intros eb t0 v0 points m t v m' Heb [Ieb Istart Ifirst Ilen Ine Iend Ibefore Ilines] Ht Hi H.
  destruct Ilines as (U & L & HU & HL & HUi & HLi & HLU & Hpts).
  assert (Ht0 : (t0 < t)%Z).
  { destruct points as [|[t1 v1] points]; [congruence|].
    destruct (Ibefore t1 v1 (or_introl eq_refl)). lia. }
  pose proof (exact_deviation_pos eb v Heb) as Hd.
  set (d := exact_deviation eb v) in *.
  destruct (IZR_duration t0 t Ht0) as [HD HD2].
  unfold swing_fit in H. rewrite Ilen, Ifirst, Istart, Ieb, HU, HL, HUi, HLi in H.
  destruct points as [|p0 points]; [congruence|].
  cbn [length Nat.eqb num_is_finite exact_num exact_is_nan negb orb] in H.
  cbn [num_deviation num_add num_sub num_mul num_of_Z num_lt exact_num option_map lift2 exact_lt] in H.
  change (exact_deviation eb v) with d in H.
  replace (U * IZR t + (v0 - U * IZR t0)) with (v0 + U * IZR (t - t0)) in H by (rewrite HD2; ring).
  replace (L * IZR t + (v0 - L * IZR t0)) with (v0 + L * IZR (t - t0)) in H by (rewrite HD2; ring).
  set (D := IZR (t - t0)) in *.
  destruct (Rlt_dec (v0 + U * D + d) v) as [|C1]; [discriminate|].
  destruct (Rlt_dec v (v0 + L * D - d)) as [|C2]; [discriminate|].
  cbn [orb] in H.
  rewrite !exact_slope in H by assumption. fold D in H.
  (* The new slopes. *)
  set (U' := if Rlt_dec v (v0 + U * D - d) then (v + d - v0) / D else U).
  set (L' := if Rlt_dec (v0 + L * D + d) v then (v - d - v0) / D else L).
  assert (Hm : exists nu de, m' = Swing E eb t0 t (Some v0) (Some U') (Some (v0 - U' * IZR t0))
                 (Some L') (Some (v0 - L' * IZR t0)) nu de (S (S (length (p0 :: points))))).
  { apply (f_equal snd) in H. cbn [snd] in H. subst m'. unfold U', L'.
    destruct (Rlt_dec v (v0 + U * D - d)); destruct (Rlt_dec (v0 + L * D + d) v);
      cbn [fst snd]; eexists _, _; reflexivity. }
  clear H. destruct Hm as (nu & de & ->).
  (* Products with the duration. *)
  assert (EU : forall w, (w - v0) / D * D = w - v0) by (intros; apply slope_times; exact HD).
  assert (HU2 : U' * D <= U * D /\ U' * D <= v + d - v0 /\ v - d - v0 <= U' * D /\ L * D <= U' * D).
  { unfold U'. assert (L * D <= U * D) by (apply Rmult_le_compat_r; lra).
    destruct (Rlt_dec v (v0 + U * D - d)); rewrite ?EU; repeat split; lra. }
  assert (HL2 : L * D <= L' * D /\ v - d - v0 <= L' * D /\ L' * D <= v + d - v0 /\ L' * D <= U' * D).
  { unfold L'. destruct (Rlt_dec (v0 + L * D + d) v); rewrite ?EU; repeat split; lra. }
  assert (Hmono : forall a b, a * D <= b * D -> a <= b).
  { intros a b Hab. apply Rmult_le_reg_r with D; assumption. }
  constructor; cbn [sw_error_bound sw_start_time sw_first_value sw_length sw_end_time
    sw_upper_slope sw_lower_slope sw_upper_intercept sw_lower_intercept]; auto.
  - rewrite app_length. cbn [length]. lia.
  - intros Hn. apply app_eq_nil in Hn. destruct Hn. discriminate.
  - rewrite last_snoc. reflexivity.
  - intros t' v' Hin. apply in_app_iff in Hin. destruct Hin as [Hin|[[= <- <-]|[]]].
    + destruct (Ibefore t' v' Hin). split; [lia | assumption].
    + split; [lia | assumption].
  - exists U', L'. repeat split; auto.
    + apply Hmono. lra.
    + apply in_app_iff in H. destruct H as [Hin|[[= <- <-]|[]]].
      * destruct (Hpts t1 v1 Hin) as [Hp _]. destruct (Ibefore t1 v1 Hin) as [[Hb _] _].
        apply IZR_lt in Hb.
        assert (U' * (IZR t1 - IZR t0) <= U * (IZR t1 - IZR t0)).
        { apply Rmult_le_compat_r; [lra|]. apply Hmono. lra. }
        lra.
      * rewrite <- HD2. fold d. lra.
    + apply in_app_iff in H. destruct H as [Hin|[[= <- <-]|[]]].
      * destruct (Hpts t1 v1 Hin) as [_ Hp]. destruct (Ibefore t1 v1 Hin) as [[Hb _] _].
        apply IZR_lt in Hb.
        assert (L * (IZR t1 - IZR t0) <= L' * (IZR t1 - IZR t0)).
        { apply Rmult_le_compat_r; [lra|]. apply Hmono. lra. }
        lra.
      * rewrite <- HD2. fold d. lra.
Qed.

Definition exact_points (points : list (Z * R)) : list (Z * option R) :=
  map (fun p => (fst p, Some (snd p))) points.

Lemma swing_run : forall eb t0 v0 rest points m m', valid_error_bound eb ->
  swing_inv eb t0 v0 points m ->
  StronglySorted Z.lt (sw_end_time m :: map fst rest) ->
  (forall t v, In (t, v) rest -> is_i64 (t - t0)) ->
  swing_fit_all E m (exact_points rest) = Some m' ->
  swing_inv eb t0 v0 (points ++ rest) m'.
Proof.
  intros eb t0 v0 rest. induction rest as [|[t v] rest IH]; intros points m m' Heb Hinv Hs Hi H.
  - cbn in H. injection H as <-. now rewrite app_nil_r.
  - cbn [exact_points map fst snd swing_fit_all] in H.
    destruct (swing_fit E m t (Some v)) as [[] m1] eqn:E1; [|discriminate].
    inversion Hs as [|? ? Hs' Hf]; subst. cbn [map fst] in Hf. inversion Hf; subst.
    assert (H1 : swing_inv eb t0 v0 (points ++ [(t, v)]) m1).
    { eapply swing_step; eauto. eapply Hi. left. reflexivity. }
    replace (points ++ (t, v) :: rest) with ((points ++ [(t, v)]) ++ rest) by now rewrite <- app_assoc.
    apply (IH _ m1); auto.
    + rewrite (inv_end _ _ _ _ _ H1), last_snoc. exact Hs'.
    + intros t' v' Hin. apply (Hi t' v'). now right.
Qed.

(** The slope that is selected is between the slopes of the lines. *)
Lemma clamp : forall L U p, L <= U -> exists s, exact_max (Some L) (exact_min p (Some U)) = Some s
  /\ L <= s <= U.
Proof.
  intros L U [p|] H; cbn [exact_min exact_max].
  - eexists. split; [reflexivity|]. unfold Rmax, Rmin.
    destruct (Rle_dec p U); destruct (Rle_dec L _); lra.
  - eexists. split; [reflexivity|]. unfold Rmax. destruct (Rle_dec L U); lra.
Qed.

Lemma swing_inv_within : forall eb t0 v0 points m, valid_error_bound eb -> swing_inv eb t0 v0 points m ->
  forall t v, In (t, v) ((t0, v0) :: points) ->
  exists w, line_value E m t = Some w /\ Rabs (v - w) <= exact_deviation eb v.
Proof.
  intros eb t0 v0 points m Heb [Ieb Istart Ifirst Ilen Ine Iend Ibefore Ilines] t v Hin.
  destruct Ilines as (U & L & HU & HL & HUi & HLi & HLU & Hpts).
  assert (Hend : (t0 < sw_end_time m)%Z /\ is_i64 (sw_end_time m - t0)).
  { destruct (exists_last Ine) as (l & [t1 v1] & ->).
    rewrite last_snoc in Iend. cbn [fst] in Iend.
    destruct (Ibefore t1 v1) as [Hb Hb2]. { apply in_app_iff. right. now left. }
    rewrite Iend in *. split; [lia | assumption]. }
  destruct Hend as [He1 He2].
  destruct (IZR_duration _ _ He1) as [HD HD2].
  unfold line_value, swing_line. cbn [fst snd].
  rewrite HU, HL, Ifirst, Istart.
  set (p := num_div E (sw_mse_numerator m) (sw_mse_denominator m)).
  destruct (clamp L U p HLU) as (s & Hs & HLs).
  change (num_max E (Some L) (num_min E p (Some U))) with (exact_max (Some L) (exact_min p (Some U))).
  rewrite Hs. unfold duration. rewrite i64_id by exact He2.
  cbn [num_add num_mul num_of_Z exact_num lift2].
  unfold swing_value. rewrite exact_slope by assumption.
  cbn [fst snd num_add num_mul num_of_Z exact_num lift2].
  set (D := IZR (sw_end_time m - t0)) in *.
  replace ((s * D + v0 - v0) / D) with s by (field; lra).
  eexists. split; [reflexivity|].
  pose proof (exact_deviation_pos eb v Heb) as Hd.
  destruct Hin as [[= <- <-]|Hin].
  - replace (v0 - (s * IZR t0 + (v0 - s * IZR t0))) with 0 by ring. rewrite Rabs_R0. exact Hd.
  - destruct (Hpts t v Hin) as [P1 P2]. destruct (Ibefore t v Hin) as [[Hb _] _]. apply IZR_lt in Hb.
    assert (s * (IZR t - IZR t0) <= U * (IZR t - IZR t0)) by (apply Rmult_le_compat_r; lra).
    assert (L * (IZR t - IZR t0) <= s * (IZR t - IZR t0)) by (apply Rmult_le_compat_r; lra).
    apply Rabs_le. lra.
Qed.

Lemma swing_exact : forall eb points m, valid_error_bound eb -> (2 <= length points)%nat ->
  StronglySorted Z.lt (map fst points) ->
  (forall t v t' v', In (t, v) points -> In (t', v') points -> is_i64 (t - t')) ->
  swing_fit_all E (swing_new E eb) (exact_points points) = Some m ->
  forall t v, In (t, v) points ->
  exists w, line_value E m t = Some w /\ Rabs (v - w) <= exact_deviation eb v.
Proof.
  intros eb points m Heb Hlen Hs Hi H.
  destruct points as [|[t0 v0] [|[t1 v1] rest]]; cbn [length] in Hlen; try lia.
  cbn [exact_points map fst snd swing_fit_all] in H.
  destruct (swing_fit E (swing_new E eb) t0 (Some v0)) as [[] m0] eqn:E0; [|discriminate].
  destruct (swing_fit E m0 t1 (Some v1)) as [[] m1] eqn:E1; [|discriminate].
  cbn [map fst] in Hs. inversion Hs as [|? ? Hs' Hf]; subst. inversion Hf; subst.
  assert (Hinv : swing_inv eb t0 v0 [(t1, v1)] m1).
  { eapply swing_second; eauto. eapply Hi; [right; left|left]; reflexivity. }
  assert (Hrun : swing_inv eb t0 v0 ([(t1, v1)] ++ rest) m).
  { apply (swing_run eb t0 v0 rest _ m1); auto.
    - rewrite (inv_end _ _ _ _ _ Hinv). cbn [last fst]. exact Hs'.
    - intros t v Hin. eapply Hi; [right; right; exact Hin | left; reflexivity]. }
  exact (swing_inv_within eb t0 v0 _ m Heb Hrun).
Qed.

(** ** The bound with exact arithmetic *)
Lemma exact_deviation_within : forall eb v w, valid_error_bound eb ->
  Rabs (v - w) <= exact_deviation eb v -> exactly_within eb v w.
Proof.
  intros [e|e|] v w Heb H; cbn [exact_deviation exactly_within] in *.
  - destruct Heb. lra.
  - destruct Heb as [_ Heb]. apply Rle_trans with (1 := H).
    rewrite Rabs_mult. rewrite (Rabs_pos_eq (R32 e / (1001 / 10))) by (unfold Rdiv; nra).
    rewrite Rmult_comm. apply Rmult_le_compat_r; [apply Rabs_pos|]. lra.
  - assert (Rabs (v - w) = 0) by (pose proof (Rabs_pos (v - w)); lra).
    destruct (Req_dec (v - w) 0) as [H1|H1]; [lra|]. now apply Rabs_no_R0 in H1.
Qed.

Lemma swing_exact_within : forall eb points m, valid_error_bound eb -> (2 <= length points)%nat ->
  StronglySorted Z.lt (map fst points) ->
  (forall t v t' v', In (t, v) points -> In (t', v') points -> is_i64 (t - t')) ->
  swing_fit_all E (swing_new E eb) (map (fun p => (fst p, Some (snd p))) points) = Some m ->
  forall t v, In (t, v) points ->
  exists w, line_value E m t = Some w /\ exactly_within eb v w.
Proof.
  intros eb points m Heb Hlen Hs Hi H t v Hin.
  destruct (swing_exact eb points m Heb Hlen Hs Hi H t v Hin) as (w & Hw & Hd).
  exists w. split; [exact Hw|]. now apply exact_deviation_within.
Qed.

(** Rejected data points leave no trace. *)
Lemma swing_reject : forall N (m m' : swing N) t v, swing_fit N m t v = (false, m') -> m' = m.
Proof.
  intros N m m' t v. unfold swing_fit.
  repeat match goal with |- (if ?c then _ else _) = _ -> _ => destruct c end; congruence.
Qed.
Lemma swing_offer_fit : forall N offered (m : swing N) points m',
  swing_offer_all N m offered = (points, m') -> swing_fit_all N m points = Some m'.
Proof.
  intros N offered. induction offered as [|[t v] offered IH]; intros m points m' H;
    cbn [swing_offer_all] in H.
  - replace points with (@nil (Z * num_t N)) by congruence. cbn [swing_fit_all]. congruence.
  - destruct (swing_fit N m t v) as [a m1] eqn:E1.
    destruct (swing_offer_all N m1 offered) as [others final] eqn:E2.
    pose proof (IH m1 others final E2) as F. destruct a.
    + replace points with ((t, v) :: others) by congruence. cbn [swing_fit_all]. rewrite E1. congruence.
    + replace points with others by congruence. apply swing_reject in E1. congruence.
Qed.
Lemma swing_exact_offered : forall eb offered points m, valid_error_bound eb ->
  (2 <= length points)%nat -> StronglySorted Z.lt (map fst points) ->
  (forall t v t' v', In (t, v) points -> In (t', v') points -> is_i64 (t - t')) ->
  swing_offer_all E (swing_new E eb) offered = (map (fun p => (fst p, Some (snd p))) points, m) ->
  forall t v, In (t, v) points ->
  exists w, line_value E m t = Some w /\ exactly_within eb v w.
Proof.
  intros eb offered points m Heb Hlen Hs Hi H. apply swing_offer_fit in H.
  now apply swing_exact_within.
Qed.

(** Three data points on a line. *)
Lemma exact_line_accepted :
  let points := [(10, 1); (20, 3); (30, 5)]%Z in
  exists m, swing_offer_all exact_num (swing_new exact_num Lossless)
    (map (fun p => (fst p, Some (IZR (snd p)))) points)
  = (map (fun p => (fst p, Some (IZR (snd p)))) points, m).
Proof.
  cbv zeta. cbn [map fst snd swing_offer_all].
  unfold swing_fit at 1. cbn [swing_new sw_length Nat.eqb].
  unfold swing_fit at 1.
  cbn [sw_length Nat.eqb sw_first_value sw_start_time sw_error_bound num_is_finite exact_num
       exact_is_nan negb orb].
  cbn [num_deviation num_add num_sub exact_num option_map lift2 exact_deviation].
  rewrite !exact_slope by (try lia; unfold is_i64; lia). cbn [fst snd].
  unfold swing_fit.
  cbn [sw_length Nat.eqb sw_first_value sw_start_time sw_error_bound num_is_finite exact_num
       exact_is_nan negb orb sw_upper_slope sw_upper_intercept sw_lower_slope sw_lower_intercept].
  cbn [num_deviation num_add num_sub num_mul num_of_Z num_lt exact_num option_map lift2
       exact_deviation exact_lt].
  change (20 - 10)%Z with 10%Z.
  replace (sw_error_bound (swing_new exact_num Lossless)) with Lossless by reflexivity.
  cbn [exact_deviation].
  destruct (Rlt_dec _ _) as [H|_]; [lra|]. destruct (Rlt_dec _ _) as [H|_]; [lra|].
  cbn [orb]. eauto.
Qed.
