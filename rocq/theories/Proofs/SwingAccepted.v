(** The lines kept by Swing stay within the limits of all accepted data points with f64
    arithmetic, apart from rounding errors. *)
From Coq Require Import ZArith Reals Psatz Lra Bool Lia List Sorting.Sorted.
From Flocq Require Import Core IEEE754.BinarySingleNaN IEEE754.Binary IEEE754.Bits.
From Verif Require Import Model.Base Model.Float Model.ErrorBound Model.Swing
  Spec.ErrorBoundSpec Spec.SwingSpec
  Proofs.FloatProofs Proofs.ErrorBoundProofs Proofs.SwingProofs Proofs.SwingFloatProofs
  Proofs.SwingArithmetic Proofs.SwingRounding Proofs.SwingLimits.
Import ListNotations.
Open Scope R_scope.

(** ** One more data point *)
Section Step.
Context (f delta P Q : R).
Hypothesis Hdelta : 0 < delta.
Hypothesis HP : 0 <= P.
Hypothesis HQ : 0 <= Q.

(** The two lines are within the limits of the data point with the value [v], the deviation [d],
    and a timestamp [x] after the first. *)
Definition point_ok (k Du su Dl sl x v d : R) : Prop :=
  side_ok f P Q k Du su x (v + d) /\ side_ok (- f) P Q k Dl (- sl) x (- (v - d))
  /\ f + sl * x <= v + d + 4 * P + 3 * Q + k * Q.

Lemma share : forall x D a, 0 < x <= D -> 0 <= a -> a * (x / D) <= a.
Proof.
  intros x D a [Hx HD] Ha. rewrite <- (Rmult_1_r a) at 2. apply Rmult_le_compat_l; [exact Ha|].
  apply Rmult_le_reg_r with D; [lra|]. unfold Rdiv. rewrite Rmult_assoc, Rinv_l by lra. lra.
Qed.

Lemma point_step : forall k Du su Dl sl D v d Du' su' Dl' sl', 0 <= k ->
  delta <= Du -> delta <= Dl -> delta <= D - Du -> delta <= D - Dl -> 0 <= d ->
  let eu := P * (delta / Du) + Q / 2 in
  let el := P * (delta / Dl) + Q / 2 in
  v - d - eu <= f + su * D -> f + sl * D <= v + d + el ->
  (su' = su /\ Du' = Du /\ f + su * D <= v + d + eu
   \/ Du' = D /\ v + d - eu <= f + su * D /\ Rabs (su' * D - (v + d - f)) <= Q / 2) ->
  (sl' = sl /\ Dl' = Dl /\ v - d - el <= f + sl * D
   \/ Dl' = D /\ f + sl * D <= v - d + el /\ Rabs (sl' * D - (v - d - f)) <= Q / 2) ->
  (forall x v0 d0, 0 < x <= D -> point_ok k Du su Dl sl x v0 d0 ->
   point_ok (k + 1) Du' su' Dl' sl' x v0 d0)
  /\ point_ok (k + 1) Du' su' Dl' sl' D v d.
Proof.
  intros k Du su Dl sl D v d Du' su' Dl' sl' Hk HDu HDl HuD HlD Hd eu el Hau Hal HU HL.
  assert (HkQ : 0 <= k * Q) by (apply Rmult_le_pos; lra).
  assert (Heu : 0 <= eu /\ P * (delta / Du) <= P).
  { split; [|apply share; lra]. unfold eu.
    assert (0 < delta / Du) by (apply Rdiv_lt_0_compat; lra).
    assert (0 <= P * (delta / Du)) by (apply Rmult_le_pos; lra). lra. }
  assert (Hel : 0 <= el /\ P * (delta / Dl) <= P).
  { split; [|apply share; lra]. unfold el.
    assert (0 < delta / Dl) by (apply Rdiv_lt_0_compat; lra).
    assert (0 <= P * (delta / Dl)) by (apply Rmult_le_pos; lra). lra. }
  destruct Heu as [Heu0 Heu1]. destruct Hel as [Hel0 Hel1].
  split.
  - intros x v0 d0 Hx (H1 & H2 & H3). split; [|split].
    + destruct HU as [(-> & -> & _)|(-> & HU1 & HU2)]; [now apply side_more|].
      apply (side_update f delta P Q Hdelta HP HQ k Du su); auto; try lra.
      apply Rabs_le_inv in HU2. unfold eu in *. lra.
    + destruct HL as [(-> & -> & _)|(-> & HL1 & HL2)]; [now apply side_more|].
      apply (side_update (- f) delta P Q Hdelta HP HQ k Dl (- sl)); auto; try lra.
      apply Rabs_le_inv in HL2. unfold el in *. lra.
    + destruct HL as [(-> & -> & _)|(-> & HL1 & HL2)]; [lra|].
      assert (Hb : f + su * x <= v0 + d0 + 3 * P + 2 * Q + k * Q).
      { apply (side_bound f P Q HP HQ k Du); auto; lra. }
      apply Rabs_le_inv in HL2.
      assert (Hs : sl' * D <= su * D + (P + Q)) by (unfold eu in *; lra).
      assert (Hr : 0 < x / D) by (apply Rdiv_lt_0_compat; lra).
      apply (Rmult_le_compat_r (x / D)) in Hs; [|lra].
      replace (sl' * D * (x / D)) with (sl' * x) in Hs by (field; lra).
      replace ((su * D + (P + Q)) * (x / D)) with (su * x + (P + Q) * (x / D)) in Hs by (field; lra).
      assert ((P + Q) * (x / D) <= P + Q) by (apply share; lra).
      lra.
  - split; [|split].
    + destruct HU as [(-> & -> & HU)|(-> & HU1 & HU2)].
      * apply (side_keep f delta); auto; try lra. unfold eu in *. lra.
      * apply Rabs_le_inv in HU2. apply side_new; auto; lra.
    + destruct HL as [(-> & -> & HL)|(-> & HL1 & HL2)].
      * apply (side_keep (- f) delta); auto; try lra. unfold el in *. lra.
      * apply Rabs_le_inv in HL2. apply side_new; auto; lra.
    + destruct HL as [(-> & -> & HL)|(-> & HL1 & HL2)]; [unfold el in *; lra|].
      apply Rabs_le_inv in HL2. lra.
Qed.

(** The second data point. *)
Lemma point_first : forall D v d su sl, delta <= D -> 0 <= d ->
  Rabs (su * D - (v + d - f)) <= Q / 2 -> Rabs (sl * D - (v - d - f)) <= Q / 2 ->
  point_ok (0 + 1) D su D sl D v d.
Proof.
  intros D v d su sl HD Hd Hu Hl. apply Rabs_le_inv in Hu, Hl.
  split; [|split]; [apply side_new; auto; lra | apply side_new; auto; lra | lra].
Qed.
End Step.

(** ** The states of the program *)
Section States.
Context (Pl : platform) (eb : error_bound) (t0 T dz : Z) (v0 : f32) (S : R).
Notation N := (f64_num Pl).
Hypothesis Heb : valid_error_bound eb.
Hypothesis HT0 : (Z.abs t0 <= T)%Z.
Hypothesis HT : (T <= 2 ^ 52)%Z.
Hypothesis Hdz : (1 <= dz)%Z.
Hypothesis Hv0 : finite32 v0.
Hypothesis HS0 : 0 <= S.
Hypothesis HS : S <= bpow radix2 120.
Hypothesis Hv0S : Rabs (R32 v0) <= S.

Definition M : R := 1001 / 1000 * S + mu.
Definition delta : R := IZR dz.
Definition P : R := 7 * (u * M) * (IZR T / delta).
Definition Q : R := 24 * (u * M) + mu / 100.

Definition allowed (v : f32) : R := R64 (maximum_allowed_deviation eb (f64_of_f32 v)).

(** A data point of reasonable size. *)
Definition sized (v : f32) : Prop := finite32 v /\ Rabs (R32 v) + exact_deviation eb (R32 v) <= S.

Lemma delta_pos : 1 <= delta.
Proof. apply IZR_le. exact Hdz. Qed.
Lemma M_bounds : 0 < M /\ S <= M /\ M <= bpow radix2 200.
Proof.
  clear - HS0 HS.
  pose proof mu_pos. unfold M. split; [lra|]. split; [lra|].
  assert (mu <= bpow radix2 120) by (apply bpow_le; lia).
  apply Rle_trans with (bpow radix2 120 * bpow radix2 2).
  - change (bpow radix2 2) with 4. lra.
  - rewrite <- bpow_plus. apply bpow_le. lia.
Qed.
Lemma uM_bounds : 0 < u * M < / 1000000 * M.
Proof.
  clear - HS0 HS.
  pose proof u_small. destruct M_bounds as (H1 & _).
  split; [apply Rmult_lt_0_compat; lra|]. apply Rmult_lt_compat_r; lra.
Qed.
Lemma P_nonneg : 0 <= P.
Proof.
  unfold P. pose proof uM_bounds. pose proof delta_pos.
  assert (0 <= IZR T / delta).
  { apply Rmult_le_pos; [apply IZR_le; lia|]. left. apply Rinv_0_lt_compat. lra. }
  apply Rmult_le_pos; lra.
Qed.
Lemma Q_nonneg : 0 <= Q.
Proof. unfold Q. pose proof uM_bounds. pose proof mu_pos. lra. Qed.

Lemma exact_deviation_nonneg : forall v, 0 <= exact_deviation eb v.
Proof.
  intros v. destruct eb as [e|e|]; cbn [exact_deviation valid_error_bound] in *.
  - apply Rmult_le_pos; lra.
  - apply Rabs_pos.
  - lra.
Qed.

Lemma allowed_bounds : forall v, sized v ->
  finite64 (maximum_allowed_deviation eb (f64_of_f32 v)) /\ 0 <= allowed v
  /\ allowed v <= exact_deviation eb (R32 v) + 8 * (u * M) + mu / 100
  /\ (Rabs (R32 v) + allowed v) * (1 + u) <= M.
Proof.
  intros v [Hf Hs]. destruct (deviation_near eb v Heb Hf) as (Hd & H0 & H1).
  split; [exact Hd|]. split; [exact H0|]. fold (allowed v) in H0, H1.
  pose proof u_small as Hu. destruct M_bounds as (HM & HSM & _). pose proof mu_pos as Hmu.
  pose proof (exact_deviation_nonneg (R32 v)) as He0. pose proof (Rabs_pos (R32 v)) as Hv0'.
  assert (E : u * exact_deviation eb (R32 v) <= u * M) by (apply Rmult_le_compat_l; lra).
  split; [lra|].
  assert (E2 : Rabs (R32 v) + allowed v <= (1 + 8 * u) * S + mu / 100).
  { assert (0 <= u * Rabs (R32 v)) by (apply Rmult_le_pos; lra).
    assert ((1 + 8 * u) * (Rabs (R32 v) + exact_deviation eb (R32 v)) <= (1 + 8 * u) * S)
      by (apply Rmult_le_compat_l; lra). lra. }
  assert (E3 : u * (Rabs (R32 v) + allowed v) <= / 1000000 * ((1 + 8 * u) * S + mu / 100))
    by (apply Rmult_le_compat; lra).
  assert (E4 : u * S <= / 1000000 * S) by (apply Rmult_le_compat_r; lra).
  unfold M. lra.
Qed.

(** The error of a comparison with a line. *)
Lemma comparison_small : forall f D s b, delta <= D -> line_ok t0 T M f D s b ->
  comparison_error T M s <= P * (delta / D) + Q / 2.
Proof.
  intros f D s b HD (_ & _ & HsD & _). pose proof delta_pos as Hdp.
  pose proof u_small as Hu. pose proof uM_bounds as HuM. pose proof tiny_mu as Htm.
  pose proof tiny_pos as Htp.
  destruct (slope_small t0 T M HT0 HT (Rlt_le _ _ (proj1 M_bounds)) (proj2 (proj2 M_bounds))
              D (R64 s) ltac:(lra) HsD) as (H1 & _).
  pose proof (T_bounds t0 T HT0 HT) as HTb.
  assert (H2 : Rabs (R64 s) * IZR T <= (2001 / 1000 * (M / D) + tiny) * IZR T)
    by (apply Rmult_le_compat_r; lra).
  assert (H3 : tiny * IZR T <= tiny * 4503599627370496) by (apply Rmult_le_compat_l; lra).
  assert (H4 : P * (delta / D) = 7 * (u * (M / D * IZR T))).
  { unfold P. field. lra. }
  assert (H5 : u * (Rabs (R64 s) * IZR T)
               <= u * (2001 / 1000 * (M / D * IZR T) + tiny * 4503599627370496)).
  { apply Rmult_le_compat_l; lra. }
  assert (H6 : 0 <= M / D * IZR T).
  { destruct M_bounds as (HM & _). apply Rmult_le_pos; [|lra].
    apply Rmult_le_pos; [lra|]. left. apply Rinv_0_lt_compat. lra. }
  assert (H7 : 0 <= u * (M / D * IZR T)) by (apply Rmult_le_pos; lra).
  assert (H8 : u * tiny <= 1 * tiny) by (apply Rmult_le_compat_r; lra).
  unfold comparison_error, Q. lra.
Qed.

Lemma fitted_limit : forall first last t y, finite64 first -> finite64 last ->
  Rabs (R64 first) <= M -> Rabs (R64 last) <= M -> Rabs (R64 last - y) <= u * M ->
  (t0 < t)%Z -> (Z.abs t <= T)%Z ->
  let l := compute_slope_and_intercept N t0 first t last in
  line_ok t0 T M (R64 first) (IZR (t - t0)) (fst l) (snd l)
  /\ Rabs (R64 (fst l) * IZR (t - t0) - (y - R64 first)) <= Q / 2.
Proof.
  intros first last t y Hff Hlf Hf Hl Hy Ht HtT l.
  destruct (fitted Pl t0 T M HT0 HT (Rlt_le _ _ (proj1 M_bounds)) (proj2 (proj2 M_bounds))
              first last t Hff Hlf Hf Hl Ht HtT) as [H1 H2].
  split; [exact H1|]. fold l in H2.
  pose proof (duration_ge t0 T HT0 HT t Ht HtT) as HD. pose proof tiny_pos as Htp.
  pose proof tiny_mu as Htm. pose proof uM_bounds as HuM.
  assert (HDt : IZR (t - t0) * tiny <= 9007199254740992 * tiny) by (apply Rmult_le_compat_r; lra).
  replace (R64 (fst l) * IZR (t - t0) - (y - R64 first))
    with ((R64 (fst l) * IZR (t - t0) - (R64 last - R64 first)) + (R64 last - y)) by ring.
  eapply Rle_trans; [apply Rabs_triang|]. unfold Q. lra.
Qed.

Definition after (t : Z) : R := IZR (t - t0).

(** The state after the first data point and [rest]. *)
Record accepted_state (rest : list (Z * f32)) (m : swing N) : Prop := {
  as_eb : sw_error_bound m = eb;
  as_start : sw_start_time m = t0;
  as_first : sw_first_value m = f64_of_f32 v0;
  as_length : sw_length m = Datatypes.S (length rest);
  as_lines : rest = [] \/ exists Du Dl,
    (t0 + dz <= sw_end_time m)%Z
    /\ delta <= Du <= after (sw_end_time m) /\ delta <= Dl <= after (sw_end_time m)
    /\ line_ok t0 T M (R32 v0) Du (sw_upper_slope m) (sw_upper_intercept m)
    /\ line_ok t0 T M (R32 v0) Dl (sw_lower_slope m) (sw_lower_intercept m)
    /\ forall t v, In (t, v) rest ->
       (t0 < t <= sw_end_time m)%Z
       /\ point_ok (R32 v0) P Q (INR (length rest)) Du (R64 (sw_upper_slope m))
            Dl (R64 (sw_lower_slope m)) (after t) (R32 v) (allowed v)
}.

Lemma limits_near : forall v, sized v ->
  let x := f64_of_f32 v in
  let d := maximum_allowed_deviation eb x in
  (finite64 (f64_add x d) /\ Rabs (R64 (f64_add x d)) <= M
   /\ Rabs (R64 (f64_add x d) - (R32 v + allowed v)) <= u * M)
  /\ (finite64 (f64_sub x d) /\ Rabs (R64 (f64_sub x d)) <= M
      /\ Rabs (R64 (f64_sub x d) - (R32 v - allowed v)) <= u * M).
Proof.
  intros v Hv x d. destruct (allowed_bounds v Hv) as (Hdf & Hd0 & _ & Hsum).
  destruct (f64_of_f32_finite v (proj1 Hv)) as [Hxf Hxr]. fold x in Hxf, Hxr.
  fold x in Hdf. fold d in Hdf. unfold allowed in *. fold x in Hd0, Hsum |- *. fold d in Hd0, Hsum |- *.
  pose proof u_small as Hu. destruct M_bounds as (HM & _ & HMb).
  set (A := Rabs (R32 v) + R64 d) in *.
  assert (HA : 0 <= A) by (pose proof (Rabs_pos (R32 v)); unfold A; lra).
  assert (HA1 : A + u * A <= M) by lra.
  assert (HuA : 0 <= u * A) by (apply Rmult_le_pos; lra).
  assert (HuAM : u * A <= u * M) by (apply Rmult_le_compat_l; lra).
  assert (Hml : M <= large).
  { eapply Rle_trans; [exact HMb|]. apply bpow_le. lia. }
  assert (H1 : Rabs (R64 x + R64 d) <= A).
  { eapply Rle_trans; [apply Rabs_triang|]. rewrite Hxr, (Rabs_pos_eq (R64 d)) by lra. unfold A. lra. }
  assert (H2 : Rabs (R64 x - R64 d) <= A).
  { unfold Rminus. eapply Rle_trans; [apply Rabs_triang|].
    rewrite Rabs_Ropp, Hxr, (Rabs_pos_eq (R64 d)) by lra. unfold A. lra. }
  assert (E1 : u * Rabs (R64 x + R64 d) <= u * A) by (apply Rmult_le_compat_l; lra).
  assert (E2 : u * Rabs (R64 x - R64 d) <= u * A) by (apply Rmult_le_compat_l; lra).
  destruct (add_near x d Hxf Hdf) as [F1 N1]; [lra|].
  destruct (sub_near x d Hxf Hdf) as [F2 N2]; [lra|].
  rewrite Hxr in *. split; (split; [assumption|]; split; [|lra]).
  - replace (R64 (f64_add x d)) with ((R64 (f64_add x d) - (R32 v + R64 d)) + (R32 v + R64 d)) by ring.
    eapply Rle_trans; [apply Rabs_triang|]. lra.
  - replace (R64 (f64_sub x d)) with ((R64 (f64_sub x d) - (R32 v - R64 d)) + (R32 v - R64 d)) by ring.
    eapply Rle_trans; [apply Rabs_triang|]. lra.
Qed.

Lemma accepted_step : forall rest m t v m', accepted_state rest m -> sized v ->
  (Z.abs t <= T)%Z -> (t0 + dz <= t)%Z -> (rest <> [] -> sw_end_time m + dz <= t)%Z ->
  swing_fit N m t (f64_of_f32 v) = (true, m') ->
  accepted_state (rest ++ [(t, v)]) m' /\ sw_end_time m' = t.
Proof.
  intros rest m t v m' [Aeb Astart Afirst Alen Alines] Hv Ht Htd Hgap H.
  destruct (f64_of_f32_finite v0 Hv0) as [H0f H0r].
  destruct (f64_of_f32_finite v (proj1 Hv)) as [Hvf Hvr].
  destruct (allowed_bounds v Hv) as (Hdf & Hd0 & _ & Hsum).
  destruct (limits_near v Hv) as [(HUf & HUM & HUn) (HLf & HLM & HLn)].
  destruct M_bounds as (HM & HSM & _). pose proof delta_pos as Hdp.
  assert (HfM : Rabs (R64 (f64_of_f32 v0)) <= M) by (rewrite H0r; lra).
  assert (Htt : (t0 < t)%Z) by lia.
  pose proof (fitted_limit _ _ t _ H0f HUf HfM HUM HUn Htt Ht) as [FU1 FU2].
  pose proof (fitted_limit _ _ t _ H0f HLf HfM HLM HLn Htt Ht) as [FL1 FL2].
  rewrite H0r in FU1, FU2, FL1, FL2. fold (after t) in FU1, FU2, FL1, FL2.
  assert (HDt : delta <= after t) by (apply IZR_le; lia).
  unfold swing_fit in H. rewrite Alen, Aeb, Astart, Afirst in H.
  cbn [num_t num_deviation num_is_finite num_add num_sub num_mul num_lt num_of_Z f64_num] in H.
  change (f64_is_finite (f64_of_f32 v0)) with (is_finite 53 1024 (f64_of_f32 v0)) in H.
  change (f64_is_finite (f64_of_f32 v)) with (is_finite 53 1024 (f64_of_f32 v)) in H.
  unfold finite64 in H0f, Hvf. rewrite H0f, Hvf in H. fold (finite64 (f64_of_f32 v0)) in H0f.
  fold (finite64 (f64_of_f32 v)) in Hvf.
  cbn [Nat.eqb negb orb] in H.
  set (x := f64_of_f32 v) in *. set (d := maximum_allowed_deviation eb x) in *.
  set (lu := compute_slope_and_intercept N t0 (f64_of_f32 v0) t (f64_add x d)) in *.
  set (ll := compute_slope_and_intercept N t0 (f64_of_f32 v0) t (f64_sub x d)) in *.
  destruct rest as [|p rest'].
  - (* The second data point. *)
    cbn [length Nat.eqb app] in *. injection H as H. subst m'. cbn [sw_end_time]. split; [|reflexivity].
    constructor; cbn [sw_error_bound sw_start_time sw_first_value sw_length sw_end_time
      sw_upper_slope sw_upper_intercept sw_lower_slope sw_lower_intercept length]; auto.
    right. exists (after t), (after t). split; [lia|]. split; [lra|]. split; [lra|].
    split; [exact FU1|]. split; [exact FL1|].
    intros t' v' [[= <- <-]|[]]. split; [lia|].
    replace (INR 1) with (0 + 1) by (cbn [INR]; ring).
    apply (point_first (R32 v0) delta P Q); auto using P_nonneg, Q_nonneg; try lra.
  - (* Later data points. *)
    destruct Alines as [?|(Du & Dl & Hend & HDu & HDl & Lu & Ll & Hall)]; [discriminate|].
    specialize (Hgap ltac:(discriminate)).
    assert (HDe : after (sw_end_time m) + delta <= after t).
    { unfold after, delta. rewrite <- plus_IZR. apply IZR_le. lia. }
    assert (Hsum' : (Rabs (R64 x) + R64 d) * (1 + u) <= M) by (rewrite Hvr; exact Hsum).
    pose proof (compared t0 T M HT0 HT (Rlt_le _ _ HM) (proj2 (proj2 M_bounds))
      (R32 v0) Du _ _ t x d ltac:(lra) ltac:(lra) Lu Ht Hvf Hdf Hd0 Hsum') as [CU1 CU2].
    pose proof (compared t0 T M HT0 HT (Rlt_le _ _ HM) (proj2 (proj2 M_bounds))
      (R32 v0) Dl _ _ t x d ltac:(lra) ltac:(lra) Ll Ht Hvf Hdf Hd0 Hsum') as [CL1 CL2].
    pose proof (comparison_small (R32 v0) Du _ _ (proj1 HDu) Lu) as Eu.
    pose proof (comparison_small (R32 v0) Dl _ _ (proj1 HDl) Ll) as El.
    rewrite Hvr in CU1, CU2, CL1, CL2. fold (after t) in CU1, CU2, CL1, CL2.
    change (R64 d) with (allowed v) in CU1, CU2, CL1, CL2.
    set (au := f64_add (f64_mul (sw_upper_slope m) (f64_of_Z t)) (sw_upper_intercept m)) in *.
    set (al := f64_add (f64_mul (sw_lower_slope m) (f64_of_Z t)) (sw_lower_intercept m)) in *.
    cbn [length Nat.eqb] in H.
    destruct (f64_lt (f64_add au d) x) eqn:B1; cbn [orb] in H; [discriminate|].
    destruct (f64_lt x (f64_sub al d)) eqn:B2; [discriminate|].
    injection H as H. subst m'. cbn [sw_end_time]. split; [|reflexivity].
    set (U' := if f64_lt x (f64_sub au d) then lu else (sw_upper_slope m, sw_upper_intercept m)).
    set (L' := if f64_lt (f64_add al d) x then ll else (sw_lower_slope m, sw_lower_intercept m)).
    set (Du' := if f64_lt x (f64_sub au d) then after t else Du).
    set (Dl' := if f64_lt (f64_add al d) x then after t else Dl).
    assert (Hlen : length ((p :: rest') ++ [(t, v)]) = Datatypes.S (length (p :: rest')))
      by (rewrite app_length; cbn [length]; lia).
    destruct (point_step (R32 v0) delta P Q ltac:(lra) P_nonneg Q_nonneg (INR (length (p :: rest')))
      Du (R64 (sw_upper_slope m)) Dl (R64 (sw_lower_slope m)) (after t) (R32 v) (allowed v)
      Du' (R64 (fst U')) Dl' (R64 (fst L'))) as [Hold Hnew]; try lra; auto.
    { apply pos_INR. }
    { unfold U', Du'. destruct (f64_lt x (f64_sub au d)); [right|left]; cbn [fst].
      - split; [reflexivity|]. split; [lra|exact FU2].
      - split; [reflexivity|]. split; [reflexivity|lra]. }
    { unfold L', Dl'. destruct (f64_lt (f64_add al d) x); [right|left]; cbn [fst].
      - split; [reflexivity|]. split; [lra|exact FL2].
      - split; [reflexivity|]. split; [reflexivity|lra]. }
    constructor; cbn [sw_error_bound sw_start_time sw_first_value sw_length sw_end_time
      sw_upper_slope sw_upper_intercept sw_lower_slope sw_lower_intercept]; auto.
    right. exists Du', Dl'. split; [lia|].
    split. { unfold Du'. destruct (f64_lt x (f64_sub au d)); lra. }
    split. { unfold Dl'. destruct (f64_lt (f64_add al d) x); lra. }
    split. { unfold Du', U'. destruct (f64_lt x (f64_sub au d)); cbn [fst snd]; assumption. }
    split. { unfold Dl', L'. destruct (f64_lt (f64_add al d) x); cbn [fst snd]; assumption. }
    intros t' v' Hin. rewrite Hlen, S_INR. apply in_app_iff in Hin.
    destruct Hin as [Hin|[[= <- <-]|[]]].
    + destruct (Hall t' v' Hin) as [Hti Hok]. split; [lia|]. apply Hold; [|exact Hok].
      split; [apply IZR_lt; lia|]. apply IZR_le. lia.
    + split; [lia|exact Hnew].
Qed.

Lemma accepted_run : forall points rest m m', accepted_state rest m ->
  Forall (fun p => sized (snd p)) points -> Forall (fun p => (Z.abs (fst p) <= T)%Z) points ->
  StronglySorted (fun p q => (p + dz <= q)%Z) (map fst points) ->
  Forall (fun p => (t0 + dz <= fst p)%Z /\ (rest <> [] -> sw_end_time m + dz <= fst p)%Z) points ->
  swing_fit_all N m (map (fun p => (fst p, f64_of_f32 (snd p))) points) = Some m' ->
  accepted_state (rest ++ points) m'
  /\ (points <> [] -> In (sw_end_time m') (map fst points))
  /\ (points = [] -> m' = m).
Proof.
  intros points. induction points as [|[t v] points IH]; intros rest m m' Hm Hs HTp Hsort Hge H;
    cbn [map swing_fit_all fst snd] in H.
  - injection H as <-. rewrite app_nil_r. split; [exact Hm|]. split; [congruence|reflexivity].
  - destruct (swing_fit N m t (f64_of_f32 v)) as [[] m1] eqn:E; [|discriminate].
    inversion Hs as [|? ? Hs1 Hs2]; subst. inversion HTp as [|? ? HT1 HT2]; subst.
    inversion Hge as [|? ? [Hg1 Hg2] Hg3]; subst. cbn [fst snd] in *.
    cbn [map fst] in Hsort. inversion Hsort as [|? ? Hso1 Hso2]; subst.
    destruct (accepted_step rest m t v m1 Hm Hs1 HT1 Hg1 Hg2 E) as [Hm1 He1].
    destruct (IH (rest ++ [(t, v)]) m1 m' Hm1 Hs2 HT2 Hso1) as (R1 & R2 & R3); [|exact H|].
    + rewrite Forall_forall in *. intros [t' v'] Hin. split; [apply (Hg3 (t', v') Hin)|].
      intros _. rewrite He1. cbn [fst]. apply Hso2. apply in_map_iff. exists (t', v'). now split.
    + rewrite <- app_assoc in R1. split; [exact R1|]. split; [|discriminate].
      intros _. destruct points as [|p points'].
      * left. rewrite (R3 eq_refl). now rewrite He1.
      * right. apply R2. discriminate.
Qed.
End States.
