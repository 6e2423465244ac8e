(** Aggregates of segments with linear functions. *)
From Coq Require Import ZArith Reals Bool Lia Lra List Sorting.Sorted.
From Flocq Require Import Core Plus_error Relative IEEE754.BinarySingleNaN IEEE754.Binary IEEE754.Bits.
From Verif Require Import Model.Base Model.Float Model.ErrorBound Model.Timestamps
  Model.MacaqueV Model.Pmc Model.Swing Model.Segments Model.Aggregates
  Spec.TimestampsSpec Spec.ErrorBoundSpec Spec.PlatformSpec Spec.SegmentsSpec Spec.GridSpec
  Spec.SwingSpec Spec.AggregateSpec Spec.LineSpec
  Proofs.FloatProofs Proofs.ErrorBoundProofs Proofs.OrderProofs Proofs.ParameterProofs
  Proofs.TimestampsProofs Proofs.SegmentsProofs
  Proofs.SelectionProofs Proofs.GridProofs Proofs.RestoreProofs Proofs.AggregateProofs
  Proofs.AggregateSumProofs Proofs.SwingStored Proofs.SwingBound Proofs.LineProofs.
Import ListNotations.
Open Scope Z_scope.

(** ** Timestamps *)
Lemma regular_arithmetic : forall ts, valid_timestamps ts -> (3 <= length ts)%nat ->
  are_compressed_timestamps_regular (compress_residual_timestamps ts) = true ->
  exists d, 0 < d /\ ts = arithmetic (first_timestamp ts) d (length ts).
Proof.
  intros ts (Hne & Hts & Hs & H63) H3 H. unfold compress_residual_timestamps in H.
  destruct (Nat.leb_spec (length ts) 2) as [H2|H2]; [lia|].
  destruct (are_uncompressed_timestamps_regular ts) eqn:Er.
  - destruct ts as [|t0 [|t1 ts]]; cbn [length] in H3; try lia.
    cbn [are_uncompressed_timestamps_regular tl] in Er.
    assert (Hd : 0 < t1 - t0 < 2 ^ 64).
    { inversion Hs as [|? ? _ Hlt]; subst. inversion Hlt; subst.
      inversion Hts as [|? ? Ht0 Hts']; subst. inversion Hts'; subst. unfold is_i64 in *. lia. }
    exists (t1 - t0). split; [lia|]. exact (regular_loop_arithmetic _ _ _ Hts Hs Er Hd).
  - destruct (irregular_round_trip ts ltac:(lia) Hts) as (_ & Hf & _). congruence.
Qed.

Lemma sorted_between : forall ts t, StronglySorted Z.lt ts -> In t ts ->
  first_timestamp ts <= t <= last_timestamp ts.
Proof.
  intros ts t H Hin. unfold first_timestamp, last_timestamp.
  induction H as [|a l H IH Ha]; [destruct Hin|]. rewrite Forall_forall in Ha. cbn [hd].
  assert (Hl : forall b, In b (a :: l) -> b <= last (a :: l) 0).
  { intros b Hb. destruct l as [|c l]; [destruct Hb as [<-|[]]; cbn; lia|].
    change (last (a :: c :: l) 0) with (last (c :: l) 0).
    assert (Hc : c <= last (c :: l) 0).
    { assert (Hg : forall x, In x (c :: l) -> x <= last (c :: l) 0).
      { clear - H. revert c H. induction l as [|d l IH]; intros c H x [<-|Hx]; try (cbn; lia);
          try destruct Hx.
        - change (last (c :: d :: l) 0) with (last (d :: l) 0). inversion H as [|? ? H1 H2]; subst.
          inversion H2; subst. specialize (IH d H1 d (or_introl eq_refl)). lia.
        - subst. change (last (c :: x :: l) 0) with (last (x :: l) 0).
          inversion H; subst. apply IH; auto. now left.
        - change (last (c :: d :: l) 0) with (last (d :: l) 0). inversion H; subst.
          apply IH; auto. now right. }
      apply Hg. now left. }
    destruct Hb as [<-|Hb].
    - pose proof (Ha c (or_introl eq_refl)). lia.
    - clear Hc. revert b Hb. clear - H. revert c H. induction l as [|d l IH]; intros c H x [<-|Hx];
        try (cbn; lia); try destruct Hx.
      + change (last (c :: d :: l) 0) with (last (d :: l) 0). inversion H as [|? ? H1 H2]; subst.
        inversion H2; subst. specialize (IH d H1 d (or_introl eq_refl)). lia.
      + subst. change (last (c :: x :: l) 0) with (last (x :: l) 0).
        inversion H; subst. apply IH; auto. now left.
      + change (last (c :: d :: l) 0) with (last (d :: l) 0). inversion H; subst.
        apply IH; auto. now right. }
  split; [|auto]. destruct Hin as [<-|Hin]; [lia|]. pose proof (Ha t Hin). lia.
Qed.

Open Scope R_scope.
(** The sum of a line at regular timestamps is the average of its ends for each value. *)
Lemma arithmetic_sum : forall f l D n t0 d start, D <> 0 ->
  sum_of (map (fun t => f + (l - f) * (IZR (t - t0) / D)) (arithmetic start d n))
  = INR n * f + (l - f) / D * (INR n * IZR (start - t0) + IZR d * (INR n * (INR n - 1) / 2)).
Proof.
  intros f l D n t0 d. induction n as [|n IH]; intros start HD.
  - cbn [arithmetic map sum_of fold_right INR]. field. exact HD.
  - cbn [arithmetic map].
    change (sum_of (?x :: ?y)) with (x + sum_of y). rewrite IH by exact HD.
    rewrite S_INR. replace (start + d - t0)%Z with ((start - t0) + d)%Z by lia. rewrite plus_IZR.
    field. exact HD.
Qed.

Lemma arithmetic_line : forall f l t0 d n, (0 < d)%Z -> (1 <= n)%nat ->
  sum_of (map (on_line t0 (t0 + Z.of_nat n * d) f l) (arithmetic t0 d (S n)))
  = INR (S n) * ((f + l) / 2).
Proof.
  intros f l t0 d n Hd Hn. unfold on_line.
  replace (t0 + Z.of_nat n * d - t0)%Z with (Z.of_nat n * d)%Z by lia.
  rewrite mult_IZR, <- INR_IZR_INZ.
  assert (Hn' : INR n <> 0) by (apply not_0_INR; lia).
  assert (Hd' : IZR d <> 0) by (apply not_0_IZR; lia).
  rewrite arithmetic_sum by (now apply Rmult_integral_contrapositive_currified).
  rewrite Z.sub_diag, S_INR. field. auto.
Qed.
Open Scope Z_scope.

(** ** The shape of linear functions without residuals *)
Lemma min_le_max : forall P x y, finite32 (f32_min P x y) -> finite32 (f32_max P x y) ->
  (R32 (f32_min P x y) <= R32 (f32_max P x y))%R.
Proof.
  intros P x y Hm HM. destruct (f32_is_nan x) eqn:Ex.
  - rewrite f32_min_nan_l, f32_max_nan_l by exact Ex. lra.
  - destruct (f32_is_nan y) eqn:Ey.
    + rewrite (f32_min_nan_r P x y Ex Ey), (f32_max_nan_r P x y Ex Ey). lra.
    + destruct (f32_min_cases P x y Ex Ey) as (_ & C1 & _ & _).
      destruct (f32_max_cases P x y Ex Ey) as (_ & D1 & _ & _).
      pose proof (f32_le_trans _ _ _ C1 D1) as H. now apply f32_le_iff in H.
Qed.

Lemma line_shape : forall P s, created P s -> sg_model_type_id s = swing_id -> sg_residuals s = [] ->
  exists ts first last, valid_timestamps ts /\ (8 <= length ts)%nat
    /\ sg_start_time s = first_timestamp ts /\ sg_end_time s = last_timestamp ts
    /\ sg_timestamps s = compress_residual_timestamps ts
    /\ decode_values_for_swing (sg_min s) (sg_max s) (sg_values s) = Ok (first, last)
    /\ (first = sg_min s /\ last = sg_max s \/ first = sg_max s /\ last = sg_min s)
    /\ (finite32 (sg_min s) -> finite32 (sg_max s) -> (R32 (sg_min s) <= R32 (sg_max s))%R).
Proof.
  intros P s Hc Hid Hr. destruct (created_part P s Hc) as (eb & pts & He & _ & _ & _ & Hv & _ & Hb).
  destruct Hb as [sb i mpts rpts Hf Hr255|pts Hne].
  2:{ exfalso. unfold assemble_residuals in Hid. destruct (macaque_v_model _) as [[? ?] ?].
      discriminate Hid. }
  destruct (assemble_fields P eb sb mpts rpts) as (F1 & F2 & F3 & F4 & F5). cbv zeta in *.
  rewrite Hr in F5. destruct rpts as [|p rpts]; [|discriminate F5].
  destruct Hf as [H8 [(m & -> & Hfit)|(m & -> & Hfit)]]; [rewrite F1 in Hid; discriminate Hid|].
  rewrite app_nil_r in *. exists (map fst mpts).
  assert (E : exists x y, sg_min (assemble P eb (select_swing P i m) mpts []) = f32_min P x y
    /\ sg_max (assemble P eb (select_swing P i m) mpts []) = f32_max P x y
    /\ sg_values (assemble P eb (select_swing P i m) mpts []) = if f32_lt x y then [] else [0]).
  { unfold assemble, select_swing. destruct (swing_model P m) as [x y]. exists x, y.
    split; [reflexivity|]. split; reflexivity. }
  destruct E as (x & y & E1 & E2 & E3).
  set (s := assemble P eb (select_swing P i m) mpts []) in *.
  assert (Hle : finite32 (sg_min s) -> finite32 (sg_max s) -> (R32 (sg_min s) <= R32 (sg_max s))%R).
  { rewrite E1, E2. apply min_le_max. }
  rewrite map_length. rewrite E3. destruct (f32_lt x y).
  - exists (sg_min s), (sg_max s). cbn [decode_values_for_swing]. auto 12.
  - exists (sg_max s), (sg_min s). cbn [decode_values_for_swing]. auto 12.
Qed.

Open Scope R_scope.
Lemma total_map : forall (f : Z -> f32) (g : Z -> R) e ts,
  (forall t, In t ts -> Rabs (R32 (f t) - g t) <= e) ->
  Rabs (total (map f ts) - sum_of (map g ts)) <= INR (length ts) * e.
Proof.
  intros f g e ts. induction ts as [|t ts IH]; intros H.
  - cbn [map length INR]. change (total []) with 0. change (sum_of []) with 0.
    rewrite Rminus_0_r, Rabs_R0. lra.
  - cbn [map length]. rewrite S_INR. change (total (f t :: map f ts)) with (R32 (f t) + total (map f ts)).
    change (sum_of (g t :: map g ts)) with (g t + sum_of (map g ts)).
    replace (R32 (f t) + total (map f ts) - (g t + sum_of (map g ts)))
      with ((R32 (f t) - g t) + (total (map f ts) - sum_of (map g ts))) by ring.
    eapply Rle_trans; [apply Rabs_triang|].
    assert (H1 : Rabs (R32 (f t) - g t) <= e) by (apply H; now left).
    assert (H2 := IH (fun t' Ht' => H t' (or_intror Ht'))). lra.
Qed.

Lemma line_segment : forall P s size latest, created P s -> sg_model_type_id s = swing_id ->
  plain_line size latest s -> (latest <= 2 ^ 52)%Z -> size <= 2 ^ 96 ->
  let e := line_error size latest s in
  exists ts out, grid P s = Ok (ts, out) /\ Forall finite32 out /\ (8 <= length out)%nat
    /\ segment_len s = Ok (Z.of_nat (length out))
    /\ near_least e (sg_min s) out /\ near_greatest e (sg_max s) out
    /\ 0 <= e
    /\ ((Z.of_nat (length out) <= 2 ^ 24)%Z ->
        exists x, segment_sum P s = Ok x /\ finite32 x
          /\ Rabs (R32 x - total out) <= INR (length out) * (2 * e)).
Proof.
  intros P s size latest Hc Hid (Hr & Hm & HM & Hms & HMs & Hst & Hen & Htau) HT Hsz e.
  destruct (line_shape P s Hc Hid Hr) as (ts & first & last & Hv & H8 & F1 & F2 & F3 & Hd & Hfl & Hle).
  specialize (Hle Hm HM).
  assert (HV := Hv). destruct Hv as (Hne & Hts & Hs & H63).
  set (t0 := sg_start_time s) in *. set (te := sg_end_time s) in *.
  assert (Hbt : forall t, In t ts -> (t0 <= t <= te)%Z).
  { intros t Ht. rewrite F1, F2. now apply sorted_between. }
  assert (Hin0 : In t0 ts).
  { rewrite F1. destruct ts; [congruence|]. now left. }
  assert (Hine : In te ts).
  { rewrite F2. unfold last_timestamp. rewrite (app_removelast_last 0%Z Hne) at 2.
    apply in_or_app. right. now left. }
  assert (Hlt : (t0 < te)%Z).
  { destruct ts as [|a [|b ts]]; cbn [length] in H8; try lia.
    inversion Hs as [|? ? _ Hab]; subst. inversion Hab; subst.
    pose proof (Hbt b (or_intror (or_introl eq_refl))). unfold first_timestamp in F1. cbn [hd] in F1. lia. }
  assert (Hff : finite32 first /\ finite32 last /\ Rabs (R32 first) <= size /\ Rabs (R32 last) <= size).
  { destruct Hfl as [[-> ->]|[-> ->]]; auto. }
  destruct Hff as (Hf & Hl & HfM & HlM).
  assert (Hsz' : size <= 2 ^ 120).
  { eapply Rle_trans; [exact Hsz|]. apply Rle_pow; [lra|lia]. }
  assert (Htau' : IZR latest / IZR (te - t0) <= 2 ^ 44).
  { apply Rmult_le_reg_r with (IZR (te - t0)); [apply IZR_lt; lia|].
    unfold Rdiv. rewrite Rmult_assoc, Rinv_l, Rmult_1_r by (apply not_0_IZR; lia).
    rewrite pow_IZR, <- mult_IZR. now apply IZR_le. }
  assert (Hcall : forall t, In t ts ->
    let g := f32_of_f64 (swing_value (f64_num P) t0 te (f64_of_f32 first) (f64_of_f32 last) t) in
    finite32 g /\ Rabs (R32 g - on_line t0 te (R32 first) (R32 last) t) <= e).
  { intros t Ht. apply (line_restored_near P t0 te latest first last size _ HT Hst Hen Hlt Hf Hl
                          HfM HlM Hsz' eq_refl Htau'). now apply Hbt. }
  cbv zeta in Hcall.
  assert (He0 : 0 <= e).
  { eapply Rle_trans; [|exact (proj2 (Hcall t0 Hin0))]. apply Rabs_pos. }
  set (line t := f32_of_f64 (swing_value (f64_num P) t0 te (f64_of_f32 first) (f64_of_f32 last) t)) in *.
  assert (Hline : forall t, In t ts ->
    finite32 (line t) /\ Rabs (R32 (line t) - on_line t0 te (R32 first) (R32 last) t) <= e)
    by exact Hcall.
  clear Hcall. rename Hline into Hcall.
  exists ts, (map line ts). rewrite map_length.
  assert (Hts' : decompress_all_timestamps t0 te (sg_timestamps s) = Ok ts).
  { rewrite F1, F2, F3. now apply timestamps_round_trip. }
  assert (Hlen : segment_len s = Ok (Z.of_nat (length ts))).
  { unfold segment_len. fold t0 te. rewrite F1, F2, F3. now apply len_correct. }
  assert (Hend : List.last ts 0%Z = te) by (symmetry; exact F2).
  split.
  { unfold grid. fold t0 te. rewrite Hts'. cbn [bind]. rewrite Hr. cbn [residuals_length].
    replace (Nat.ltb (length ts) 0) with false by reflexivity.
    rewrite Nat.sub_0_r, firstn_all. unfold model_grid. rewrite Hid.
    change (swing_id =? pmc_mean_id)%Z with false. change (swing_id =? swing_id)%Z with true. cbv iota.
    rewrite Hd. cbn [bind]. destruct ts as [|a ts'] eqn:Ets; [congruence|]. rewrite <- Ets in *.
    fold t0. rewrite Hend. reflexivity. }
  split.
  { apply Forall_forall. intros x Hx. apply in_map_iff in Hx. destruct Hx as (t & <- & Ht).
    exact (proj1 (Hcall t Ht)). }
  split; [exact H8|]. split; [exact Hlen|].
  assert (HD : IZR (te - t0) <> 0) by (apply not_0_IZR; lia).
  assert (Hstart : on_line t0 te (R32 first) (R32 last) t0 = R32 first).
  { unfold on_line. rewrite Z.sub_diag. field. exact HD. }
  assert (Hstop : on_line t0 te (R32 first) (R32 last) te = R32 last).
  { unfold on_line. field. exact HD. }
  assert (Hends : forall v, v = first \/ v = last ->
            exists x, In x (map line ts) /\ Rabs (R32 x - R32 v) <= e).
  { intros v [->| ->].
    - exists (line t0). split; [now apply in_map|]. rewrite <- Hstart. exact (proj2 (Hcall t0 Hin0)).
    - exists (line te). split; [now apply in_map|]. rewrite <- Hstop. exact (proj2 (Hcall te Hine)). }
  assert (Hall : forall x, In x (map line ts) ->
            R32 (sg_min s) - e <= R32 x <= R32 (sg_max s) + e).
  { intros x Hx. apply in_map_iff in Hx. destruct Hx as (t & <- & Ht).
    pose proof (proj2 (Hcall t Ht)) as H. apply Rabs_le_inv in H.
    pose proof (on_line_between t0 te (R32 first) (R32 last) t (Hbt t Ht) Hlt) as Hb.
    assert (Hb' : R32 (sg_min s) <= on_line t0 te (R32 first) (R32 last) t <= R32 (sg_max s)).
    { destruct Hfl as [[-> ->]|[-> ->]]; unfold Rmin, Rmax in Hb; destruct (Rle_dec _ _) in Hb; lra. }
    lra. }
  split.
  { split; [exact Hm|]. split; [apply Hends; destruct Hfl as [[-> ->]|[-> ->]]; auto|].
    intros x Hx. apply Hall in Hx. lra. }
  split.
  { split; [exact HM|]. split; [apply Hends; destruct Hfl as [[-> ->]|[-> ->]]; auto|].
    intros x Hx. apply Hall in Hx. lra. }
  split; [exact He0|].
  intros Hn.
  assert (HnM : INR (length ts) * size <= 2 ^ 120).
  { replace (2 ^ 120) with (2 ^ 24 * 2 ^ 96) by (rewrite <- pow_add; reflexivity).
    apply Rmult_le_compat.
    - apply pos_INR.
    - pose proof (Rabs_pos (R32 first)). lra.
    - rewrite INR_IZR_INZ, pow_IZR. now apply IZR_le.
    - exact Hsz. }
  assert (Htot : Rabs (total (map line ts) - sum_of (map (on_line t0 te (R32 first) (R32 last)) ts))
                 <= INR (length ts) * e).
  { apply total_map. intros t Ht. exact (proj2 (Hcall t Ht)). }
  assert (Hsum : exists x, swing_sum P t0 te (sg_timestamps s) first last 0 = Ok x /\ finite32 x
    /\ Rabs (R32 x - sum_of (map (on_line t0 te (R32 first) (R32 last)) ts)) <= INR (length ts) * e).
  { unfold swing_sum. rewrite F3.
    destruct (are_compressed_timestamps_regular (compress_residual_timestamps ts)) eqn:Ereg.
    - destruct (regular_arithmetic ts HV ltac:(lia) Ereg) as (d & Hd0 & Ets).
      unfold segment_len in Hlen. fold t0 te in Hlen. rewrite F3 in Hlen. rewrite Hlen. cbn [bind].
      rewrite Z.sub_0_r.
      assert (Elen : length ts = S (length ts - 1)) by lia.
      assert (Ete : te = (t0 + Z.of_nat (length ts - 1) * d)%Z).
      { transitivity (List.last (arithmetic t0 d (S (length ts - 1))) 0%Z).
        - rewrite <- Elen, F1, <- Ets. now symmetry.
        - apply arithmetic_last. }
      assert (Esum : sum_of (map (on_line t0 te (R32 first) (R32 last)) ts)
                     = IZR (Z.of_nat (length ts)) * ((R32 first + R32 last) / 2)).
      { transitivity (sum_of (map (on_line t0 (t0 + Z.of_nat (length ts - 1) * d)
                                     (R32 first) (R32 last)) (arithmetic t0 d (S (length ts - 1))))).
        - rewrite <- Elen, F1, <- Ets, <- F1, <- Ete. reflexivity.
        - rewrite arithmetic_line by lia. rewrite <- Elen, INR_IZR_INZ. reflexivity. }
      rewrite Esum. rewrite INR_IZR_INZ in HnM |- *.
      destruct (sum_regular P t0 te latest first last size _ HT Hst Hen Hlt Hf Hl
                  HfM HlM Hsz' eq_refl Htau' (Z.of_nat (length ts)) ltac:(lia) HnM) as [S1 S2].
      eexists. split; [reflexivity|]. split; [exact S1|exact S2].
    - rewrite <- F3, Hts'. cbn [bind]. rewrite Nat.sub_0_r, firstn_all.
      destruct (sum_irregular P t0 te latest first last size _ HT Hst Hen Hlt Hf Hl
                  HfM HlM Hsz' eq_refl Htau' ts) as [S1 S2]; auto.
      { apply Forall_forall. exact Hbt. }
      { lia. }
      eexists. split; [reflexivity|]. split; [exact S1|exact S2]. }
  destruct Hsum as (x & Ex & Hfx & Hx). exists x. split.
  { unfold segment_sum. fold (segment_len s). rewrite Hlen, Hr, Hid. cbn [bind residuals_length].
    change (swing_id =? pmc_mean_id)%Z with false. change (swing_id =? swing_id)%Z with true. cbv iota.
    rewrite Hd. cbn [bind]. fold t0 te. rewrite Ex. reflexivity. }
  split; [exact Hfx|].
  replace (R32 x - total (map line ts))
    with ((R32 x - sum_of (map (on_line t0 te (R32 first) (R32 last)) ts))
          - (total (map line ts) - sum_of (map (on_line t0 te (R32 first) (R32 last)) ts))) by ring.
  eapply Rle_trans; [apply Rabs_triang|]. rewrite Rabs_Ropp. lra.
Qed.

(** ** Segments of any kind *)
(** The rounding of the lines in [n] values. *)
Definition spread (e : R) (n : nat) : R := INR n * (2 * e).

Definition aggregated (P : platform) (e : R) (s : segment) (out : list f32) : Prop :=
  (exists ts, grid P s = Ok (ts, out)) /\ segment_len s = Ok (Z.of_nat (length out)) /\ out <> []
  /\ (Forall finite32 out -> near_least e (sg_min s) out /\ near_greatest e (sg_max s) out)
  /\ (Forall finite32 out -> (Z.of_nat (length out) <= 2 ^ 24)%Z ->
      growth (length out) * (magnitude out + spread e (length out)) <= bpow radix2 127 ->
      exists x, segment_sum P s = Ok x /\ finite32 x
        /\ Rabs (R32 x - total out)
           <= (growth (length out) - 1) * (magnitude out + spread e (length out))
              + spread e (length out)).

Lemma spread_pos : forall e n, 0 <= e -> 0 <= spread e n.
Proof. intros e n H. apply Rmult_le_pos; [apply pos_INR|lra]. Qed.

Lemma any_segment : forall P s size latest e, good_log2 P -> ties_first P -> created P s ->
  (latest <= 2 ^ 52)%Z -> size <= 2 ^ 96 -> 0 <= e -> lines_within size latest e s ->
  exists out, aggregated P e s out.
Proof.
  intros P s size latest e HP HT Hc Hla Hsz He Hw.
  destruct (Z.eq_dec (sg_model_type_id s) swing_id) as [Hid|Hid].
  - destruct (Hw Hid) as [Hp Hle].
    destruct (line_segment P s size latest Hc Hid Hp Hla Hsz)
      as (ts & out & G & Hf & H8 & HL & (A1 & A2 & A3) & (B1 & B2 & B3) & E0 & Hs).
    exists out. split; [eauto|]. split; [exact HL|]. split; [destruct out; [cbn in H8; lia|discriminate]|].
    split.
    + intros _. split; (split; [assumption|]).
      * split; [destruct A2 as (x & X1 & X2); exists x; split; [exact X1|lra]|].
        intros x Hx. apply A3 in Hx. lra.
      * split; [destruct B2 as (x & X1 & X2); exists x; split; [exact X1|lra]|].
        intros x Hx. apply B3 in Hx. lra.
    + intros _ Hn _. destruct (Hs Hn) as (x & X1 & X2 & X3). exists x. split; [exact X1|].
      split; [exact X2|]. eapply Rle_trans; [exact X3|].
      pose proof (growth_1 (length out)) as Hg. pose proof (magnitude_pos out) as Hm.
      pose proof (spread_pos e (length out) He) as Hsp.
      assert (0 <= (growth (length out) - 1) * (magnitude out + spread e (length out)))
        by (apply Rmult_le_pos; lra).
      assert (INR (length out) * (2 * line_error size latest s) <= spread e (length out)).
      { apply Rmult_le_compat_l; [apply pos_INR|lra]. }
      lra.
  - destruct (created_part P s Hc) as (eb & pts & Hp).
    destruct (part_shape P eb s pts HP HT Hp) as [Hl Hx]. destruct (Hx Hid) as (out & E & L & Hsh).
    exists out. split; [eauto|]. split; [now rewrite L|].
    destruct (shape_min P s out Hsh) as [(A1 & A2 & A3) (B1 & B2 & B3)].
    split; [intros ->; destruct A1|]. split.
    + intros Hf. rewrite Forall_forall in Hf. pose proof (Hf _ A1) as Hm. pose proof (Hf _ B1) as HM.
      split; (split; [assumption|]).
      * split; [exists (sg_min s); split; [exact A1|]; rewrite Rminus_eq_0, Rabs_R0; exact He|].
        intros x Hin. pose proof (A3 x Hin) as H. apply f32_le_iff in H; auto. lra.
      * split; [exists (sg_max s); split; [exact B1|]; rewrite Rminus_eq_0, Rabs_R0; exact He|].
        intros x Hin. pose proof (B3 x Hin) as H. apply f32_le_iff in H; auto. lra.
    + intros Hf Hn Hb.
      pose proof (growth_1 (length out)) as Hg. pose proof (magnitude_pos out) as Hm.
      pose proof (spread_pos e (length out) He) as Hsp.
      assert (0 <= (growth (length out) - 1) * spread e (length out)) by (apply Rmult_le_pos; lra).
      assert (0 <= growth (length out) * spread e (length out)) by (apply Rmult_le_pos; lra).
      destruct (shape_sum P s out Hsh Hf Hn) as (x & X1 & X2 & X3); [lra|].
      exists x. split; [exact X1|]. split; [exact X2|]. lra.
Qed.

Lemma all_segments : forall P segments size latest e, good_log2 P -> ties_first P ->
  (latest <= 2 ^ 52)%Z -> size <= 2 ^ 96 -> 0 <= e ->
  Forall (fun s => created P s /\ lines_within size latest e s) segments ->
  exists parts, Forall2 (aggregated P e) segments parts.
Proof.
  intros P segments size latest e HP HT Hla Hsz He H. induction H as [|s segments [Hc Hw] H [parts IH]].
  - exists []. constructor.
  - destruct (any_segment P s size latest e HP HT Hc Hla Hsz He Hw) as (out & Ho).
    exists (out :: parts). now constructor.
Qed.

Lemma aggregated_decompressed : forall P e segments parts, Forall2 (aggregated P e) segments parts ->
  decompressed P segments (concat parts).
Proof.
  intros P e segments parts H. exists parts. split; [|reflexivity].
  induction H as [|s out segments parts (H1 & _) H IH]; constructor; auto.
Qed.

Lemma max_value_largest : forall x, finite32 x -> R32 x <= R32 f32_max_value.
Proof.
  intros x _. pose proof (abs_B2R_le_emax_minus_prec 24 128 eq_refl x) as H. fold (R32 x) in H.
  assert (E : R32 f32_max_value = F2R (Float radix2 16777215 104)) by (vm_compute; reflexivity).
  rewrite E. apply Rabs_le_inv in H. destruct H as [_ H]. eapply Rle_trans; [exact H|].
  unfold F2R. cbn [Fnum Fexp]. change (bpow radix2 128) with (bpow radix2 (24 + 104)).
  rewrite bpow_plus. change (bpow radix2 24) with 16777216. change (bpow radix2 (128 - 24)) with (bpow radix2 104).
  lra.
Qed.
Lemma min_value_smallest : forall x, finite32 x -> R32 f32_min_value <= R32 x.
Proof.
  intros x _. pose proof (abs_B2R_le_emax_minus_prec 24 128 eq_refl x) as H. fold (R32 x) in H.
  assert (E : R32 f32_min_value = F2R (Float radix2 (-16777215) 104)) by (vm_compute; reflexivity).
  rewrite E. apply Rabs_le_inv in H. destruct H as [H _]. eapply Rle_trans; [|exact H].
  unfold F2R. cbn [Fnum Fexp]. change (bpow radix2 128) with (bpow radix2 (24 + 104)).
  rewrite bpow_plus. change (bpow radix2 24) with 16777216. change (bpow radix2 (128 - 24)) with (bpow radix2 104).
  lra.
Qed.

Lemma near_min_max : forall P segments size latest e, good_log2 P -> ties_first P ->
  (latest <= 2 ^ 52)%Z -> size <= 2 ^ 96 -> 0 <= e -> segments <> [] ->
  Forall (fun s => created P s /\ lines_within size latest e s) segments ->
  exists restored, decompressed P segments restored
    /\ (Forall finite32 restored ->
        near_least e (model_min P segments) restored
        /\ near_greatest e (model_max P segments) restored).
Proof.
  intros P segments size latest e HP HT Hla Hsz He Hne H.
  destruct (all_segments P segments size latest e HP HT Hla Hsz He H) as (parts & Hp).
  exists (concat parts). split; [now apply aggregated_decompressed with e|]. intros Hf.
  assert (Hin : forall s, In s segments -> exists out, incl out (concat parts)
            /\ near_least e (sg_min s) out /\ near_greatest e (sg_max s) out).
  { clear - Hp Hf. induction Hp as [|s out segments parts (_ & _ & _ & A & _) Hp IH];
      intros x [].
    - subst. cbn [concat] in Hf. apply Forall_app in Hf. exists out. cbn [concat].
      split; [apply incl_appl, incl_refl|]. now apply A.
    - cbn [concat] in *. apply Forall_app in Hf. destruct (IH (proj2 Hf) x H) as (o & O1 & O2).
      exists o. split; [now apply incl_appr|exact O2]. }
  assert (Hval : forall v, In v (concat parts) -> exists s, In s segments
            /\ R32 (sg_min s) - e <= R32 v <= R32 (sg_max s) + e).
  { clear - Hp Hf. induction Hp as [|s out segments parts (_ & _ & _ & A & _) Hp IH];
      intros v Hv; [destruct Hv|]. cbn [concat] in *. apply Forall_app in Hf. destruct Hf as [F1 F2].
    apply in_app_or in Hv. destruct Hv as [Hv|Hv].
    - destruct (A F1) as [(_ & _ & A3) (_ & _ & B3)]. exists s. split; [now left|].
      split; [now apply A3|now apply B3].
    - destruct (IH F2 v Hv) as (s' & S1 & S2). exists s'. split; [now right|exact S2]. }
  assert (Hmins : Forall (fun x => f32_is_nan x = false) (map sg_min segments)
                  /\ Forall (fun x => f32_is_nan x = false) (map sg_max segments)).
  { split; apply Forall_map, Forall_forall; intros s Hs;
      destruct (Hin s Hs) as (o & _ & (A & _) & (B & _)); now apply finite_not_nan. }
  destruct Hmins as [Hn1 Hn2].
  destruct segments as [|s0 segments]; [congruence|]. clear Hne.
  set (segs := s0 :: segments) in *.
  assert (Hs0 : In s0 segs) by (now left). clearbody segs.
  destruct (Hin s0 Hs0) as (_ & _ & (F0 & _) & (F0' & _)).
  unfold model_min, model_max.
  rewrite (fold_left_map _ _ _ (f32_min P) sg_min), (fold_left_map _ _ _ (f32_max P) sg_max).
  destruct (fold_min_in P (map sg_min segs) f32_max_value (finite_not_nan _ max_value_finite) Hn1)
    as (J1 & J2 & J3).
  destruct (fold_max_in P (map sg_max segs) f32_min_value (finite_not_nan _ min_value_finite) Hn2)
    as (K1 & K2 & K3).
  set (m := fold_left (f32_min P) (map sg_min segs) f32_max_value) in *.
  set (M := fold_left (f32_max P) (map sg_max segs) f32_min_value) in *.
  assert (Hm : finite32 m /\ exists s, In s segs /\ R32 m = R32 (sg_min s)).
  { destruct J1 as [J1|J1].
    - rewrite <- J1 in *. split; [exact max_value_finite|]. exists s0. split; [exact Hs0|].
      pose proof (J3 (sg_min s0) (or_intror (in_map _ _ _ Hs0))) as H1.
      apply f32_le_iff in H1; [|exact max_value_finite|exact F0].
      pose proof (max_value_largest (sg_min s0) F0). lra.
    - apply in_map_iff in J1. destruct J1 as (s & E & Hs). rewrite <- E.
      destruct (Hin s Hs) as (_ & _ & (F & _) & _). split; [exact F|]. eauto. }
  assert (HM : finite32 M /\ exists s, In s segs /\ R32 M = R32 (sg_max s)).
  { destruct K1 as [K1|K1].
    - rewrite <- K1 in *. split; [exact min_value_finite|]. exists s0. split; [exact Hs0|].
      pose proof (K3 (sg_max s0) (or_intror (in_map _ _ _ Hs0))) as H1.
      apply f32_le_iff in H1; [|exact F0'|exact min_value_finite].
      pose proof (min_value_smallest (sg_max s0) F0'). lra.
    - apply in_map_iff in K1. destruct K1 as (s & E & Hs). rewrite <- E.
      destruct (Hin s Hs) as (_ & _ & _ & (F & _)). split; [exact F|]. eauto. }
  destruct Hm as (Fm & sm & Sm & Em). destruct HM as (FM & sM & SM & EM).
  split; (split; [assumption|]); split.
  - destruct (Hin sm Sm) as (o & O1 & (_ & (x & X1 & X2) & _) & _).
    exists x. split; [now apply O1|]. now rewrite Em.
  - intros v Hv. destruct (Hval v Hv) as (s & S1 & S2 & _).
    pose proof (J3 (sg_min s) (or_intror (in_map _ _ _ S1))) as H1.
    destruct (Hin s S1) as (_ & _ & (F & _) & _). apply f32_le_iff in H1; auto. lra.
  - destruct (Hin sM SM) as (o & O1 & _ & (_ & (x & X1 & X2) & _)).
    exists x. split; [now apply O1|]. now rewrite EM.
  - intros v Hv. destruct (Hval v Hv) as (s & S1 & _ & S2).
    pose proof (K3 (sg_max s) (or_intror (in_map _ _ _ S1))) as H1.
    destruct (Hin s S1) as (_ & _ & _ & (F & _)). apply f32_le_iff in H1; auto. lra.
Qed.

(** ** Sums of segments of any kind *)
Lemma spread_plus : forall e a b, spread e (a + b) = spread e a + spread e b.
Proof. intros e a b. unfold spread. rewrite plus_INR. ring. Qed.

Lemma sum_any : forall P e segments parts, 0 <= e -> Forall2 (aggregated P e) segments parts ->
  forall acc count,
  finite64 acc -> Forall finite32 (concat parts) -> Forall (short P) segments ->
  let k := (length (concat parts) + length segments)%nat in
  let D := spread e (length (concat parts)) in
  let M := Rabs (R64 acc) + (magnitude (concat parts) + D) in
  growth k * M <= bpow radix2 127 ->
  (0 <= count)%Z -> (count + Z.of_nat (length (concat parts)) < 2 ^ 64)%Z ->
  exists x, model_sum P acc segments = Ok x
    /\ model_avg P count acc segments = Ok (count + Z.of_nat (length (concat parts)), x)%Z
    /\ finite64 x
    /\ Rabs (R64 x - (R64 acc + total (concat parts))) <= (growth k - 1) * M + D.
Proof.
  intros P e segments parts He H.
  induction H as [|s out segments parts ((ts & Hg) & Hlen & _ & _ & Hsum) H IH];
    intros acc count Ha Hf Hshort k D M Hb Hc1 Hc2.
  - exists acc. split; [reflexivity|]. split; [cbn; now rewrite Z.add_0_r|]. split; [exact Ha|].
    unfold k, M, D, spread. cbn [concat total magnitude fold_right length Nat.add INR]. unfold growth.
    cbn [pow]. replace (R64 acc - (R64 acc + 0)) with 0 by ring. rewrite Rabs_R0. lra.
  - cbn [concat] in *. apply Forall_app in Hf. destruct Hf as [Hfo Hf].
    apply Forall_cons_iff in Hshort. destruct Hshort as [Hso Hshort].
    unfold k, M, D in *. rewrite magnitude_app, app_length, spread_plus in *. rewrite total_app.
    clear k M D. cbn [length] in *.
    replace (length out + length (concat parts) + S (length segments))%nat
      with (S (length out) + (length (concat parts) + length segments))%nat in * by lia.
    rewrite (growth_plus (S (length out))), (growth_S (length out)) in Hb |- *.
    specialize (Hsum Hfo (Hso ts out Hg)). pose proof (total_le out) as Ht.
    pose proof (spread_pos e (length out) He) as Hd.
    pose proof (spread_pos e (length (concat parts)) He) as HD.
    pose proof (magnitude_pos out) as Hmo. pose proof (magnitude_pos (concat parts)) as HMo.
    set (n := length out) in *. set (K := (length (concat parts) + length segments)%nat) in *.
    set (A := Rabs (R64 acc)) in *.
    set (d := spread e n) in *. set (D := spread e (length (concat parts))) in *.
    set (mo := magnitude out) in *. set (Mo := magnitude (concat parts)) in *.
    replace (A + (mo + Mo + (d + D))) with (A + ((mo + d) + (Mo + D))) in * by ring.
    set (m := mo + d) in *. set (M := Mo + D) in *.
    set (g := growth n) in *. set (G := growth K) in *. set (u := unit32) in *.
    set (B := bpow radix2 127) in *.
    assert (Hu : 0 < u) by apply unit32_pos.
    assert (Hg1 : 1 <= g) by apply growth_1. assert (HG1 : 1 <= G) by apply growth_1.
    assert (HA : 0 <= A) by apply Rabs_pos. assert (Hm : 0 <= m) by (unfold m; lra).
    assert (HM : 0 <= M) by (unfold M; lra).
    assert (Hug : g <= (1 + u) * g).
    { assert (0 <= u * g) by (apply Rmult_le_pos; lra). lra. }
    assert (HgG : (1 + u) * g <= (1 + u) * g * G).
    { rewrite <- (Rmult_1_r ((1 + u) * g)) at 1. apply Rmult_le_compat_l; lra. }
    assert (T1 : (1 + u) * g * (A + m) <= B).
    { apply Rle_trans with ((1 + u) * g * G * (A + (m + M))); [|exact Hb].
      apply Rmult_le_compat; lra. }
    assert (T2 : g * (A + m) <= (1 + u) * g * (A + m)) by (apply Rmult_le_compat_r; lra).
    destruct Hsum as (x & Ex & Hfx & Hex).
    { assert (g * m <= g * (A + m)) by (apply Rmult_le_compat_l; lra). lra. }
    destruct (f64_of_f32_finite x Hfx) as [Hf64 Hr64].
    assert (Hx : Rabs (R32 x) <= g * m).
    { replace (R32 x) with (R32 x - total out + total out) by ring.
      eapply Rle_trans; [apply Rabs_triang|].
      rewrite Rmult_minus_distr_r in Hex. unfold m in *. lra. }
    assert (HgA : A <= g * A).
    { rewrite <- (Rmult_1_l A) at 1. apply Rmult_le_compat_r; lra. }
    assert (Hax : Rabs (R64 acc + R32 x) <= A + g * m).
    { eapply Rle_trans; [apply Rabs_triang|]. fold A. lra. }
    destruct (f64_add_error acc (f64_of_f32 x) Ha Hf64) as [Hp1 Hp2].
    { rewrite Hr64. fold B. rewrite Rmult_plus_distr_l in T2. lra. }
    rewrite Hr64 in Hp2. fold u in Hp2. set (acc' := f64_add acc (f64_of_f32 x)) in *.
    assert (Hacc' : Rabs (R64 acc') <= (1 + u) * g * (A + m)).
    { replace (R64 acc') with (R64 acc' - (R64 acc + R32 x) + (R64 acc + R32 x)) by ring.
      eapply Rle_trans; [apply Rabs_triang|].
      apply Rle_trans with ((1 + u) * (A + g * m)).
      - assert (u * Rabs (R64 acc + R32 x) <= u * (A + g * m)) by (apply Rmult_le_compat_l; lra). lra.
      - rewrite Rmult_assoc. apply Rmult_le_compat_l; lra. }
    assert (HM' : Rabs (R64 acc') + M <= (1 + u) * g * (A + (m + M))).
    { assert (M <= (1 + u) * g * M).
      { rewrite <- (Rmult_1_l M) at 1. apply Rmult_le_compat_r; lra. }
      replace ((1 + u) * g * (A + (m + M))) with ((1 + u) * g * (A + m) + (1 + u) * g * M) by ring.
      lra. }
    destruct (IH acc' (u64 (count + Z.of_nat n)) Hp1 Hf Hshort) as (y & Y1 & Y2 & Y3 & Y4).
    { fold K G. change (magnitude (concat parts) + spread e (length (concat parts))) with M.
      eapply Rle_trans; [|exact Hb].
      replace ((1 + u) * g * G * (A + (m + M))) with (G * ((1 + u) * g * (A + (m + M)))) by ring.
      apply Rmult_le_compat_l; lra. }
    { unfold u64. rewrite Z.mod_small; lia. }
    { unfold u64. rewrite Z.mod_small; lia. }
    exists y. cbn [model_sum model_avg]. rewrite Ex, Hlen. cbn [bind]. fold acc'.
    split; [exact Y1|]. split.
    { rewrite Y2. unfold u64. rewrite Z.mod_small by lia. f_equal. f_equal. lia. }
    split; [exact Y3|].
    fold K G in Y4. change (magnitude (concat parts) + spread e (length (concat parts))) with M in Y4.
    fold D in Y4.
    replace (R64 y - (R64 acc + (total out + total (concat parts))))
      with ((R64 y - (R64 acc' + total (concat parts)))
            + ((R64 acc' - (R64 acc + R32 x)) + (R32 x - total out))) by ring.
    eapply Rle_trans; [apply Rabs_triang|].
    assert (E1 : Rabs (R64 acc' - (R64 acc + R32 x) + (R32 x - total out))
                 <= u * (A + g * m) + (g - 1) * m + d).
    { eapply Rle_trans; [apply Rabs_triang|].
      assert (u * Rabs (R64 acc + R32 x) <= u * (A + g * m)) by (apply Rmult_le_compat_l; lra). lra. }
    assert (Hug2 : 1 + u <= (1 + u) * g).
    { rewrite <- (Rmult_1_r (1 + u)) at 1. apply Rmult_le_compat_l; lra. }
    assert (E2 : u * A <= ((1 + u) * g - 1) * A) by (apply Rmult_le_compat_r; lra).
    assert (E3 : u * (A + g * m) + (g - 1) * m <= ((1 + u) * g - 1) * (A + m)).
    { replace (((1 + u) * g - 1) * (A + m)) with (((1 + u) * g - 1) * A + (u * (g * m) + (g - 1) * m)) by ring.
      lra. }
    assert (E4 : ((1 + u) * g - 1) * (A + m) <= ((1 + u) * g - 1) * (A + (m + M)))
      by (apply Rmult_le_compat_l; lra).
    assert (E5 : (G - 1) * (Rabs (R64 acc') + M) <= (G - 1) * ((1 + u) * g * (A + (m + M))))
      by (apply Rmult_le_compat_l; lra).
    replace (((1 + u) * g * G - 1) * (A + (m + M)))
      with ((G - 1) * ((1 + u) * g * (A + (m + M))) + ((1 + u) * g - 1) * (A + (m + M))) by ring.
    lra.
Qed.

Lemma near_sum_avg : forall P segments size latest e, good_log2 P -> ties_first P ->
  (latest <= 2 ^ 52)%Z -> size <= 2 ^ 96 -> 0 <= e ->
  Forall (fun s => created P s /\ lines_within size latest e s) segments ->
  Forall (short P) segments ->
  exists restored, decompressed P segments restored
    /\ (Forall finite32 restored -> (Z.of_nat (length restored) < 2 ^ 64)%Z ->
        let factor := (1 + unit32) ^ (length restored + length segments) in
        let lines := INR (length restored) * (2 * e) in
        factor * (magnitude restored + lines) <= IZR (2 ^ 127) ->
        exists sum, model_sum P f64_zero segments = Ok sum
          /\ model_avg P 0 f64_zero segments = Ok (Z.of_nat (length restored), sum)
          /\ finite64 sum
          /\ Rabs (R64 sum - total restored)
             <= (factor - 1) * (magnitude restored + lines) + lines).
Proof.
  intros P segments size latest e HP HT Hla Hsz He H Hs.
  destruct (all_segments P segments size latest e HP HT Hla Hsz He H) as (parts & Hp).
  exists (concat parts). split; [now apply aggregated_decompressed with e|].
  intros Hf Hl factor lines Hb.
  destruct (sum_any P e segments parts He Hp f64_zero 0%Z eq_refl Hf Hs) as (x & X1 & X2 & X3 & X4).
  - change (R64 f64_zero) with 0. rewrite Rabs_R0, Rplus_0_l.
    change (bpow radix2 127) with (IZR (2 ^ 127)). exact Hb.
  - lia.
  - lia.
  - exists x. change (R64 f64_zero) with 0 in X4. rewrite Rabs_R0, !Rplus_0_l in X4.
    rewrite Z.add_0_l in X2. auto.
Qed.
