(** Aggregates computed from segments. *)
From Coq Require Import ZArith Reals Bool Lia Lra List.
From Flocq Require Import Core Plus_error Relative IEEE754.Binary.
From Verif Require Import Model.Base Model.Bits Model.Timestamps Model.Float Model.ErrorBound
  Model.MacaqueV Model.Pmc Model.Swing Model.Segments Model.Aggregates
  Spec.TimestampsSpec Spec.ErrorBoundSpec Spec.PlatformSpec Spec.MacaqueVSpec Spec.PmcSpec
  Spec.SwingSpec Spec.SegmentsSpec Spec.GridSpec Spec.AggregateSpec
  Spec.BitsSpec Proofs.BitsProofs
  Proofs.FloatProofs Proofs.ErrorBoundProofs Proofs.OrderProofs Proofs.TimestampsProofs
  Proofs.MacaqueVProofs Proofs.MacaqueVLossyProofs Proofs.PmcProofs
  Proofs.ParameterProofs Proofs.SegmentsProofs Proofs.SelectionProofs Proofs.GridProofs
  Proofs.SwingNanProofs Proofs.RestoreProofs.
Import ListNotations.
Open Scope Z_scope.

(** ** Created segments *)
Lemma forall2_in_l : forall (A B : Type) (R : A -> B -> Prop) la lb a,
  Forall2 R la lb -> In a la -> exists b, In b lb /\ R a b.
Proof.
  intros A B R la lb a H. induction H as [|x y la lb Hxy H IH]; intros Hin; [destruct Hin|].
  destruct Hin as [->|Hin]; [exists y; split; [now left|exact Hxy]|].
  destruct (IH Hin) as (b & Hb & Hr). exists b. split; [now right|exact Hr].
Qed.

(** The part of the series a segment was built from. *)
Definition part_of (P : platform) (eb : error_bound) (s : segment) (pts : list point) : Prop :=
  valid_error_bound eb
  /\ (forall e, eb = Relative e -> (R32 e < 100)%R \/ same_sign (map snd pts))
  /\ Forall (rewritable eb) (map snd pts)
  /\ Forall (fun v => f32_is_nan v = false) (map snd pts)
  /\ valid_timestamps (map fst pts) /\ span_fits (map fst pts)
  /\ built P eb s pts.

Lemma created_part : forall P s, created P s -> exists eb pts, part_of P eb s pts.
Proof.
  intros P s (eb & ts & vs & segs & He & Hrel & Hre & Hnan & Hv & Hspan & Hl & E & Hin).
  destruct (compress_built P eb ts vs ltac:(apply Hv) Hl) as (segs' & parts & E1 & E2 & E3).
  assert (segs' = segs) by congruence. subst segs'.
  destruct (forall2_in_l _ _ _ _ _ _ E3 Hin) as (part & Hp & Hb).
  exists eb, part.
  destruct (combine_map ts vs Hl) as [C1 C2].
  assert (Hvals : incl (map snd part) vs).
  { intros v H. apply in_map_iff in H. destruct H as (p & <- & Hin').
    rewrite <- C2, <- E2. apply in_map. eapply in_part; eauto. }
  assert (Htss : incl (map fst part) ts).
  { intros v H. apply in_map_iff in H. destruct H as (p & <- & Hin').
    rewrite <- C1, <- E2. apply in_map. eapply in_part; eauto. }
  assert (Hpv : Forall (fun part => valid_timestamps (map fst part)) parts).
  { eapply parts_valid; [|exact Hv|].
    - eapply forall2_left; [|exact E3]. apply built_not_empty.
    - rewrite E2. exact C1. }
  rewrite Forall_forall in *. split; [exact He|].
  split; [|split; [|split; [|split; [|split]]]].
  - intros e Ee. destruct (Hrel e Ee) as [H|H]; [now left|]. right.
    exact (same_sign_sub _ _ Hvals H).
  - apply Forall_forall. auto.
  - apply Forall_forall. auto.
  - auto.
  - intros t t' H1 H2. apply Hspan; apply Htss; assumption.
  - exact Hb.
Qed.

(** ** Minimum and maximum of the stored values *)
Lemma mv_min_fold : forall P values m,
  let stored := stored_values P (mv_error_bound m) (mv_last m) values in
  mv_min (fold_left (compress_value_xor_last_value P) values m)
  = fold_left (f32_min P) stored (mv_min m)
  /\ mv_max (fold_left (compress_value_xor_last_value P) values m)
  = fold_left (f32_max P) stored (mv_max m).
Proof.
  intros P. induction values as [|v values IH]; intros m; [split; reflexivity|].
  cbn [fold_left stored_values]. cbv zeta.
  assert (E : mv_min (compress_value_xor_last_value P m v)
              = f32_min P (mv_min m) (stored_value P (mv_error_bound m) (mv_last m) v)
           /\ mv_max (compress_value_xor_last_value P m v)
              = f32_max P (mv_max m) (stored_value P (mv_error_bound m) (mv_last m) v)
           /\ mv_last (compress_value_xor_last_value P m v)
              = stored_value P (mv_error_bound m) (mv_last m) v
           /\ mv_error_bound (compress_value_xor_last_value P m v) = mv_error_bound m).
  { unfold compress_value_xor_last_value. destruct (append_value_xor_last_value _ _ _ _ _) as [[b l] t].
    repeat split. }
  destruct E as (E1 & E2 & E3 & E4). destruct (IH (compress_value_xor_last_value P m v)) as [I1 I2].
  rewrite E3, E4 in I1, I2. rewrite I1, I2, E1, E2. split; reflexivity.
Qed.

Lemma without_first_min_max : forall P eb values last,
  let m := compress_values_without_first P (macaque_v_new eb) values last in
  snd (fst (macaque_v_model m)) = fold_left (f32_min P) (stored_values P eb last values) f32_nan
  /\ snd (macaque_v_model m) = fold_left (f32_max P) (stored_values P eb last values) f32_nan.
Proof.
  intros P eb values last. cbv zeta. unfold compress_values_without_first, macaque_v_model.
  cbn [fst snd].
  set (m0 := MacaqueV (mv_error_bound (macaque_v_new eb)) _ _ last _ _ _ _).
  destruct (mv_min_fold P values m0) as [I1 I2].
  change (mv_error_bound m0) with eb in I1, I2. change (mv_last m0) with last in I1, I2.
  rewrite I1, I2. split; reflexivity.
Qed.

Lemma compress_values_not_empty : forall P values m, wf_macaque m ->
  b_bytes (mv_compressed m) <> [] ->
  fold_left (compress_value P) values m = fold_left (compress_value_xor_last_value P) values m.
Proof.
  intros P. induction values as [|w values IH]; intros m Hm Hne; [reflexivity|].
  cbn [fold_left]. unfold compress_value at 2, builder_is_empty.
  destruct (b_bytes (mv_compressed m)) eqn:Eb; [congruence|]. clear Hne.
  destruct (compress_loop_correct P [w] m Hm) as (Hm1 & bits & _ & E1 & _).
  cbn [fold_left] in Hm1, E1.
  apply IH; auto. intros C.
  pose proof (builder_bits_length _ (proj1 Hm1)) as L1.
  pose proof (builder_bits_length _ (proj1 Hm)) as L0.
  rewrite E1, app_length, C in L1. rewrite Eb in L0. cbn [length] in *.
  destruct Hm as [[HR _] _]. destruct Hm1 as [[HR1 _] _]. lia.
Qed.

Lemma with_first_min_max : forall P eb v values,
  let m := compress_values P (macaque_v_new eb) (v :: values) in
  snd (fst (macaque_v_model m)) = fold_left (f32_min P) (stored_values P eb v values) v
  /\ snd (macaque_v_model m) = fold_left (f32_max P) (stored_values P eb v values) v.
Proof.
  intros P eb v values. cbv zeta. unfold compress_values, macaque_v_model. cbn [fst snd fold_left].
  destruct (append_bits_correct builder_new (to_bits v) 32 wf_builder_new ltac:(lia)
              ltac:(pose proof (to_bits_range v); unfold is_u32 in *; lia)) as [Hb Eb].
  change (builder_bits builder_new) with (@nil bool) in Eb. cbn [app] in Eb.
  unfold compress_value at 2 4. change (builder_is_empty (mv_compressed (macaque_v_new eb))) with true.
  cbv iota. unfold update_min_max_and_last_value.
  set (m0 := MacaqueV _ _ _ v _ _ _ _).
  assert (Hw : wf_macaque m0).
  { split; [exact Hb|left; split; reflexivity]. }
  assert (Hne : b_bytes (mv_compressed m0) <> []).
  { intros C. pose proof (builder_bits_length _ Hb) as HL.
    change (append_bits builder_new (to_bits v) 32) with (mv_compressed m0) in HL, Hb, Eb.
    rewrite C, Eb in HL. rewrite bits_of_length in HL. destruct Hb as [HR _]. cbn [length] in HL. lia. }
  rewrite (compress_values_not_empty P values m0 Hw Hne).
  destruct (mv_min_fold P values m0) as [I1 I2].
  change (mv_error_bound m0) with eb in I1, I2. change (mv_last m0) with v in I1, I2.
  rewrite I1, I2. split; reflexivity.
Qed.

(** ** The shape of a segment that is not a line *)
Inductive shape (P : platform) (s : segment) : list f32 -> Prop :=
| shape_constant : forall v n rs, (8 <= n)%nat -> (length rs <= 255)%nat ->
    f32_is_nan v = false -> Forall (fun x => f32_is_nan x = false) rs ->
    sg_min s = f32_min P v (fold_left (f32_min P) rs f32_nan) ->
    sg_max s = f32_max P v (fold_left (f32_max P) rs f32_nan) ->
    segment_sum P s = Ok (match rs with
                          | [] => pmc_sum_of n v
                          | _ => f32_add (pmc_sum_of n v) (sum_f32 f32_zero rs)
                          end) ->
    shape P s (repeat v n ++ rs)
| shape_values : forall v rs, f32_is_nan v = false -> Forall (fun x => f32_is_nan x = false) rs ->
    sg_min s = fold_left (f32_min P) rs v -> sg_max s = fold_left (f32_max P) rs v ->
    segment_sum P s = Ok (sum_f32 v rs) -> shape P s (v :: rs).

Lemma within_not_nan : forall slack eb l out, Forall2 (within_bound slack eb) l out ->
  Forall (fun v => f32_is_nan v = false) l -> Forall (fun v => f32_is_nan v = false) out.
Proof.
  intros slack eb l out H. induction H as [|x y l out Hxy H IH]; intros Hn; constructor.
  - apply Forall_cons_iff in Hn. destruct Hn as [Hx _].
    destruct Hxy as [Hs|(_ & Hf & _)].
    + exact (same_number_nan _ _ Hs Hx).
    + destruct (f32_is_nan y) eqn:E; [|reflexivity]. now apply nan_not_finite in E.
  - apply IH. now apply Forall_cons_iff in Hn.
Qed.

Lemma part_shape : forall P eb s pts, good_log2 P -> ties_first P -> part_of P eb s pts ->
  segment_len s = Ok (Z.of_nat (length pts))
  /\ (sg_model_type_id s <> swing_id ->
      exists out, grid P s = Ok (map fst pts, out) /\ length out = length pts /\ shape P s out).
Proof.
  intros P eb s pts HP HT (He & Hrel & Hre & Hnan & Hv & Hspan & Hb).
  destruct Hb as [sb i mpts rpts Hf Hr|pts Hne].
  - destruct (assemble_fields P eb sb mpts rpts) as (F1 & F2 & F3 & F4 & F5). cbv zeta in *.
    assert (Hlen : segment_len (assemble P eb sb mpts rpts) = Ok (Z.of_nat (length (mpts ++ rpts)))).
    { unfold segment_len. rewrite F2, F3, F4, len_correct by exact Hv. now rewrite map_length. }
    split; [exact Hlen|].
    rewrite F1. destruct Hf as [H8 [(m & -> & Hfit)|(m & -> & Hfit)]].
    2:{ intros H. exfalso. apply H. unfold select_swing. destruct (swing_model P m). reflexivity. }
    intros _. set (sb := select_pmc_mean i m) in *. set (v := pmc_model m).
    assert (Hm : mpts <> []) by (destruct mpts; [cbn in H8; lia|discriminate]).
    rewrite map_app in Hre, Hnan. apply Forall_app in Hre. destruct Hre as [Hre1 Hre2].
    apply Forall_app in Hnan. destruct Hnan as [Hnan1 Hnan2].
    assert (Hw : forall x, In x (map snd mpts) -> within_bound check_slack eb x v).
    { apply (pmc_fit_all_within P eb (map snd mpts) m He); [|exact Hfit].
      intros e Ee. destruct (Hrel e Ee) as [H|H]; [now left|]. right.
      rewrite map_app in H. revert H. apply same_sign_sub. apply incl_appl, incl_refl. }
    assert (L : (1 <= length mpts)%nat) by (destruct mpts; [congruence|cbn; lia]).
    assert (Hvn : f32_is_nan v = false).
    { assert (HF : Forall2 (within_bound check_slack eb) (map snd mpts) (repeat v (length (map snd mpts))))
        by (now apply forall2_repeat).
      apply within_not_nan in HF; [|exact Hnan1]. rewrite Forall_forall in HF. apply HF.
      rewrite map_length. destruct mpts; [congruence|]. now left. }
    set (rs := stored_values P eb v (map snd rpts)).
    assert (Hrs : Forall (fun x => f32_is_nan x = false) rs).
    { apply (within_not_nan check_slack eb (map snd rpts)); [|exact Hnan2].
      now apply stored_values_within. }
    assert (Lrs : length rs = length rpts) by (unfold rs; now rewrite stored_values_length, map_length).
    assert (Hdec : decode_values_for_pmc_mean (sg_min (assemble P eb sb mpts rpts))
                     (sg_max (assemble P eb sb mpts rpts)) (sg_values (assemble P eb sb mpts rpts)) = Ok v
      /\ sg_min (assemble P eb sb mpts rpts) = f32_min P v (fold_left (f32_min P) rs f32_nan)
      /\ sg_max (assemble P eb sb mpts rpts) = f32_max P v (fold_left (f32_max P) rs f32_nan)
      /\ (rpts = [] -> sg_residuals (assemble P eb sb mpts rpts) = [])
      /\ (rpts <> [] -> sg_residuals (assemble P eb sb mpts rpts) <> []
           /\ macaque_v_grid (residual_bytes (sg_residuals (assemble P eb sb mpts rpts))) (length rpts)
               (Some v) = Ok rs
           /\ macaque_v_sum (length rpts) (residual_bytes (sg_residuals (assemble P eb sb mpts rpts)))
               (Some v) = Ok (sum_f32 f32_zero rs))).
    { unfold assemble. destruct rpts as [|p rpts].
      - unfold rs. cbn [sg_min sg_max sg_values sb select_pmc_mean sb_min sb_max sb_values sg_residuals
             decode_values_for_pmc_mean bind map stored_values fold_left].
        fold v. rewrite (f32_min_nan_r P v f32_nan Hvn eq_refl), (f32_max_nan_r P v f32_nan Hvn eq_refl).
        split; [reflexivity|]. split; [reflexivity|]. split; [reflexivity|].
        split; [reflexivity|]. congruence.
      - destruct (without_first_round_trip P eb v (map snd (p :: rpts))) as (_ & E1 & E2); [discriminate|].
        destruct (without_first_min_max P eb (map snd (p :: rpts)) v) as [E3 E4].
        change (sb_model_last_value sb) with v.
        destruct (macaque_v_model _) as [[bytes rmin] rmax].
        cbn [fst snd] in E1, E2, E3, E4. rewrite map_length in E1, E2. fold rs in E1, E2, E3, E4.
        cbn [sg_min sg_max sg_values sg_residuals sb select_pmc_mean sb_min sb_max sb_values sb_model_type_id].
        change (pmc_mean_id =? pmc_mean_id) with true. cbv iota. fold v.
        destruct (pmc_parameters P v rmin rmax Hvn) as (v' & E & _ & Ht). rewrite E, (Ht HT).
        rewrite E3, E4. split; [reflexivity|]. split; [reflexivity|]. split; [reflexivity|].
        split; [discriminate|]. intros _. unfold residual_bytes. rewrite removelast_last.
        split; [|split; assumption]. destruct bytes; discriminate. }
    destruct Hdec as (D1 & D2 & D3 & D4 & D5).
    assert (Hmg : model_grid P (assemble P eb sb mpts rpts) (map fst mpts) = Ok (repeat v (length mpts))).
    { unfold model_grid. rewrite F1. change (sb_model_type_id sb =? pmc_mean_id) with true. cbv iota.
      rewrite D1. cbn [bind]. rewrite map_length. reflexivity. }
    assert (Hsum : segment_sum P (assemble P eb sb mpts rpts)
                   = Ok (match rs with
                          | [] => pmc_sum_of (length mpts) v
                          | _ => f32_add (pmc_sum_of (length mpts) v) (sum_f32 f32_zero rs)
                          end)).
    { unfold segment_sum. fold (segment_len (assemble P eb sb mpts rpts)). rewrite Hlen, F1, F5.
      cbn [bind]. change (sb_model_type_id sb =? pmc_mean_id) with true. cbv iota.
      rewrite D1. cbn [bind].
      replace (Z.to_nat (Z.of_nat (length (mpts ++ rpts)) - Z.of_nat (length rpts)))
        with (length mpts) by (rewrite app_length; lia).
      destruct rpts as [|p rpts].
      - rewrite (D4 eq_refl). unfold rs. reflexivity.
      - destruct (D5 ltac:(discriminate)) as (G1 & _ & G2).
        destruct (sg_residuals (assemble P eb sb mpts (p :: rpts))); [congruence|].
        rewrite G2. cbn [bind]. destruct rs; [discriminate Lrs|]. reflexivity. }
    exists (repeat v (length mpts) ++ rs). split.
    { rewrite (grid_assemble P eb sb mpts rpts Hm Hv), Hmg. cbn [bind].
      destruct rpts as [|p rpts].
      - unfold rs. cbn [map stored_values]. rewrite !app_nil_r. reflexivity.
      - destruct (repeat v (length mpts)) as [|w ws] eqn:Er.
        { destruct mpts; [congruence|discriminate]. }
        rewrite <- Er in *. rewrite last_repeat by exact L.
        destruct (without_first_round_trip P eb v (map snd (p :: rpts))) as (_ & E1 & _); [discriminate|].
        rewrite map_length in E1. unfold model_of. change (sb_model_last_value sb) with v.
        rewrite E1. reflexivity. }
    split; [rewrite !app_length, repeat_length; lia|].
    constructor; auto. lia.
  - split.
    { unfold segment_len, assemble_residuals. destruct (macaque_v_model _) as [[values min] max].
      cbn [sg_start_time sg_end_time sg_timestamps]. rewrite len_correct by exact Hv.
      now rewrite map_length. }
    intros _. destruct pts as [|[t v] pts]; [congruence|].
    assert (Hout : Forall2 (within_bound check_slack eb) (map snd ((t, v) :: pts))
                     (v :: stored_values P eb v (map snd pts))).
    { constructor.
      - left. apply equal_or_nan_iff. cbn [snd]. apply equal_or_nan_iff.
        destruct (finite_or_not v) as [Hfv|[Hi|Hn]].
        + left. auto.
        + right. left. auto.
        + right. right. auto.
      - apply stored_values_within; auto. now inversion Hre. }
    apply within_not_nan in Hout; [|exact Hnan].
    apply Forall_cons_iff in Hout. destruct Hout as [Hvn Hrs].
    set (rs := stored_values P eb v (map snd pts)) in *.
    assert (Lrs : length rs = length pts) by (unfold rs; now rewrite stored_values_length, map_length).
    destruct (with_first_round_trip P eb v (map snd pts)) as (_ & E1 & E2).
    destruct (with_first_min_max P eb v (map snd pts)) as (E3 & E4).
    exists (v :: rs).
    unfold assemble_residuals. cbn [map snd].
    destruct (macaque_v_model _) as [[bytes min] max]. cbn [fst snd] in E1, E2, E3, E4.
    assert (Elen : length (v :: map snd pts) = length (map fst ((t, v) :: pts)))
      by (cbn [map length fst]; now rewrite !map_length).
    rewrite Elen in E1, E2.
    split; [|split].
    + unfold grid. cbn [sg_start_time sg_end_time sg_timestamps sg_residuals].
      change (fst (t, v) :: map fst pts) with (map fst ((t, v) :: pts)).
      rewrite timestamps_round_trip by exact Hv. cbn [bind residuals_length].
      replace (Nat.ltb (length (map fst ((t, v) :: pts))) 0) with false by reflexivity.
      rewrite Nat.sub_0_r, firstn_all. unfold model_grid. cbn [sg_model_type_id sg_values].
      change (macaque_v_id =? pmc_mean_id) with false. change (macaque_v_id =? swing_id) with false.
      change (macaque_v_id =? macaque_v_id) with true. cbv iota. rewrite E1. reflexivity.
    + cbn [length]. now rewrite Lrs.
    + apply shape_values; auto.
      unfold segment_sum. cbn [sg_start_time sg_end_time sg_timestamps sg_residuals sg_model_type_id
        sg_values residuals_length].
      change (fst (t, v) :: map fst pts) with (map fst ((t, v) :: pts)).
      rewrite len_correct by exact Hv. cbn [bind].
      change (macaque_v_id =? pmc_mean_id) with false. change (macaque_v_id =? swing_id) with false.
      change (macaque_v_id =? macaque_v_id) with true. cbv iota.
      rewrite Z.sub_0_r, Nat2Z.id, E2. reflexivity.
Qed.
