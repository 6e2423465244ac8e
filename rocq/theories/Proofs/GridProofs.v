(** Lemmas about restoring the data points of segments. *)
From Coq Require Import ZArith Reals Bool Lia List.
From Flocq Require Import Core IEEE754.Binary.
From Verif Require Import Model.Base Model.Bits Model.Timestamps Model.Float Model.ErrorBound
  Model.MacaqueV Model.Pmc Model.Swing Model.Segments
  Spec.TimestampsSpec Spec.ErrorBoundSpec Spec.PlatformSpec Spec.MacaqueVSpec Spec.PmcSpec
  Spec.SwingSpec Spec.SegmentsSpec
  Proofs.FloatProofs Proofs.ErrorBoundProofs Proofs.TimestampsProofs Proofs.MacaqueVProofs
  Proofs.MacaqueVLossyProofs Proofs.PmcProofs Proofs.ParameterProofs Proofs.SegmentsProofs.
Import ListNotations.
Open Scope Z_scope.

(** ** Residuals decoded with another value before them *)
Lemma decode_one_xor : forall r leading trailing last d,
  decode_one r leading trailing (Z.lxor last d)
  = bind (decode_one r leading trailing last)
      (fun x => let '(r, l, t, v) := x in Ok (r, l, t, Z.lxor v d)).
Proof.
  intros r leading trailing last d. unfold decode_one.
  destruct (read_bit r) as [[b r1]| |]; cbn [bind]; try reflexivity.
  destruct b.
  - destruct (read_bit r1) as [[b r2]| |]; cbn [bind]; try reflexivity.
    destruct b; [|reflexivity].
    destruct (read_bits r2 5) as [[lead r3]| |]; cbn [bind]; try reflexivity.
    destruct (read_bits r3 6) as [[bits r4]| |]; cbn [bind]; try reflexivity.
    destruct (read_bits r4 _) as [[v r5]| |]; cbn [bind]; try reflexivity.
    now rewrite Z.lxor_assoc.
  - destruct (read_bits r1 _) as [[v r5]| |]; cbn [bind]; try reflexivity.
    now rewrite Z.lxor_assoc.
Qed.

Lemma decode_loop_xor : forall d n r leading trailing last,
  decode_loop n r leading trailing (Z.lxor last d)
  = bind (decode_loop n r leading trailing last) (fun l => Ok (map (fun v => Z.lxor v d) l)).
Proof.
  intros d. induction n as [|n IH]; intros r leading trailing last; cbn [decode_loop]; [reflexivity|].
  rewrite decode_one_xor. destruct (decode_one r leading trailing last) as [[[[r1 l1] t1] v1]| |];
    cbn [bind]; try reflexivity.
  rewrite IH. destruct (decode_loop n r1 l1 t1 v1); reflexivity.
Qed.

Lemma grid_other_last : forall bytes n last last' out,
  macaque_v_grid bytes n (Some last) = Ok out ->
  exists out', macaque_v_grid bytes n (Some last') = Ok out' /\ length out' = length out.
Proof.
  intros bytes n last last' out H. unfold macaque_v_grid in *.
  destruct (match reader_try_new bytes with Ok r => Ok r | _ => Panic end) as [r| |];
    cbn [bind] in *; try discriminate.
  replace (to_bits last') with (Z.lxor (to_bits last) (Z.lxor (to_bits last) (to_bits last')))
    by (rewrite <- Z.lxor_assoc, Z.lxor_nilpotent; apply Z.lxor_0_l).
  rewrite decode_loop_xor.
  destruct (decode_loop n r 255 0 (to_bits last)) as [l| |]; cbn [bind] in *; try discriminate.
  eexists. split; [reflexivity|].
  assert (out = map from_bits l) by congruence. subst. now rewrite !map_length.
Qed.

(** ** The start and end of a fitted line *)
Lemma swing_fit_times : forall N m t v m', swing_fit N m t v = (true, m') ->
  sw_end_time m' = t /\ (sw_length m = 0%nat -> sw_start_time m' = t /\ sw_first_value m' = v)
  /\ (sw_length m <> 0%nat ->
      sw_start_time m' = sw_start_time m /\ sw_first_value m' = sw_first_value m).
Proof.
  intros N m t v m' H. unfold swing_fit in H.
  destruct (Nat.eqb (sw_length m) 0) eqn:E0.
  { apply (f_equal snd) in H. cbn [snd] in H. subst. apply Nat.eqb_eq in E0. rewrite E0.
    cbn [sw_end_time sw_start_time sw_first_value]. repeat split; congruence. }
  apply Nat.eqb_neq in E0.
  destruct (negb (num_is_finite N (sw_first_value m)) || negb (num_is_finite N v)).
  { destruct (num_equal_or_nan N (sw_first_value m) v); [|discriminate].
    apply (f_equal snd) in H. cbn [snd] in H. subst.
    cbn [sw_end_time sw_start_time sw_first_value]. repeat split; congruence. }
  destruct (Nat.eqb (sw_length m) 1) eqn:E1.
  { apply (f_equal snd) in H. cbn [snd] in H. subst.
    cbn [sw_end_time sw_start_time sw_first_value]. repeat split; congruence. }
  cbv zeta in H.
  match type of H with (if ?c then _ else _) = _ => destruct c; [discriminate|] end.
  apply (f_equal snd) in H. cbn [snd] in H. subst.
  cbn [sw_end_time sw_start_time sw_first_value]. repeat split; congruence.
Qed.

Lemma swing_run_times : forall P pts m m', swing_fit_data_points P m pts = Some m' ->
  sw_length m <> 0%nat ->
  sw_start_time m' = sw_start_time m /\ sw_first_value m' = sw_first_value m
  /\ (pts <> [] -> sw_end_time m' = last (map fst pts) 0).
Proof.
  induction pts as [|[t v] pts IH]; intros m m' H Hl; cbn [swing_fit_data_points] in H.
  - replace m' with m by congruence. repeat split; congruence.
  - destruct (swing_fit_data_point P m t v) as [[] m1] eqn:E; [|discriminate].
    destruct (swing_fit_times _ _ _ _ _ E) as (T1 & _ & T3). destruct (T3 Hl) as [T4 T5].
    assert (Hl1 : sw_length m1 <> 0%nat) by (rewrite (swing_fit_length _ _ _ _ _ E); lia).
    destruct (IH m1 m' H Hl1) as (I1 & I2 & I3). rewrite I1, I2, T4, T5. repeat split.
    intros _. destruct pts as [|p pts].
    + cbn [swing_fit_data_points] in H. replace m' with m1 by congruence. exact T1.
    + rewrite I3 by discriminate. reflexivity.
Qed.

Lemma swing_times : forall P eb t v pts m,
  swing_fit_data_points P (swing_new (f64_num P) eb) ((t, v) :: pts) = Some m ->
  sw_start_time m = t /\ sw_first_value m = f64_of_f32 v
  /\ sw_end_time m = last (map fst ((t, v) :: pts)) 0.
Proof.
  intros P eb t v pts m H. cbn [swing_fit_data_points] in H.
  destruct (swing_fit_data_point P (swing_new (f64_num P) eb) t v) as [[] m1] eqn:E; [|discriminate].
  destruct (swing_fit_times _ _ _ _ _ E) as (T1 & T2 & _).
  destruct (T2 eq_refl) as [T3 T4].
  assert (Hl1 : sw_length m1 <> 0%nat) by (rewrite (swing_fit_length _ _ _ _ _ E); lia).
  destruct (swing_run_times P pts m1 m H Hl1) as (I1 & I2 & I3). rewrite I1, I2, T3, T4.
  repeat split. destruct pts as [|p pts].
  - cbn [swing_fit_data_points] in H. replace m with m1 by congruence. exact T1.
  - rewrite I3 by discriminate. reflexivity.
Qed.

Lemma f32_of_f64_not_nan : forall v, f32_is_nan v = false ->
  f32_is_nan (f32_of_f64 (f64_of_f32 v)) = false.
Proof.
  intros v Hv. destruct (finite_or_not v) as [Hf|[Hi|Hn]]; [| |congruence].
  - destruct (f64_of_f32_finite v Hf) as [H1 H2].
    destruct (f32_of_f64_correct (f64_of_f32 v) H1) as [H3 _].
    { rewrite H2, rnd32_id. apply R32_lt_max. }
    destruct (f32_is_nan (f32_of_f64 (f64_of_f32 v))) eqn:E; [|reflexivity].
    now apply nan_not_finite in E.
  - destruct (infinite_shape v Hi) as [s ->]. reflexivity.
Qed.

(** A line between equal values does not depend on the last one. *)
Lemma swing_grid_same : forall P t0 t1 f l l' ts, same_number f l -> same_number f l' ->
  swing_grid P t0 t1 f l ts = swing_grid P t0 t1 f l' ts.
Proof.
  intros P t0 t1 f l l' ts H1 H2. unfold swing_grid. apply map_ext. intros t. unfold swing_value.
  assert (G : forall x, same_number f x ->
    compute_slope_and_intercept (f64_num P) t0 (f64_of_f32 f) t1 (f64_of_f32 x)
    = (num_of_Z (f64_num P) 0, f64_of_f32 f)).
  { intros x Hx. unfold compute_slope_and_intercept. apply equal_or_nan_iff in Hx.
    change (num_equal_or_nan (f64_num P)) with equal_or_nan. now rewrite Hx. }
  now rewrite (G l H1), (G l' H2).
Qed.

(** ** Segments with a model *)
Section Grid.
Context (P : platform) (eb : error_bound).

Definition model_of (sb : segment_builder) (mpts rpts : list point) : list Z * f32 * f32 :=
  macaque_v_model (compress_values_without_first P (macaque_v_new eb)
    (map snd rpts) (sb_model_last_value sb)).

Lemma grid_assemble : forall sb mpts rpts, mpts <> [] ->
  valid_timestamps (map fst (mpts ++ rpts)) ->
  let s := assemble P eb sb mpts rpts in
  grid P s =
  let? mv := model_grid P s (map fst mpts) in
  match rpts with
  | [] => Ok (map fst (mpts ++ rpts), mv)
  | _ => match mv with
         | [] => Panic
         | _ => let? rv := macaque_v_grid (fst (fst (model_of sb mpts rpts))) (length rpts)
                             (Some (last mv f32_zero)) in
                Ok (map fst (mpts ++ rpts), mv ++ rv)
         end
  end.
Proof.
  intros sb mpts rpts Hm Hv s.
  destruct (assemble_fields P eb sb mpts rpts) as (F1 & F2 & F3 & F4 & F5). fold s in F1, F2, F3, F4, F5.
  unfold grid. rewrite F2, F3, F4, F5, timestamps_round_trip by exact Hv. cbn [bind].
  rewrite map_length, app_length.
  replace (Nat.ltb (length mpts + length rpts) (length rpts)) with false
    by (symmetry; apply Nat.ltb_ge; lia).
  replace (firstn (length mpts + length rpts - length rpts) (map fst (mpts ++ rpts)))
    with (map fst mpts).
  2:{ rewrite map_app, firstn_app, map_length.
      replace (length mpts + length rpts - length rpts)%nat with (length mpts) by lia.
      rewrite Nat.sub_diag. cbn [firstn]. rewrite app_nil_r.
      symmetry. apply firstn_all2. rewrite map_length. lia. }
  destruct (model_grid P s (map fst mpts)) as [mv| |]; cbn [bind]; try reflexivity.
  destruct rpts as [|p rpts].
  - reflexivity.
  - unfold s, assemble, model_of. destruct (macaque_v_model _) as [[bytes rmin] rmax].
    cbn [sg_residuals fst]. unfold residual_bytes. rewrite removelast_last.
    destruct (bytes ++ [Z.of_nat (length (p :: rpts))]) eqn:E; [destruct bytes; discriminate|].
    reflexivity.
Qed.

Lemma forall2_repeat : forall (R : f32 -> f32 -> Prop) l v, (forall x, In x l -> R x v) ->
  Forall2 R l (repeat v (length l)).
Proof.
  induction l as [|x l IH]; intros v H; cbn [length repeat]; constructor.
  - apply H. now left.
  - apply IH. intros y Hy. apply H. now right.
Qed.

Lemma last_repeat : forall (v d : f32) n, (1 <= n)%nat -> last (repeat v n) d = v.
Proof.
  intros v d n H. destruct n as [|n]; [lia|]. clear H. induction n as [|n IH]; [reflexivity|].
  cbn [repeat] in *. exact IH.
Qed.

Lemma residuals_restored : forall sb mpts rpts, good_log2 P -> valid_error_bound eb ->
  rpts <> [] -> Forall (rewritable eb) (map snd rpts) ->
  exists rv, macaque_v_grid (fst (fst (model_of sb mpts rpts))) (length rpts)
               (Some (sb_model_last_value sb)) = Ok rv
    /\ length rv = length rpts
    /\ Forall2 (within_bound check_slack eb) (map snd rpts) rv.
Proof.
  intros sb mpts rpts HP He Hne Hr. unfold model_of.
  destruct (without_first_round_trip P eb (sb_model_last_value sb) (map snd rpts)) as (_ & E & _).
  { destruct rpts; [congruence|discriminate]. }
  rewrite map_length in E. rewrite E. eexists. split; [reflexivity|].
  split; [now rewrite stored_values_length, map_length|]. now apply stored_values_within.
Qed.

(** Constant functions. *)
Lemma pmc_restored : forall i m mpts rpts,
  good_log2 P -> ties_first P -> valid_error_bound eb ->
  (forall e, eb = Relative e -> (R32 e < 100)%R \/ same_sign (map snd mpts)) ->
  Forall (rewritable eb) (map snd rpts) ->
  Forall (fun v => f32_is_nan v = false) (map snd mpts) ->
  mpts <> [] -> valid_timestamps (map fst (mpts ++ rpts)) ->
  pmc_fit_all P (pmc_new eb) (map snd mpts) = Some m ->
  exists out, grid P (assemble P eb (select_pmc_mean i m) mpts rpts) = Ok (map fst (mpts ++ rpts), out)
    /\ Forall2 (within_bound check_slack eb) (map snd (mpts ++ rpts)) out.
Proof.
  intros i m mpts rpts HP HT He Hrel Hre Hnan Hm Hv Hfit.
  set (sb := select_pmc_mean i m). set (v := pmc_model m).
  assert (Hw : forall x, In x (map snd mpts) -> within_bound check_slack eb x v)
    by (exact (pmc_fit_all_within P eb (map snd mpts) m He Hrel Hfit)).
  assert (L : (1 <= length mpts)%nat) by (destruct mpts; [congruence|cbn; lia]).
  assert (Hvn : f32_is_nan v = false).
  { destruct mpts as [|[t x] mpts]; [congruence|]. cbn [map snd] in Hnan.
    apply Forall_cons_iff in Hnan. destruct Hnan as [Hx _].
    destruct (Hw x (or_introl eq_refl)) as [Hs|(_ & Hf & _)].
    - exact (same_number_nan _ _ Hs Hx).
    - destruct (f32_is_nan v) eqn:E; [|reflexivity]. now apply nan_not_finite in E. }
  assert (Hmg : model_grid P (assemble P eb sb mpts rpts) (map fst mpts) = Ok (repeat v (length mpts))).
  { unfold model_grid. destruct (assemble_fields P eb sb mpts rpts) as (F1 & _). rewrite F1.
    cbn [sb select_pmc_mean sb_model_type_id]. change (pmc_mean_id =? pmc_mean_id) with true.
    cbv iota. unfold assemble. destruct rpts as [|p rpts].
    - cbn [sg_min sg_max sg_values sb select_pmc_mean sb_min sb_max sb_values
           decode_values_for_pmc_mean bind]. rewrite map_length. reflexivity.
    - destruct (macaque_v_model _) as [[bytes rmin] rmax].
      cbn [sg_min sg_max sg_values sb select_pmc_mean sb_min sb_max sb_values sb_model_type_id].
      change (pmc_mean_id =? pmc_mean_id) with true. cbv iota. fold v.
      destruct (pmc_parameters P v rmin rmax Hvn) as (v' & E & _ & Ht). rewrite E. cbn [bind].
      rewrite (Ht HT), map_length. reflexivity. }
  rewrite (grid_assemble sb mpts rpts Hm Hv), Hmg. cbn [bind].
  assert (HF : Forall2 (within_bound check_slack eb) (map snd mpts) (repeat v (length mpts))).
  { rewrite <- (map_length snd mpts). now apply forall2_repeat. }
  destruct rpts as [|p rpts].
  - eexists. split; [reflexivity|]. now rewrite app_nil_r.
  - destruct (repeat v (length mpts)) as [|w ws] eqn:Er.
    { destruct mpts; [congruence|discriminate]. }
    rewrite <- Er in *. rewrite last_repeat by exact L.
    destruct (residuals_restored sb mpts (p :: rpts) HP He ltac:(discriminate) Hre) as (rv & E & _ & Hrv).
    change (sb_model_last_value sb) with v in E. rewrite E. cbn [bind].
    eexists. split; [reflexivity|]. rewrite map_app. now apply Forall2_app.
Qed.

(** Linear functions. *)
Lemma swing_restored : forall i m mpts rpts,
  good_log2 P -> ties_first P -> valid_error_bound eb ->
  Forall (rewritable eb) (map snd rpts) ->
  Forall (fun v => f32_is_nan v = false) (map snd mpts) ->
  mpts <> [] -> valid_timestamps (map fst (mpts ++ rpts)) ->
  swing_fit_data_points P (swing_new (f64_num P) eb) mpts = Some m ->
  f32_is_nan (snd (swing_model P m)) = false ->
  exists mv rv,
    grid P (assemble P eb (select_swing P i m) mpts rpts) = Ok (map fst (mpts ++ rpts), mv ++ rv)
    /\ mv = swing_grid P (sw_start_time m) (sw_end_time m) (fst (swing_model P m))
              (snd (swing_model P m)) (map fst mpts)
    /\ length rv = length rpts
    /\ (last mv f32_zero = snd (swing_model P m) ->
        Forall2 (within_bound check_slack eb) (map snd rpts) rv).
Proof.
  intros i m mpts rpts HP HT He Hre Hnan Hm Hv Hfit Hlast.
  set (sb := select_swing P i m).
  destruct mpts as [|[t0 v0] mpts0] eqn:Empts; [congruence|]. rewrite <- Empts in *.
  assert (Ht : sw_start_time m = first_timestamp (map fst mpts)
               /\ sw_first_value m = f64_of_f32 v0 /\ sw_end_time m = last (map fst mpts) 0).
  { rewrite Empts in *. exact (swing_times P eb t0 v0 mpts0 m Hfit). }
  destruct Ht as (T1 & T2 & T3).
  assert (Hfirst : f32_is_nan (fst (swing_model P m)) = false).
  { unfold swing_model. cbn [fst swing_line]. rewrite T2. apply f32_of_f64_not_nan.
    rewrite Empts in Hnan. cbn [map snd] in Hnan. apply Forall_cons_iff in Hnan. apply Hnan. }
  destruct (swing_parameters P (fst (swing_model P m)) (snd (swing_model P m)) Hfirst Hlast) as [K1 K2].
  set (f := fst (swing_model P m)) in *. set (l := snd (swing_model P m)) in *.
  assert (Esb : sb = SegmentBuilder swing_id i (i + sw_length m - 1) (swing_min P f l) (swing_max P f l)
                       (if f32_lt f l then [] else [0]) l (swing_bytes_per_value (sw_length m))).
  { unfold sb, select_swing, f, l. destruct (swing_model P m). reflexivity. }
  set (mv := swing_grid P (sw_start_time m) (sw_end_time m) f l (map fst mpts)).
  assert (Hmg : model_grid P (assemble P eb sb mpts rpts) (map fst mpts) = Ok mv).
  { unfold model_grid. destruct (assemble_fields P eb sb mpts rpts) as (F1 & F2 & _). rewrite F1, F2.
    replace (sb_model_type_id sb) with swing_id by (rewrite Esb; reflexivity).
    change (swing_id =? pmc_mean_id) with false. change (swing_id =? swing_id) with true. cbv iota.
    assert (Ed : decode_values_for_swing (sg_min (assemble P eb sb mpts rpts))
                   (sg_max (assemble P eb sb mpts rpts)) (sg_values (assemble P eb sb mpts rpts))
                 = Ok (f, l)
                 \/ exists l', decode_values_for_swing (sg_min (assemble P eb sb mpts rpts))
                   (sg_max (assemble P eb sb mpts rpts)) (sg_values (assemble P eb sb mpts rpts))
                 = Ok (f, l') /\ same_number f l /\ same_number l l').
    { assert (G : forall r, keeps2 P f l r ->
                r = Ok (f, l) \/ exists l', r = Ok (f, l') /\ same_number f l /\ same_number l l').
      { intros r (f' & l' & E & _ & Hs & H). destruct (H HT) as [-> H1].
        destruct (equal_or_nan (f64_of_f32 f) (f64_of_f32 l)) eqn:Eq.
        - right. exists l'. apply equal_or_nan_iff in Eq. auto.
        - left. rewrite H1 in E; [exact E|]. intros Hfl. apply equal_or_nan_iff in Hfl. congruence. }
      apply G. unfold assemble. destruct rpts as [|p rpts].
      - rewrite Esb. exact K1.
      - destruct (macaque_v_model _) as [[bytes rmin] rmax]. rewrite Esb.
        cbn [sg_min sg_max sg_values sb_min sb_max sb_values sb_model_type_id].
        change (swing_id =? pmc_mean_id) with false. cbv iota.
        replace (match (if f32_lt f l then [] else [0]) with [] => true | _ :: _ => false end)
          with (f32_lt f l) by (destruct (f32_lt f l); reflexivity).
        apply K2. }
    assert (Eg : forall l', same_number f l -> same_number l l' ->
              swing_grid P (sw_start_time m) (last (map fst mpts) 0) f l' (map fst mpts)
              = swing_grid P (sw_start_time m) (last (map fst mpts) 0) f l (map fst mpts)).
    { intros l' H1 H2. apply swing_grid_same; [eapply same_number_trans; eauto|exact H1]. }
    assert (Ed' : exists l', decode_values_for_swing (sg_min (assemble P eb sb mpts rpts))
                   (sg_max (assemble P eb sb mpts rpts)) (sg_values (assemble P eb sb mpts rpts))
                 = Ok (f, l') /\ swing_grid P (sw_start_time m) (last (map fst mpts) 0) f l' (map fst mpts)
              = swing_grid P (sw_start_time m) (last (map fst mpts) 0) f l (map fst mpts)).
    { destruct Ed as [Ed|(l' & Ed & H1 & H2)]; [exists l|exists l']; auto. }
    clear Ed. destruct Ed' as (l' & -> & Ed). cbn [bind].
    replace (first_timestamp (map fst (mpts ++ rpts))) with (sw_start_time m)
      by (rewrite T1, Empts; reflexivity).
    unfold mv. rewrite T3, <- Ed. rewrite Empts. reflexivity. }
  rewrite (grid_assemble sb mpts rpts Hm Hv), Hmg. cbn [bind].
  destruct rpts as [|p rpts].
  - exists mv, []. rewrite !app_nil_r. split; [reflexivity|]. split; [reflexivity|].
    split; [reflexivity|]. intros _. constructor.
  - destruct (residuals_restored sb mpts (p :: rpts) HP He ltac:(discriminate) Hre)
      as (rv & E & Hlen & Hrv).
    replace (sb_model_last_value sb) with l in E by (rewrite Esb; reflexivity).
    destruct (grid_other_last _ _ _ (last mv f32_zero) _ E) as (rv' & E' & Hlen').
    destruct mv as [|w ws] eqn:Emv.
    { exfalso. apply (f_equal (@length _)) in Emv. unfold mv, swing_grid in Emv.
      rewrite !map_length, Empts in Emv. discriminate. }
    rewrite <- Emv in *. rewrite E'. cbn [bind]. exists mv, rv'.
    split; [reflexivity|]. split; [reflexivity|]. split; [congruence|].
    intros Hl. rewrite Hl in E'. assert (rv' = rv) by congruence. now subst.
Qed.

(** Segments without a model. *)
Lemma residual_segment_restored : forall pts, good_log2 P -> valid_error_bound eb ->
  Forall (rewritable eb) (map snd pts) -> pts <> [] -> valid_timestamps (map fst pts) ->
  exists out, grid P (assemble_residuals P eb pts) = Ok (map fst pts, out)
    /\ Forall2 (within_bound check_slack eb) (map snd pts) out.
Proof.
  intros pts HP He Hre Hne Hv.
  destruct (macaque_v_lossy P eb (map snd pts) HP He) as [(out & E & Hout) _].
  { destruct pts; [congruence|discriminate]. }
  { exact Hre. }
  unfold assemble_residuals. destruct (macaque_v_model _) as [[bytes min] max]. cbn [fst] in E.
  unfold grid. cbn [sg_start_time sg_end_time sg_timestamps sg_residuals].
  rewrite timestamps_round_trip by exact Hv. cbn [bind residuals_length].
  replace (Nat.ltb (length (map fst pts)) 0) with false by reflexivity.
  rewrite Nat.sub_0_r, firstn_all. unfold model_grid. cbn [sg_model_type_id sg_values].
  change (macaque_v_id =? pmc_mean_id) with false. change (macaque_v_id =? swing_id) with false.
  change (macaque_v_id =? macaque_v_id) with true. cbv iota.
  rewrite map_length in *. rewrite E. cbn [bind]. eauto.
Qed.

End Grid.
