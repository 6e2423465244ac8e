(** The values of linear functions after compressing a time series and restoring it. *)
From Coq Require Import ZArith Reals Bool Lia Lra List Sorting.Sorted.
From Verif Require Import Model.Base Model.Bits Model.Timestamps Model.Float Model.ErrorBound
  Model.MacaqueV Model.Pmc Model.Swing Model.Segments
  Spec.TimestampsSpec Spec.ErrorBoundSpec Spec.PlatformSpec Spec.MacaqueVSpec Spec.PmcSpec
  Spec.SwingSpec Spec.SegmentsSpec Spec.GridSpec
  Proofs.FloatProofs Proofs.ErrorBoundProofs Proofs.MacaqueVProofs
  Proofs.ParameterProofs Proofs.SegmentsProofs Proofs.GridProofs Proofs.SwingNanProofs
  Proofs.SwingFloatProofs Proofs.SwingArithmetic Proofs.SwingStored Proofs.SwingAccepted Proofs.SwingBound
  Proofs.MacaqueVLossyProofs Proofs.MultivariateProofs Proofs.RestoreProofs Proofs.RestoreWitnesses.
Import ListNotations.
Open Scope Z_scope.

Lemma fit_widen : forall P points m,
  swing_fit_data_points P m points = swing_fit_all (f64_num P) m (map widen points).
Proof.
  intros P points. induction points as [|[t v] points IH]; intros m; [reflexivity|].
  cbn [swing_fit_data_points map widen fst snd swing_fit_all].
  unfold swing_fit_data_point. destruct (swing_fit (f64_num P) m t (f64_of_f32 v)) as [[] m']; auto.
Qed.

Lemma rounding_le : forall size T dz n n', (0 <= size)%R -> (n <= n')%nat ->
  (rounding size T dz n <= rounding size T dz n')%R.
Proof.
  intros size T dz n n' Hs Hn. unfold rounding.
  destruct powers as (P22 & _ & P46 & _). rewrite P22, P46.
  apply Rplus_le_compat_r. apply Rmult_le_compat_l; [exact Hs|].
  apply le_INR in Hn. lra.
Qed.

Lemma sorted_part : forall (A : Type) (R : A -> A -> Prop) (a b c : list A),
  StronglySorted R (a ++ b ++ c) -> StronglySorted R b.
Proof.
  intros A R a. induction a as [|x a IH]; intros b c H; cbn [app] in H.
  - induction b as [|y b IHb]; cbn [app] in H; [constructor|].
    apply StronglySorted_inv in H. destruct H as [H1 H2]. constructor; [auto|].
    rewrite Forall_forall in *. intros z Hz. apply H2. apply in_or_app. now left.
  - apply StronglySorted_inv in H. destruct H as [H _]. eauto.
Qed.

Section Line.
Context (P : platform) (eb : error_bound) (size : R) (T dz : Z) (n : nat).
Hypothesis Heb : valid_error_bound eb.
Hypothesis Hdz : 1 <= dz.
Hypothesis HT : T <= 2 ^ 52.
Hypothesis Hsize0 : (0 <= size)%R.
Hypothesis Hsize : (size <= 2 ^ 120)%R.
Hypothesis Htau : (IZR T / IZR dz + INR n <= 2 ^ 44)%R.

Definition point_sized (p : Z * f32) : Prop :=
  Z.abs (fst p) <= T
  /\ (finite32 (snd p) -> (Rabs (R32 (snd p)) + exact_deviation eb (R32 (snd p)) <= size)%R).

Lemma line_near : forall points m, (2 <= length points <= n)%nat ->
  valid_timestamps (map fst points) -> span_fits (map fst points) ->
  StronglySorted (fun p q => p + dz <= q) (map fst points) -> Forall point_sized points ->
  swing_fit_data_points P (swing_new (f64_num P) eb) points = Some m ->
  Forall2 (near eb (rounding size T dz n)) (map snd points)
    (swing_grid P (sw_start_time m) (sw_end_time m) (fst (swing_model P m)) (snd (swing_model P m))
       (map fst points)).
Proof.
  intros points m Hlen Hval Hspan Hsort Hs Hfit.
  (* It is enough to look at one data point. *)
  assert (Hone : forall t v, In (t, v) points ->
    Forall (near eb (rounding size T dz n) v)
      (swing_grid P (sw_start_time m) (sw_end_time m) (fst (swing_model P m))
         (snd (swing_model P m)) [t])).
  { intros t v Hin.
    destruct (Forall_Exists_dec (fun p : Z * f32 => finite32 (snd p))
                (fun p => bool_dec (Flocq.IEEE754.Binary.is_finite 24 128 (snd p)) true) points)
      as [Hfin|Hinf].
    - assert (Hall : Forall (fun p => (Z.abs (fst p) <= T)%Z /\ finite32 (snd p)
                 /\ (Rabs (R32 (snd p)) + exact_deviation eb (R32 (snd p)) <= size)%R) points).
      { rewrite Forall_forall in *. intros p Hp. destruct (Hs p Hp) as [H1 H2].
        split; [exact H1|]. split; [now apply Hfin|]. apply H2. now apply Hfin. }
      rewrite fit_widen in Hfit.
      assert (Htau' : (IZR T / IZR dz + INR (length points) <= 2 ^ 44)%R).
      { assert (INR (length points) <= INR n)%R by (apply le_INR; lia). lra. }
      pose proof (swing_f64_near P eb points m size T dz Heb ltac:(lia) Hdz HT Hsize Htau' Hsort Hall
                    Hfit t v Hin) as Hnear.
      revert Hnear. apply Forall_impl. intros g [Hg1 Hg2]. right.
      split; [rewrite Forall_forall in Hfin; exact (Hfin _ Hin)|]. split; [exact Hg1|].
      eapply Rle_trans; [exact Hg2|]. apply Rplus_le_compat_l.
      apply rounding_le; [exact Hsize0|lia].
    - apply Exists_exists in Hinf. destruct Hinf as ([t' v'] & Hin' & Hnf).
      assert (Hsp : forall a b c d, In (a, b) points -> In (c, d) points -> is_i64 (a - c)).
      { intros a b c d H1 H2. apply Hspan.
        - change a with (fst (a, b)). now apply in_map.
        - change c with (fst (c, d)). now apply in_map. }
      pose proof (swing_special P eb points m t' v' ltac:(lia) Hval Hsp Hfit Hin' Hnf t v Hin) as H.
      revert H. apply Forall_impl. intros g Hg. left. now left. }
  clear Hval Hspan Hsort Hs Hfit Hlen.
  induction points as [|[t v] points IH]; [constructor|].
  cbn [map snd fst]. unfold swing_grid. cbn [map]. constructor.
  - specialize (Hone t v (or_introl eq_refl)). unfold swing_grid in Hone. cbn [map] in Hone.
    exact (Forall_inv Hone).
  - apply IH. intros t' v' Hin. apply Hone. now right.
Qed.

Lemma restores_line : forall s points, (length points <= n)%nat ->
  valid_timestamps (map fst points) -> span_fits (map fst points) ->
  StronglySorted (fun p q => p + dz <= q) (map fst points) -> Forall point_sized points ->
  (sg_model_type_id s = swing_id -> (8 <= model_values s (length points))%nat) ->
  restores P eb s points -> restores_as P (near eb (rounding size T dz n)) s points.
Proof.
  intros s points Hlen Hval Hspan Hsort Hs H8 (out & E & Hout & Hother & Hswing).
  exists out. split; [exact E|]. split; [exact Hout|]. cbv zeta.
  destruct (Z.eqb_spec (sg_model_type_id s) swing_id) as [Ei|Ei].
  - specialize (H8 Ei). destruct (Hswing Ei) as (m & Hfit & -> & _). clear Hswing Hother.
    set (k := model_values s (length points)) in *.
    assert (Hk : (k <= length points)%nat) by (unfold k, model_values; lia).
    assert (Efirst : points = firstn k points ++ skipn k points) by (symmetry; apply firstn_skipn).
    apply line_near; auto.
    + rewrite firstn_length_le; lia.
    + rewrite Efirst, map_app in Hval. apply (valid_app _ _ Hval).
      destruct (firstn k points) eqn:Ef; [|discriminate].
      apply (f_equal (@length _)) in Ef. rewrite firstn_length_le in Ef by exact Hk. cbn in Ef. lia.
    + intros t t' H1 H2. apply Hspan; rewrite Efirst, map_app; apply in_or_app; now left.
    + rewrite Efirst, map_app in Hsort. apply (sorted_part _ _ [] _ (map fst (skipn k points))).
      exact Hsort.
    + rewrite Efirst in Hs. now apply Forall_app in Hs.
  - rewrite <- Hout at 2. rewrite !firstn_all. specialize (Hother Ei).
    apply (forall2_weaken _ _ (within_bound check_slack eb) _ (fun _ => True)).
    + intros a b H _. now left.
    + exact Hother.
    + rewrite Forall_forall. auto.
Qed.
End Line.

Lemma compress_restores_near : forall P eb ts vs size T dz,
  good_log2 P -> ties_first P -> valid_error_bound eb ->
  (forall e, eb = Relative e -> (R32 e < 100)%R \/ same_sign vs) ->
  Forall (rewritable eb) vs -> Forall (fun v => f32_is_nan v = false) vs ->
  valid_timestamps ts -> span_fits ts -> length ts = length vs ->
  1 <= dz -> T <= 2 ^ 52 -> (0 <= size <= 2 ^ 120)%R ->
  (IZR T / IZR dz + INR (length vs) <= 2 ^ 44)%R ->
  StronglySorted (fun t t' => t + dz <= t') ts -> Forall (fun t => Z.abs t <= T) ts ->
  Forall (fun v => finite32 v -> (Rabs (R32 v) + exact_deviation eb (R32 v) <= size)%R) vs ->
  exists segments parts, compress_univariate P eb ts vs = Ok segments
    /\ concat parts = combine ts vs
    /\ Forall2 (restores_as P (near eb (rounding size T dz (length vs)))) segments parts.
Proof.
  intros P eb ts vs size T dz HP HTies He Hrel Hre Hnan Hv Hspan Hl Hdz HT [Hs0 Hs] Htau Hsort HTs Hsz.
  destruct (compress_built P eb ts vs ltac:(apply Hv) Hl) as (segs & parts & E1 & E2 & E3).
  exists segs, parts. split; [exact E1|]. split; [exact E2|].
  destruct (combine_map ts vs Hl) as [C1 C2].
  assert (Hvals : forall part, In part parts -> incl (map snd part) vs).
  { intros part Hp v H. apply in_map_iff in H. destruct H as (p & <- & Hin).
    rewrite <- C2, <- E2. apply in_map. eapply in_part; eauto. }
  assert (Htss : forall part, In part parts -> incl (map fst part) ts).
  { intros part Hp v H. apply in_map_iff in H. destruct H as (p & <- & Hin).
    rewrite <- C1, <- E2. apply in_map. eapply in_part; eauto. }
  assert (Hsplit : forall part, In part parts -> exists a c, ts = a ++ map fst part ++ c).
  { intros part Hp. apply in_split in Hp. destruct Hp as (l1 & l2 & Ep).
    exists (map fst (concat l1)), (map fst (concat l2)).
    rewrite <- C1, <- E2, Ep, concat_app. cbn [concat]. now rewrite !map_app. }
  apply (forall2_weaken _ _ (built P eb) _
           (fun part => In part parts /\ valid_timestamps (map fst part))).
  - intros s part Hb [Hp Hvp].
    assert (Hsp : span_fits (map fst part)).
    { intros t t' H1 H2. apply Hspan; apply (Htss part Hp); assumption. }
    destruct (Hsplit part Hp) as (a & c & Ets).
    apply restores_line; auto.
    + rewrite <- Hl, Ets, !app_length, map_length. lia.
    + apply (sorted_part _ _ a _ c). now rewrite <- Ets.
    + rewrite Forall_forall in *. intros [t v] Hin. split.
      * apply HTs. apply (Htss part Hp). change t with (fst (t, v)). now apply in_map.
      * intros Hf. apply Hsz; [|exact Hf]. apply (Hvals part Hp).
        change v with (snd (t, v)). now apply in_map.
    + intros Ei. destruct Hb as [sb i mpts rpts Hf Hr|pts Hne].
      * destruct (assemble_fields P eb sb mpts rpts) as (_ & _ & _ & _ & F5). cbv zeta in F5.
        unfold model_values. rewrite F5, app_length. destruct Hf as [H8 _]. lia.
      * exfalso. unfold assemble_residuals in Ei.
        destruct (macaque_v_model _) as [[values min] max]. discriminate.
    + apply built_restores; auto.
      * intros e Ee. destruct (Hrel e Ee) as [H|H]; [now left|]. right.
        exact (same_sign_sub _ _ (Hvals part Hp) H).
      * rewrite Forall_forall in *. intros v H. apply Hre. now apply (Hvals part Hp).
      * rewrite Forall_forall in *. intros v H. apply Hnan. now apply (Hvals part Hp).
  - exact E3.
  - assert (Hpv : Forall (fun part => valid_timestamps (map fst part)) parts).
    { eapply parts_valid; [|exact Hv|].
      - eapply forall2_left; [|exact E3]. apply built_not_empty.
      - rewrite E2. exact C1. }
    rewrite Forall_forall in *. auto.
Qed.

(** ** Rounding errors that are less than the deviation leaves of the bound *)
Lemma near_within : forall eb extra v g, valid_error_bound eb -> (0 < extra)%R ->
  (finite32 v -> (extra <= margin eb (R32 v))%R) -> near eb extra v g ->
  within_bound check_slack eb v g.
Proof.
  intros eb extra v g Heb Hex Hm [H|(Hv & Hg & Hb)]; [exact H|]. specialize (Hm Hv).
  right. split; [exact Hv|]. split; [exact Hg|].
  assert (Hc : (0 < check_slack)%R) by (unfold check_slack; lra).
  destruct eb as [e|e|]; cbn [exact_deviation margin valid_error_bound] in *.
  - assert (0 < check_slack * R32 e)%R by (apply Rmult_lt_0_compat; tauto). lra.
  - rewrite Rabs_mult, (Rabs_pos_eq (R32 e / (1001 / 10))) in Hb by lra.
    set (V := Rabs (R32 v)) in *. assert (0 <= V)%R by apply Rabs_pos.
    assert (0 <= check_slack * (R32 e / 100) * V)%R.
    { apply Rmult_le_pos; [|assumption]. apply Rmult_le_pos; lra. }
    replace ((1 + check_slack) * (R32 e / 100) * V)%R
      with (V * (R32 e / (1001 / 10)) + R32 e / 100100 * V + check_slack * (R32 e / 100) * V)%R
      by field. lra.
  - lra.
Qed.

Lemma rounding_positive : forall size T dz n, (0 <= size)%R -> 0 <= T -> 1 <= dz ->
  (0 < rounding size T dz n)%R.
Proof.
  intros size T dz n Hs HT Hdz. unfold rounding.
  assert (0 < / 2 ^ 148)%R by (apply Rinv_0_lt_compat, pow_lt; lra).
  assert (0 < / 2 ^ 22)%R by (apply Rinv_0_lt_compat, pow_lt; lra).
  assert (0 < / 2 ^ 46)%R by (apply Rinv_0_lt_compat, pow_lt; lra).
  apply IZR_le in HT. apply IZR_le in Hdz.
  assert (0 <= IZR T / IZR dz)%R.
  { apply Rmult_le_pos; [lra|]. left. apply Rinv_0_lt_compat. lra. }
  pose proof (pos_INR n).
  assert (0 <= size * (/ 2 ^ 22 + (IZR T / IZR dz + INR n) / 2 ^ 46))%R.
  { apply Rmult_le_pos; [exact Hs|]. unfold Rdiv at 1.
    assert (0 <= (IZR T / IZR dz + INR n) * / 2 ^ 46)%R by (apply Rmult_le_pos; lra). lra. }
  lra.
Qed.

Lemma compress_restores_within : forall P eb ts vs size T dz,
  good_log2 P -> ties_first P -> valid_error_bound eb ->
  (forall e, eb = Relative e -> (R32 e < 100)%R \/ same_sign vs) ->
  Forall (rewritable eb) vs -> Forall (fun v => f32_is_nan v = false) vs ->
  valid_timestamps ts -> span_fits ts -> length ts = length vs ->
  1 <= dz -> T <= 2 ^ 52 -> (0 <= size <= 2 ^ 120)%R ->
  (IZR T / IZR dz + INR (length vs) <= 2 ^ 44)%R ->
  StronglySorted (fun t t' => t + dz <= t') ts -> Forall (fun t => Z.abs t <= T) ts ->
  Forall (fun v => finite32 v -> (Rabs (R32 v) + exact_deviation eb (R32 v) <= size)%R) vs ->
  Forall (fun v => finite32 v -> (rounding size T dz (length vs) <= margin eb (R32 v))%R) vs ->
  exists segments parts, compress_univariate P eb ts vs = Ok segments
    /\ concat parts = combine ts vs
    /\ Forall2 (restores_as P (within_bound check_slack eb)) segments parts.
Proof.
  intros P eb ts vs size T dz HP HTies He Hrel Hre Hnan Hv Hspan Hl Hdz HT Hs Htau Hsort HTs Hsz Hm.
  destruct (compress_restores_near P eb ts vs size T dz HP HTies He Hrel Hre Hnan Hv Hspan Hl Hdz HT
              Hs Htau Hsort HTs Hsz) as (segs & parts & E1 & E2 & E3).
  exists segs, parts. split; [exact E1|]. split; [exact E2|].
  destruct (combine_map ts vs Hl) as [C1 C2].
  assert (HT0 : 0 <= T).
  { destruct ts as [|t ts']; [destruct Hv as [Hv _]; congruence|]. apply Forall_inv in HTs. lia. }
  apply (forall2_weaken _ _ (restores_as P (near eb (rounding size T dz (length vs)))) _
           (fun part => In part parts)).
  - intros s part (out & F1 & F2 & F3) Hp. exists out. split; [exact F1|]. split; [exact F2|].
    cbv zeta in *. set (k := if _ =? _ then _ else _) in *. clearbody k.
    apply (Forall2_impl_in _ _ (near eb (rounding size T dz (length vs)))); [|exact F3].
    intros v g Hin Hn. eapply near_within; [exact He| |  |exact Hn].
    + apply rounding_positive; [apply Hs|exact HT0|exact Hdz].
    + rewrite Forall_forall in Hm. apply Hm. apply in_map_iff in Hin. destruct Hin as (p & <- & Hin).
      rewrite <- C2, <- E2. apply in_map. eapply in_part; [exact Hp|].
      rewrite <- (firstn_skipn k part). apply in_or_app. now left.
  - exact E3.
  - rewrite Forall_forall. auto.
Qed.

(** ** Values measured each second *)
Definition measured : list f32 := map f32_of_Z [90; 80; 70; 60; 50; 40; 30; 20; 10; 0].

Lemma measured_hypotheses :
  let P := exact_platform in
  let eb := Absolute (f32_of_Z 1) in
  let ts := every_second 10 in
  let latest := 1700000009000000 in
  (good_log2 P /\ ties_first P /\ valid_error_bound eb
   /\ (forall e, eb = Relative e -> (R32 e < 100)%R \/ same_sign measured)
   /\ Forall (rewritable eb) measured
   /\ Forall (fun v => f32_is_nan v = false) measured /\ valid_timestamps ts /\ span_fits ts
   /\ length ts = length measured)
  /\ latest <= 2 ^ 52 /\ (0 <= 100 <= 2 ^ 120)%R
  /\ (IZR latest / IZR 1000000 + INR (length measured) <= 2 ^ 44)%R
  /\ StronglySorted (fun t t' => t + 1000000 <= t') ts /\ Forall (fun t => Z.abs t <= latest) ts
  /\ Forall (fun v => finite32 v -> (Rabs (R32 v) + exact_deviation eb (R32 v) <= 100)%R) measured
  /\ Forall (fun v => finite32 v ->
                (rounding 100 latest 1000000 (length measured) <= margin eb (R32 v))%R) measured
  /\ match compress_univariate P eb ts measured with
     | Ok segments => map sg_model_type_id segments
     | _ => []
     end = [swing_id].
Proof.
  intros P eb ts latest.
  destruct falling_hypotheses as (H1 & H2 & H3 & _ & H5 & H6 & _ & _ & _). cbv zeta in *.
  destruct (every_second_valid 10 ltac:(lia) ltac:(lia)) as [V1 V2].
  assert (Efall : falling = measured ++ [f32_of_Z 1000]) by reflexivity.
  rewrite Efall in H5, H6. apply Forall_app in H5, H6. destruct H5 as [H5 _]. destruct H6 as [H6 _].
  destruct powers as (P22 & P44 & P46 & P148 & _). destruct slop_bounds as (_ & _ & _ & Hh).
  assert (Hin : forall v, In v measured -> R32 v = IZR 0 \/ (0 <= R32 v <= 90)%R).
  { intros v Hv. apply in_map_iff in Hv. destruct Hv as (z & <- & Hzin). right.
    assert (Hz : 0 <= z <= 90) by (repeat (destruct Hzin as [<-|Hzin]; [lia|]); destruct Hzin).
    rewrite (proj2 (f32_of_Z_exact z ltac:(lia))). destruct Hz as [Ha Hb].
    apply IZR_le in Ha. apply IZR_le in Hb. lra. }
  split; [|split; [|split; [|split; [|split; [|split; [|split; [|split]]]]]]].
  - split; [exact H1|]. split; [exact H2|]. split; [exact H3|].
    split; [unfold eb; intros e H; discriminate H|].
    split; [exact H5|]. split; [exact H6|]. split; [exact V1|]. split; [exact V2|reflexivity].
  - unfold latest. lia.
  - split; [lra|]. apply Rle_trans with (2 ^ 44)%R; [rewrite P44; lra|].
    apply Rle_pow; [lra|lia].
  - rewrite P44. unfold latest. cbn [measured length map INR]. lra.
  - unfold ts, every_second. cbn [seq map].
    repeat (apply SSorted_cons; [|repeat (apply Forall_cons; [lia|]); apply Forall_nil]).
    apply SSorted_nil.
  - unfold ts, every_second, latest. cbn [seq map].
    repeat (apply Forall_cons; [lia|]). apply Forall_nil.
  - rewrite Forall_forall. intros v Hv _. unfold eb. cbn [exact_deviation].
    rewrite (proj2 (f32_of_Z_exact 1 ltac:(lia))).
    destruct (Hin v Hv) as [->|Hr]; [rewrite Rabs_R0; lra|]. rewrite Rabs_pos_eq by lra. lra.
  - rewrite Forall_forall. intros v Hv _. unfold eb, rounding, latest. cbn [margin].
    rewrite (proj2 (f32_of_Z_exact 1 ltac:(lia))), P22, P46, P148.
    cbn [measured length map INR]. lra.
  - vm_compute. reflexivity.
Qed.
