(** Compressing a time series and restoring it. *)
From Coq Require Import ZArith Reals Bool Lia List.
From Verif Require Import Model.Base Model.Bits Model.Timestamps Model.Float Model.ErrorBound
  Model.MacaqueV Model.Pmc Model.Swing Model.Segments
  Spec.TimestampsSpec Spec.ErrorBoundSpec Spec.PlatformSpec Spec.MacaqueVSpec Spec.PmcSpec
  Spec.SwingSpec Spec.SegmentsSpec Spec.GridSpec
  Proofs.FloatProofs Proofs.ErrorBoundProofs Proofs.MacaqueVProofs
  Proofs.ParameterProofs Proofs.SegmentsProofs Proofs.GridProofs Proofs.SwingNanProofs.
Import ListNotations.
Open Scope Z_scope.

Lemma firstn_app_exact : forall (A : Type) (a b : list A) n, n = length a ->
  firstn n (a ++ b) = a /\ skipn n (a ++ b) = b.
Proof.
  intros A a b n ->. split.
  - rewrite firstn_app, firstn_all, Nat.sub_diag. cbn [firstn]. apply app_nil_r.
  - rewrite skipn_app, skipn_all, Nat.sub_diag. reflexivity.
Qed.

Lemma Forall2_length : forall (A B : Type) (R : A -> B -> Prop) la lb,
  Forall2 R la lb -> length la = length lb.
Proof. intros A B R la lb H. induction H; cbn [length]; congruence. Qed.

Lemma same_sign_sub : forall l l', incl l l' -> same_sign l' -> same_sign l.
Proof. intros l l' Hi [H|H]; [left|right]; intros v Hv; apply H; auto. Qed.

Lemma built_restores : forall P eb s pts, good_log2 P -> ties_first P -> valid_error_bound eb ->
  (forall e, eb = Relative e -> (R32 e < 100)%R \/ same_sign (map snd pts)) ->
  Forall (rewritable eb) (map snd pts) ->
  Forall (fun v => f32_is_nan v = false) (map snd pts) ->
  valid_timestamps (map fst pts) -> span_fits (map fst pts) ->
  built P eb s pts -> restores P eb s pts.
Proof.
  intros P eb s pts HP HT He Hrel Hre Hnan Hv Hspan Hb.
  destruct Hb as [sb i mpts rpts Hf Hr|pts Hne].
  - destruct (assemble_fields P eb sb mpts rpts) as (F1 & F2 & F3 & F4 & F5). cbv zeta in *.
    assert (Hm : mpts <> []).
    { destruct Hf as [H8 _]. destruct mpts; [cbn in H8; lia|discriminate]. }
    rewrite map_app in Hre, Hnan. apply Forall_app in Hre. destruct Hre as [Hre1 Hre2].
    apply Forall_app in Hnan. destruct Hnan as [Hnan1 Hnan2].
    unfold restores, model_values. rewrite F1, F5.
    destruct Hf as [H8 [(m & -> & Hfit)|(m & -> & Hfit)]].
    + destruct (pmc_restored P eb i m mpts rpts HP HT He) as (out & E & Hout); auto.
      { intros e Ee. destruct (Hrel e Ee) as [H|H]; [now left|]. right.
        rewrite map_app in H. revert H. apply same_sign_sub. apply incl_appl, incl_refl. }
      exists out. split; [exact E|]. split.
      { apply Forall2_length in Hout. rewrite map_length in Hout. congruence. }
      split; [auto|]. intros H. discriminate.
    + assert (Hlast : f32_is_nan (snd (swing_model P m)) = false).
      { apply (last_not_nan P eb mpts m He); auto; try lia.
        - rewrite map_app in Hv. apply (valid_app _ _ Hv). destruct mpts; [congruence|discriminate].
        - intros t v t' v' H1 H2. apply Hspan.
          + change t with (fst (t, v)). apply in_map. apply in_or_app. now left.
          + change t' with (fst (t', v')). apply in_map. apply in_or_app. now left. }
      destruct (swing_restored P eb i m mpts rpts HP HT He Hre2 Hnan1 Hm Hv Hfit Hlast)
        as (mv & rv & E & Emv & Hlen & Hrv).
      exists (mv ++ rv). split; [exact E|].
      assert (Lmv : length mv = length mpts) by (rewrite Emv; unfold swing_grid; now rewrite !map_length).
      split; [rewrite !app_length; lia|].
      split.
      { intros H. exfalso. apply H. unfold select_swing. destruct (swing_model P m). reflexivity. }
      intros _. cbv zeta.
      replace (length (mpts ++ rpts) - length rpts)%nat with (length mpts)
        by (rewrite app_length; lia).
      destruct (firstn_app_exact _ mpts rpts (length mpts) eq_refl) as [-> ->].
      destruct (firstn_app_exact _ mv rv (length mpts) (eq_sym Lmv)) as [-> ->].
      exists m. split; [exact Hfit|]. split; [exact Emv|exact Hrv].
  - destruct (residual_segment_restored P eb pts HP He Hre Hne Hv) as (out & E & Hout).
    exists out. split; [exact E|]. split.
    { apply Forall2_length in Hout. rewrite map_length in Hout. congruence. }
    split; [auto|]. intros H. exfalso. unfold assemble_residuals in H.
    destruct (macaque_v_model _) as [[values min] max]. discriminate.
Qed.

(** What holds for a series holds for every part of it. *)
Lemma in_part : forall parts (part : list point) p, In part parts -> In p part -> In p (concat parts).
Proof.
  induction parts as [|q parts IH]; intros part p H1 H2; [destruct H1|]. cbn [concat]. apply in_or_app.
  destruct H1 as [->|H1]; [now left|right; eauto].
Qed.

Lemma compress_restores : forall P eb ts vs, good_log2 P -> ties_first P -> valid_error_bound eb ->
  (forall e, eb = Relative e -> (R32 e < 100)%R \/ same_sign vs) ->
  Forall (rewritable eb) vs -> Forall (fun v => f32_is_nan v = false) vs ->
  valid_timestamps ts -> span_fits ts -> length ts = length vs ->
  exists segments parts, compress_univariate P eb ts vs = Ok segments
    /\ concat parts = combine ts vs /\ Forall2 (restores P eb) segments parts.
Proof.
  intros P eb ts vs HP HT He Hrel Hre Hnan Hv Hspan Hl.
  destruct (compress_built P eb ts vs ltac:(apply Hv) Hl) as (segs & parts & E1 & E2 & E3).
  exists segs, parts. split; [exact E1|]. split; [exact E2|].
  destruct (combine_map ts vs Hl) as [C1 C2].
  assert (Hvals : forall part, In part parts -> incl (map snd part) vs).
  { intros part Hp v H. apply in_map_iff in H. destruct H as (p & <- & Hin).
    rewrite <- C2, <- E2. apply in_map. eapply in_part; eauto. }
  assert (Htss : forall part, In part parts -> incl (map fst part) ts).
  { intros part Hp v H. apply in_map_iff in H. destruct H as (p & <- & Hin).
    rewrite <- C1, <- E2. apply in_map. eapply in_part; eauto. }
  apply (forall2_weaken _ _ (built P eb) (restores P eb)
           (fun part => In part parts /\ valid_timestamps (map fst part))).
  - intros s part Hb [Hp Hvp]. apply built_restores; auto.
    + intros e Ee. destruct (Hrel e Ee) as [H|H]; [now left|]. right.
      exact (same_sign_sub _ _ (Hvals part Hp) H).
    + rewrite Forall_forall in *. intros v H. apply Hre. now apply (Hvals part Hp).
    + rewrite Forall_forall in *. intros v H. apply Hnan. now apply (Hvals part Hp).
    + intros t t' H1 H2. apply Hspan; apply (Htss part Hp); assumption.
  - exact E3.
  - assert (Hpv : Forall (fun part => valid_timestamps (map fst part)) parts).
    { eapply parts_valid; [|exact Hv|].
      - eapply forall2_left; [|exact E3]. apply built_not_empty.
      - rewrite E2. exact C1. }
    rewrite Forall_forall in *. auto.
Qed.
