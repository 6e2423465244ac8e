(** What is left of the data points received by the pipeline of Model/Pipeline.v after crashes. *)
From Coq Require Import ZArith List Bool String Permutation Sorted Lia.
From Verif Require Import Model.Pipeline Spec.PipelineSpec Proofs.PipelineMaps Proofs.PipelineInvariant
  Proofs.PipelineSteps Proofs.PipelineIds Proofs.PipelineRuns.
Import ListNotations.
Open Scope Z_scope.

(** A list that holds nothing more often than another one is a part of it. *)
Lemma part_of (l : list item) : forall k : list item,
  (forall x, (count_occ item_dec l x <= count_occ item_dec k x)%nat) ->
  exists rest, Permutation k (l ++ rest).
Proof.
  induction l as [|a l IH]; intros k H.
  - exists k. reflexivity.
  - assert (Ha : In a k).
    { apply (count_occ_In item_dec). specialize (H a). rewrite count_occ_cons_eq in H by reflexivity. lia. }
    apply in_split in Ha. destruct Ha as [k1 [k2 ->]].
    destruct (IH (k1 ++ k2)) as [rest Hr].
    { intros x. specialize (H x). rewrite count_occ_app in *. cbn [count_occ] in H.
      destruct (item_dec a x); lia. }
    exists rest. cbn [app]. rewrite <- Hr. symmetry. apply Permutation_middle.
Qed.

Section Crash.
  Variable hash : string -> Z.
  Variable capacity : nat.
  Variable sort : list point -> list point.
  Hypothesis Hsort : sorts_points sort.

  Notation run := (run hash capacity sort).
  Notation along := (along hash capacity sort).

  (** Nothing is held twice. *)
  Lemma nothing_twice logging events limits s :
    run logging events (start logging limits [] []) = Next s ->
    along logging (fun e s => undisturbed e s /\ spills_written e) events (start logging limits [] []) ->
    collision_free hash (received s) -> distinct_times (received s) ->
    exists missing, Permutation (received s) ((saved s ++ live s) ++ missing).
  Proof.
    intros H Ha Hc Ht.
    pose proof (run_inv hash capacity sort logging Hsort events _ s (start_inv hash logging limits) H Ha Hc Ht)
      as Hinv.
    apply part_of. intros x. pose proof (inv_below _ _ s Hinv (indicator x) (indicator_nonneg x)) as Hb.
    unfold amount in Hb. rewrite <- sum_app, !sum_indicator in Hb. lia.
  Qed.

  (** Nothing is lost without crashes. *)
  Lemma nothing_lost logging events limits s :
    run logging events (start logging limits [] []) = Next s -> ~ In Crash events ->
    along logging (fun e s => undisturbed e s /\ spills_written e /\ commits_written e) events
      (start logging limits [] []) ->
    healthy s -> collision_free hash (received s) -> distinct_times (received s) ->
    Permutation (received s) (saved s ++ live s).
  Proof.
    intros H Hcr Ha Hh Hc Ht.
    destruct (run_conserves hash capacity sort logging Hsort events _ s (start_inv hash logging limits) H Hcr)
      as [new [Hn Hv]]; try assumption.
    { revert Ha. clear. generalize (start logging limits [] []). induction events as [|e events IH]; intros s0;
        cbn [PipelineSpec.along]; [tauto|]. unfold good. intros [H1 H2]. split; [tauto|].
      destruct (step _ _ _ _ _ _); try exact I. apply IH. exact H2. }
    apply permutation_sums. intros v. specialize (Hv v).
    assert (E : received (start logging limits [] []) = []) by reflexivity.
    assert (E2 : amount v (start logging limits [] []) = 0).
    { unfold amount. rewrite live_start. destruct logging; reflexivity. }
    rewrite E in Hn. cbn [app] in Hn. rewrite sum_app. unfold amount in Hv at 1. rewrite Hn. lia.
  Qed.

  Lemma run_app logging e1 : forall e2 s, run logging (e1 ++ e2) s =
    match run logging e1 s with Next s => run logging e2 s | r => r end.
  Proof.
    induction e1 as [|e e1 IH]; intros e2 s; cbn [app Pipeline.run]; [reflexivity|].
    destruct (step _ _ _ _ e s); try reflexivity. apply IH.
  Qed.

  Lemma along_app logging P e1 : forall e2 s s1, run logging e1 s = Next s1 ->
    along logging P (e1 ++ e2) s <-> along logging P e1 s /\ along logging P e2 s1.
  Proof.
    induction e1 as [|e e1 IH]; intros e2 s s1 H; cbn [app PipelineSpec.along Pipeline.run] in *.
    - injection H as ->. tauto.
    - destruct (step _ _ _ _ e s) as [| |s2] eqn:E; try discriminate H. rewrite (IH e2 s2 s1 H). tauto.
  Qed.

  Lemma along_impl logging (P Q : event -> state -> Prop) events : (forall e s, P e s -> Q e s) ->
    forall s, along logging P events s -> along logging Q events s.
  Proof.
    intros HPQ. induction events as [|e events IH]; intros s; cbn [PipelineSpec.along]; [tauto|].
    intros [H1 H2]. split; [apply HPQ; exact H1|]. destruct (step _ _ _ _ e s); try exact I. apply IH. exact H2.
  Qed.

  (** What is lost by a crash was received together with something saved. *)
  Lemma lost_with_saved before after limits s x :
    run true (before ++ Crash :: after) (start true limits [] []) = Next s ->
    along true (fun e s => undisturbed e s /\ spills_written e) (before ++ Crash :: after)
      (start true limits [] []) ->
    ~ In Crash after -> Forall commits_written after -> healthy s ->
    collision_free hash (received s) -> distinct_times (received s) ->
    In x (received s) ->
    In x (saved s ++ live s)
    \/ exists b y, In b (s_log s) /\ In x (batch_items b) /\ In y (batch_items b) /\ y <> x /\ In y (saved s).
  Proof.
    intros H Ha Hcr Hcw Hh Hc Ht Hx.
    pose proof H as H0. rewrite run_app in H0.
    destruct (run true before (start true limits [] [])) as [| |s1] eqn:E1; try discriminate H0.
    apply (along_app true _ before _ _ s1 E1) in Ha. destruct Ha as [Ha1 Ha2].
    cbn [Pipeline.run Pipeline.step] in H0. cbn [PipelineSpec.along Pipeline.step] in Ha2.
    destruct Ha2 as [_ Ha2].
    set (s2 := start true (s_limits s1) (s_log s1) (s_table s1)) in *.
    pose proof (start_inv hash true limits) as Hi0.
    destruct (run_received hash capacity sort true before _ s1 E1 (inv_log _ _ _ Hi0)) as [_ Hl1].
    destruct (run_received hash capacity sort true after s2 s H0 Hl1) as [Hp Hl].
    apply received_prefix in Hp. destruct Hp as [new Hp].
    assert (Hc1 : collision_free hash (received s1)).
    { rewrite Hp in Hc. apply collision_free_app in Hc. exact Hc. }
    assert (Ht1 : distinct_times (received s1)).
    { rewrite Hp in Ht. apply distinct_times_app in Ht. exact Ht. }
    pose proof (run_inv hash capacity sort true Hsort before _ s1 Hi0 E1 Ha1 Hc1 Ht1) as Hinv1.
    assert (Hinv2 : inv hash true s2).
    { apply (step_inv hash capacity sort true Hsort Crash s1 s2 Hinv1 Hc1 Ht1); [|reflexivity].
      split; [split; [intros []|split; [intros []|exact I]]|discriminate]. }
    destruct (run_conserves hash capacity sort true Hsort after s2 s Hinv2 H0 Hcr) as [new' [Hn' Hv]];
      try assumption.
    { revert Ha2 Hcw. clear. generalize s2. induction after as [|e after IH]; intros s; cbn [PipelineSpec.along];
        [tauto|]. intros [H1 H2] Hf. apply Forall_cons_iff in Hf. split; [unfold good; tauto|].
      destruct (step _ _ _ _ _ _); try exact I. apply IH; tauto. }
    assert (Hkeep : forall y, In y (saved s2 ++ live s2) \/ In y new' -> In y (saved s ++ live s)).
    { intros y Hy. apply sum_indicator_pos. rewrite sum_app. fold (amount (indicator y) s). rewrite Hv.
      unfold amount. rewrite <- sum_app.
      pose proof (sum_nonneg (indicator y) (saved s2 ++ live s2) (fun z _ => indicator_nonneg y z)).
      pose proof (sum_nonneg (indicator y) new' (fun z _ => indicator_nonneg y z)).
      assert (Hyy : indicator y y = 1).
      { unfold indicator. destruct (item_dec y y) as [_|C]; [reflexivity|contradiction C; reflexivity]. }
      destruct Hy as [Hy|Hy].
      - pose proof (sum_in (indicator y) _ y (indicator_nonneg y) Hy). lia.
      - pose proof (sum_in (indicator y) _ y (indicator_nonneg y) Hy). lia. }
    rewrite Hn' in Hx. apply in_app_iff in Hx. destruct Hx as [Hx|Hx]; [|left; apply Hkeep; right; exact Hx].
    apply received_in in Hx. destruct Hx as [b [Hb Hxb]].
    destruct (log_id_some (s_log s1) b Hl1 Hb) as [i Ei].
    destruct (existsb (Z.eqb i) (committed (t_name (b_meta b)) (s_table s1))) eqn:Ec.
    - apply existsb_in in Ec.
      destruct (committed_saved hash true s1 (t_name (b_meta b)) i Hinv1 Ec) as [y [Hy [Hyt Hys]]].
      assert (Hyr : In y (received s1)) by (apply saved_received; [apply (inv_below _ _ _ Hinv1)|exact Hy]).
      apply received_in in Hyr. destruct Hyr as [c [Hc0 Hyc]].
      destruct (batch_item c y Hyc) as [Em Es].
      assert (c = b).
      { apply (log_ids_unique (s_log s1)); try assumption; congruence. }
      subst c.
      assert (Hys2 : In y (saved s)).
      { destruct (run_table hash capacity sort true after s2 s H0) as [l Hl2].
        unfold saved in *. rewrite Hl2, flat_map_app. apply in_app_iff. left. exact Hy. }
      destruct (item_dec y x) as [->|Hne]; [left; apply in_app_iff; left; exact Hys2|].
      right. exists b, y.
      assert (Hbl : In b (s_log s)).
      { destruct (run_received hash capacity sort true after s2 s H0 Hl1) as [[l Hl2] _]. rewrite Hl2.
        apply in_app_iff. left. exact Hb. }
      tauto.
    - left. apply Hkeep. left. apply in_app_iff. right. unfold s2. rewrite live_start.
      apply in_flat_map. exists b. split; [|exact Hxb]. unfold replayed. apply filter_In.
      split; [exact Hb|]. rewrite Ei, Ec. reflexivity.
  Qed.

  (** Batches of one row are never lost. *)
  Lemma single_rows_kept before after limits s b :
    run true (before ++ Crash :: after) (start true limits [] []) = Next s ->
    along true (fun e s => undisturbed e s /\ spills_written e) (before ++ Crash :: after)
      (start true limits [] []) ->
    ~ In Crash after -> Forall commits_written after -> healthy s ->
    collision_free hash (received s) -> distinct_times (received s) ->
    In b (s_log s) -> List.length (b_rows b) = 1%nat ->
    forall x, In x (batch_items b) -> In x (saved s ++ live s).
  Proof.
    intros H Ha Hcr Hcw Hh Hc Ht Hb H1 x Hx.
    assert (Hr : In x (received s)) by (apply received_in; exists b; split; assumption).
    destruct (lost_with_saved before after limits s x H Ha Hcr Hcw Hh Hc Ht Hr)
      as [Hin|[c [y [Hcl [Hxc [Hyc [Hne _]]]]]]]; [exact Hin|].
    exfalso. pose proof (run_received hash capacity sort true _ _ s H (fun t => eq_refl)) as [_ Hl].
    assert (c = b).
    { destruct (batch_item b x Hx), (batch_item c x Hxc).
      apply (log_ids_unique (s_log s)); try assumption; congruence. }
    subst c. apply Hne. unfold batch_items, row_items in Hxc, Hyc.
    destruct (b_rows b) as [|r [|r' l]]; try discriminate H1. cbn [map In] in Hxc, Hyc.
    destruct Hxc as [<-|[]], Hyc as [<-|[]]. reflexivity.
  Qed.
End Crash.
