(** What the invariants of the pipeline of Model/Pipeline.v say about its runs. *)
From Coq Require Import ZArith List Bool String Permutation Sorted Lia.
From Verif Require Import Model.Pipeline Spec.PipelineSpec Proofs.PipelineMaps Proofs.PipelineInvariant
  Proofs.PipelineSteps Proofs.PipelineIds Proofs.PipelineRuns Proofs.PipelineMemory Proofs.PipelineTokens
  Proofs.PipelineProgress Proofs.PipelineCrash.
Import ListNotations.
Open Scope Z_scope.

Section Results.
  Variable hash : string -> Z.
  Variable capacity : nat.
  Variable sort : list point -> list point.
  Variable logging : bool.
  Hypothesis Hsort : sorts_points sort.

  Notation step := (step hash capacity sort logging).
  Notation run := (run hash capacity sort logging).
  Notation start := (start logging).
  Notation along := (along hash capacity sort logging).
  Notation sound := (sound hash capacity logging).
  Notation inv := (inv hash logging).
  Notation wf := (wf hash).

  Notation roomy := (roomy capacity).
  Notation acts := (acts hash capacity sort logging).

  Lemma reached events limits s :
    nonneg_limits limits -> run events (start limits [] []) = Next s ->
    along usual events (start limits [] []) ->
    collision_free hash (received s) -> distinct_times (received s) -> sound s.
  Proof.
    intros Hl H Ha Hc Hd. apply (sound_run hash capacity sort logging Hsort events (start limits [] [])); try assumption.
    apply sound_start. exact Hl.
  Qed.

  Lemma healthy_run events : forall s s',
    sound s -> healthy s -> run events s = Next s' -> along (fun e s => usual e s /\ roomy s) events s ->
    collision_free hash (received s') -> distinct_times (received s') -> healthy s'.
  Proof.
    induction events as [|e events IH]; intros s s' Hok Hh H Ha Hc Ht; cbn [Pipeline.run] in H.
    - injection H as <-. exact Hh.
    - cbn [PipelineSpec.along] in Ha. destruct Ha as [[Hg Hr] Ha].
      destruct (step e s) as [| |s1] eqn:E; try discriminate H.
      destruct (step_log_ok _ _ _ _ e s s1 E (inv_log _ _ s (sd_inv _ _ _ s Hok))) as [Hp0 Hl1].
      destruct (run_received _ _ _ _ events s1 s' H Hl1) as [Hp _]. apply received_prefix in Hp, Hp0.
      destruct Hp as [new Hp]. destruct Hp0 as [new0 Hp0].
      assert (Hc1 : collision_free hash (received s1) /\ distinct_times (received s1)).
      { rewrite Hp in Hc, Ht. split; [apply (collision_free_app _ _ _ Hc)|apply (distinct_times_app _ _ Ht)]. }
      destruct Hc1 as [Hc1 Ht1].
      apply (IH s1 s'); try assumption.
      + apply (sound_step hash capacity sort logging Hsort e s s1); assumption.
      + rewrite Hp0 in Hc1, Ht1. apply (healthy_step hash capacity sort logging Hsort e s s1); try assumption.
        * apply (collision_free_app _ _ _ Hc1).
        * apply (distinct_times_app _ _ Ht1).
  Qed.

  (** * Flushing and closing *)

  Lemma answered s : tokens s -> (s_client s = Flushing \/ s_client s = Closing) -> s_results s <> O ->
    exists stop, finished stop s /\ s_results s = 1%nat /\ s_client s = (if stop then Closing else Flushing).
  Proof.
    intros Ht Hc Hr. apply calm_or in Ht. destruct Ht as [Ht|[[stop [Ht Hcl]]|[_ [_ Ht]]]].
    - exfalso. apply Hr. apply Ht.
    - exists stop. destruct Ht as [P Q|P Q R|P Q R|P Q R|P Q]; try (exfalso; apply Hr; unfold ahead1, ahead2, ahead3 in *; tauto).
      tauto.
    - exfalso. destruct Hc; congruence.
  Qed.

  Lemma return_client s s' : step Return s = Next s' ->
    (s_client s = Flushing \/ s_client s = Closing) /\ s_results s <> O
    /\ received s' = received s /\ saved s' = saved s
    /\ s_client s' = match s_client s with Flushing => Idle | _ => Closed end.
  Proof.
    cbn [Pipeline.step]. intros H. destruct (s_client s); try discriminate H; destruct (s_results s); try discriminate H.
    - injection H as <-. split; [left; reflexivity|]. split; [discriminate|]. tauto.
    - destruct (is_finished s); [|discriminate H]. injection H as <-.
      split; [right; reflexivity|]. split; [discriminate|]. tauto.
  Qed.

  Lemma finished_live stop s : finished stop s -> s_client s = (if stop then Closing else Flushing) -> live s = [].
  Proof.
    intros [[[[E1 [E2 [E3 E4]]] [E5 E6]] E7] [E8 [E9 E10]]] Ec. unfold live.
    rewrite E1, E2, E3, E4, E5, E6, E7, E8, E9, Ec. destruct stop; reflexivity.
  Qed.

  Lemma finished_healthy stop s : finished stop s -> healthy s.
  Proof.
    intros [[[[E1 [E2 [E3 E4]]] [E5 E6]] E7] [E8 [E9 E10]]]. unfold healthy.
    rewrite E2, E6, E8. destruct stop; repeat split; discriminate.
  Qed.

  Lemma return_drained s s' : tokens s -> step Return s = Next s' -> live s' = [] /\ healthy s.
  Proof.
    intros Ht H. destruct (return_client s s' H) as [Hc [Hr [_ [_ Hc']]]].
    destruct (answered s Ht Hc Hr) as [stop [Hf [_ Hcl]]].
    split; [|apply (finished_healthy stop s Hf)].
    pose proof (finished_live stop s Hf Hcl) as Hl.
    assert (E : live s' = live s).
    { cbn [Pipeline.step] in H. destruct (s_client s) eqn:Ec; try discriminate H; destruct (s_results s); try discriminate H.
      - injection H as <-. unfold live. fields. rewrite Ec. reflexivity.
      - destruct (is_finished s); [|discriminate H]. injection H as <-. unfold live. fields. rewrite Ec. reflexivity. }
    rewrite E. exact Hl.
  Qed.

  (** Everything in the pipeline after any run, with any crashes, and everything received since is
      committed when a flush or a close returns. *)
  Lemma flush_barrier before events limits s1 s s' :
    nonneg_limits limits ->
    run before (start limits [] []) = Next s1 -> along usual before (start limits [] []) ->
    run events s1 = Next s -> along usual events s1 -> ~ In Crash events ->
    collision_free hash (received s) -> distinct_times (received s) ->
    step Return s = Next s' ->
    live s' = []
    /\ exists new, received s' = received s1 ++ new /\ Permutation (saved s') (saved s1 ++ live s1 ++ new).
  Proof.
    intros Hl H1 Ha1 H2 Ha2 Hcr Hc Hd H.
    assert (Hp1 : exists new, received s = received s1 ++ new).
    { apply received_prefix.
      destruct (run_received hash capacity sort logging before _ s1 H1 (inv_log _ _ _ (start_inv hash logging limits))) as [_ Hlog].
      apply (run_received hash capacity sort logging events s1 s H2 Hlog). }
    destruct Hp1 as [new Hp1].
    assert (Hs1 : sound s1).
    { apply (reached before limits); try assumption.
      - rewrite Hp1 in Hc. apply (collision_free_app _ _ _ Hc).
      - rewrite Hp1 in Hd. apply (distinct_times_app _ _ Hd). }
    pose proof (sound_run hash capacity sort logging Hsort events s1 s Hs1 H2 Ha2 Hc Hd) as Hs.
    destruct (return_drained s s' (sd_tokens _ _ _ s Hs) H) as [Hlive Hh]. split; [exact Hlive|].
    destruct (return_client s s' H) as [_ [_ [Hr [Hsv _]]]].
    destruct (run_conserves hash capacity sort logging Hsort events s1 s (sd_inv _ _ _ s1 Hs1) H2 Hcr)
      as [new' [Hn Hv]]; try assumption.
    { revert Ha2. clear. revert s1. induction events as [|e events IH]; intros s1; cbn [PipelineSpec.along]; [tauto|].
      unfold usual, good. intros [A B]. split; [tauto|]. destruct (step e s1); try exact I. apply IH. exact B. }
    exists new'. split; [rewrite Hr; exact Hn|]. rewrite Hsv. apply permutation_sums. intros v.
    specialize (Hv v). unfold amount in Hv. rewrite !sum_app.
    assert (El : sum v (live s) = 0); [|lia].
    assert (live s = []) as ->; [|reflexivity].
    destruct (return_client s s' H) as [Hcl [Hrs _]].
    destruct (answered s (sd_tokens _ _ _ s Hs) Hcl Hrs) as [stop [Hf [_ Hcl']]].
    apply (finished_live stop); assumption.
  Qed.

  (** * Waiting *)

  Definition drained (s : state) : Prop :=
    s_ingested s = [] /\ s_uncompressed s = [] /\ s_compressed s = []
    /\ (s_ingestion s = Receiving \/ s_ingestion s = Stopped)
    /\ (s_compressor s = Ready \/ s_compressor s = Compressor_stopped)
    /\ (s_writer s = Waiting \/ s_writer s = Writer_stopped).

  Lemma stopped_drained s : tokens s ->
    (s_ingestion s = Stopped -> s_ingested s = [])
    /\ (s_compressor s = Compressor_stopped -> s_uncompressed s = [])
    /\ (s_writer s = Writer_stopped -> s_compressed s = []).
  Proof.
    intros Ht. apply calm_or in Ht.
    destruct Ht as [Ht|[[stop [Ht _]]|[Ht _]]].
    - destruct Ht as [_ [Q1 [_ [Q2 [_ [Q3 _]]]]]].
      split; [|split]; intros E; try contradiction. rewrite E in Q3. contradiction.
    - destruct Ht as [P Q|P Q R|P Q R|P Q R|P Q].
      + destruct Q as [Q1 [_ [Q2 [_ [Q3 _]]]]].
        split; [|split]; intros E; try contradiction. rewrite E in Q3. contradiction.
      + destruct R as [Q2 [_ [Q3 _]]]. destruct P as [P _].
        split; [|split]; intros E; try contradiction; try exact P. rewrite E in Q3. contradiction.
      + destruct R as [Q3 _]. destruct P as [[P1 _] [P2 _]].
        split; [|split]; intros E; try assumption. rewrite E in Q3. contradiction.
      + destruct P as [[[P1 _] [P2 _]] P3]. tauto.
      + destruct P as [[[[P1 _] [P2 _]] P3] _]. tauto.
    - destruct Ht as [[[[P1 _] [P2 _]] P3] _]. tauto.
  Qed.

  Lemma acts_intro e s : by_threads e -> spills_written e -> commits_written e ->
    step e s <> Blocked -> step e s <> Aborted -> acts s.
  Proof.
    intros H1 H2 H3 H4 H5. destruct (step e s) as [| |s'] eqn:E; [contradiction H4; reflexivity|contradiction H5; reflexivity|].
    exists e, s'. tauto.
  Qed.

  Definition calling (c : client) : Prop :=
    match c with Lowering _ | Spilling _ _ | Freeing _ | Saving _ _ _ => False | _ => True end.

  Lemma acts_or_drained s :
    sound s -> healthy s -> calling (s_client s) -> acts s \/ drained s.
  Proof.
    intros Hs [Hh1 [Hh2 Hh3]] Hcl.
    assert (Hus : forall e, by_threads e -> spills_written e -> commits_written e -> step e s <> Aborted).
    { intros e H1 H2 H3. apply (no_abort hash capacity sort logging e s Hs). split; [|tauto].
      split; [|split].
      - intros _. destruct (s_client s); try exact I; contradiction.
      - intros _. destruct (s_client s); try exact I; contradiction.
      - destruct e; try exact I; unfold by_threads, by_ingestion, by_compressor, by_writer in H1; tauto. }
    destruct (stopped_drained s (sd_tokens _ _ _ s Hs)) as [Hd1 [Hd2 Hd3]].
    pose proof (sd_waits _ _ _ s Hs) as Hw. unfold waits in Hw.
    assert (Hgo : forall e, by_threads e -> spills_written e -> commits_written e -> step e s <> Blocked -> acts s).
    { intros e H1 H2 H3 H4. apply (acts_intro e); try assumption. apply Hus; assumption. }
    assert (Hk : acts s \/ (s_uncompressed s = [] /\ (s_compressor s = Ready \/ s_compressor s = Compressor_stopped))).
    { destruct (s_compressor s) as [|n m tags points ids| |] eqn:Ek.
      - destruct (s_uncompressed s) as [|m rest] eqn:Eu; [right; tauto|]. left.
        apply (Hgo Compress); try discriminate; [right; left; exact I|]. cbn [Pipeline.step]. rewrite Ek, Eu.
        destruct m as [[b|d]| |]; try discriminate. destruct (get path_eqb _ _); discriminate.
      - left. apply (Hgo (Send_segments (repeat 0 (t_fields m)))); try discriminate; [right; left; exact I|].
        cbn [Pipeline.step]. rewrite Ek, repeat_length, Nat.eqb_refl. cbn [andb].
        assert (forallb (Z.leb 0) (repeat 0 (t_fields m)) = true) as ->; [|discriminate].
        apply forallb_forall. intros x Hx. apply repeat_spec in Hx. subst x. reflexivity.
      - right. split; [apply Hd2; reflexivity|right; reflexivity].
      - contradiction Hh2. reflexivity. }
    destruct Hk as [Hk|[Hu Hk]]; [left; exact Hk|].
    assert (Hwr : acts s \/ (s_compressed s = [] /\ (s_writer s = Waiting \/ s_writer s = Writer_stopped))).
    { destruct (s_writer s) as [|t|table b t| |] eqn:Ew.
      - destruct (s_compressed s) as [|m rest] eqn:Em; [right; tauto|]. left.
        apply (Hgo Write); try discriminate; [right; right; exact I|]. cbn [Pipeline.step]. rewrite Ew, Em.
        destruct m as [g| |]; try discriminate. cbv zeta. fields. destruct (get String.eqb _ _); discriminate.
      - left. apply (Hgo Work); try discriminate; [right; right; exact I|]. cbn [Pipeline.step]. rewrite Ew.
        destruct t.
        + destruct (_ <=? _); [discriminate|]. destruct (pop_buffer s) as [[[? ?] ?]|]; discriminate.
        + destruct (s_queue s); [discriminate|]. destruct (pop_buffer s) as [[[? ?] ?]|]; discriminate.
        + destruct (s_queue s); [discriminate|]. destruct (pop_buffer s) as [[[? ?] ?]|]; discriminate.
      - left. apply (Hgo (Commit true)); try discriminate; [right; right; exact I|]. cbn [Pipeline.step]. rewrite Ew.
        discriminate.
      - right. split; [apply Hd3; reflexivity|right; reflexivity].
      - contradiction Hh3. reflexivity. }
    destruct Hwr as [Hwr|[Hc Hwr]]; [left; exact Hwr|].
    destruct (s_ingestion s) as [|b l w|h b l| |] eqn:Ei.
    - destruct (s_ingested s) as [|m rest] eqn:Em.
      + right. unfold drained. rewrite Ei. tauto.
      + left. apply (Hgo Receive); try discriminate; [left; exact I|]. cbn [Pipeline.step]. rewrite Ei, Em.
        destruct m; discriminate.
    - left. destruct l as [|r l].
      + apply (Hgo Finish); try discriminate; [left; exact I|]. cbn [Pipeline.step]. rewrite Ei. discriminate.
      + destruct w.
        * exfalso. destruct Hw as [Hw|[n [m [tags [points [ids Hw]]]]]]; [contradiction|].
          destruct Hk; congruence.
        * apply (Hgo (Point true)); try discriminate; [left; exact I|]. cbn [Pipeline.step]. rewrite Ei.
          unfold insert_data_point. cbv zeta. destruct (get Z.eqb _ (s_memory s)); [discriminate|].
          destruct (Pipeline.reserve _ _ _ _ _) as [[s1 [|]]|]; try discriminate.
          destruct (get Z.eqb _ (s_disk s1)); [|discriminate]. destruct (get path_eqb _ _); discriminate.
    - left. apply (Hgo Send_full); try discriminate; [left; exact I|]. cbn [Pipeline.step]. rewrite Ei.
      destruct (get Z.eqb _ _); discriminate.
    - right. unfold drained. rewrite Ei. split; [apply Hd1; reflexivity|]. tauto.
    - contradiction Hh1. reflexivity.
  Qed.

  Lemma drained_returns s :
    tokens s -> drained s -> (s_client s = Flushing \/ s_client s = Closing) ->
    exists s', step Return s = Next s'.
  Proof.
    intros Ht [D1 [D2 [D3 [D4 [D5 D6]]]]] Hc.
    assert (Hpos : forall stop, position stop s -> finished stop s /\ s_results s = 1%nat).
    { intros stop [P Q|P Q R|P Q R|P Q R|P Q].
      - exfalso. apply (placed_none _ _ P D1).
      - exfalso. apply (placed_none _ _ Q D2).
      - exfalso. apply (placed_none _ _ Q D3).
      - exfalso. destruct D6 as [D6|D6]; rewrite D6 in Q; exact Q.
      - tauto. }
    unfold tokens in Ht. cbn [Pipeline.step]. destruct Hc as [Hc|Hc]; rewrite Hc in Ht; rewrite Hc.
    - destruct (Hpos false Ht) as [_ ->]. eexists. reflexivity.
    - destruct (Hpos true Ht) as [[[[[_ [E2 _]] [_ E6]] _] [E8 _]] ->].
      unfold is_finished. rewrite E2, E6, E8. eexists. reflexivity.
  Qed.

  Lemma drained_sends s b :
    sound s -> drained s -> s_client s = Inserting b -> b_size b <= ingested (s_limits s) ->
    exists s', step Send s = Next s'.
  Proof.
    intros Hs [D1 [D2 [D3 [D4 [D5 D6]]]]] Hc Hb. cbn [Pipeline.step]. rewrite Hc.
    pose proof (sd_ingested _ _ _ s Hs) as Hi. unfold ingested_ok, used_ingested in Hi. rewrite D1 in Hi.
    cbn [total_of fold_right] in Hi.
    assert (E : ingested (s_pool s) = ingested (s_limits s)).
    { destruct D4 as [D4|D4]; rewrite D4 in Hi; specialize (Hi ltac:(discriminate)); lia. }
    rewrite E. apply Z.leb_le in Hb. rewrite Hb. eexists. reflexivity.
  Qed.

  (** The steps of the threads leave the client, the log and the limits as they are. *)
  Lemma threads_same e s s' : by_threads e -> step e s = Next s' ->
    s_client s' = s_client s /\ s_log s' = s_log s /\ s_limits s' = s_limits s.
  Proof.
    intros He H. destruct e; unfold by_threads, by_ingestion, by_compressor, by_writer in He; try tauto; clear He.
    2:{ pose proof (point_same hash capacity sort logging _ _ _ (ex_intro _ spilled eq_refl) H)
        as [E1 [E2 [E3 [E4 [E5 _]]]]]. split; [exact E1|]. split; [|exact E5].
      cbn [Pipeline.step] in H. destruct (s_ingestion s) as [|b l w| | |]; try discriminate H.
      destruct l as [|r l]; [discriminate H|]. destruct w; [discriminate H|]. unfold insert_data_point in H. cbv zeta in H.
      destruct (get Z.eqb _ (s_memory s)); [injection H as <-; reflexivity|].
      destruct (Pipeline.reserve _ _ _ _ _) as [[s1 ok]|] eqn:Er; [|injection H as <-; reflexivity].
      apply reserve_log in Er. rewrite <- Er. destruct ok; [|injection H as <-; reflexivity].
      destruct (get Z.eqb _ (s_disk s1)); [|injection H as <-; reflexivity].
      destruct (get path_eqb _ _); injection H as <-; reflexivity. }
    all: cbn [Pipeline.step] in H;
      repeat match type of H with
      | context [match pop_buffer ?x with _ => _ end] => unfold pop_buffer in H
      | context [match ?x with _ => _ end] =>
          match x with
          | context [match _ with _ => _ end] => fail 1
          | _ => destruct x eqn:?
          end
      end; try discriminate H; injection H as <-; repeat split; reflexivity.
  Qed.

  Lemma threads_run events : forall s s',
    sound s -> healthy s -> roomy s -> calling (s_client s) ->
    collision_free hash (received s) -> distinct_times (received s) ->
    Forall (fun e => by_threads e /\ spills_written e /\ commits_written e) events ->
    run events s = Next s' ->
    sound s' /\ healthy s' /\ s_client s' = s_client s /\ s_limits s' = s_limits s
    /\ work s' + Z.of_nat (List.length events) <= work s.
  Proof.
    induction events as [|e events IH]; intros s s' Hs Hh Hr Hcl Hc Hd He H; cbn [Pipeline.run] in H.
    - injection H as <-. cbn [List.length]. split; [exact Hs|]. split; [exact Hh|].
      split; [reflexivity|]. split; [reflexivity|]. lia.
    - apply Forall_cons_iff in He. destruct He as [[He1 [He2 He3]] He].
      destruct (step e s) as [| |s1] eqn:E; try discriminate H.
      destruct (threads_same e s s1 He1 E) as [E1 [E2 E3]].
      assert (Er : received s1 = received s) by (unfold received; rewrite E2; reflexivity).
      assert (Hus : usual e s).
      { split; [|tauto]. split; [|split].
        - intros _. destruct (s_client s); try exact I; contradiction.
        - intros _. destruct (s_client s); try exact I; contradiction.
        - destruct e; try exact I; unfold by_threads, by_ingestion, by_compressor, by_writer in He1; tauto. }
      assert (Hs1 : sound s1).
      { apply (sound_step hash capacity sort logging Hsort e s); try assumption; rewrite Er; assumption. }
      assert (Hh1 : healthy s1) by (apply (healthy_step hash capacity sort logging Hsort e s); assumption).
      assert (Hr1 : roomy s1) by (unfold roomy; rewrite Er, E3; exact Hr).
      pose proof (work_step hash capacity sort logging e s s1 He1 E) as Hwk.
      destruct (IH s1 s') as [F1 [F2 [F3 [F4 F5]]]]; try assumption.
      + rewrite E1. exact Hcl.
      + rewrite Er. exact Hc.
      + rewrite Er. exact Hd.
      + split; [exact F1|]. split; [exact F2|]. split; [congruence|]. split; [congruence|].
        cbn [List.length]. lia.
  Qed.

  (** A client waiting for the pipeline: the threads do a bounded number of steps and then it can
      continue. *)
  Lemma completes (Q : state -> Prop) events limits s :
    nonneg_limits limits -> run events (start limits [] []) = Next s ->
    along (fun e s => usual e s /\ roomy s) events (start limits [] []) -> roomy s ->
    collision_free hash (received s) -> distinct_times (received s) -> calling (s_client s) ->
    (forall s', sound s' -> drained s' -> s_client s' = s_client s -> s_limits s' = s_limits s -> Q s') ->
    exists n, forall rest s',
      Forall (fun e => by_threads e /\ spills_written e /\ commits_written e) rest -> run rest s = Next s' ->
      (List.length rest <= n)%nat /\ (acts s' \/ Q s').
  Proof.
    intros Hl H Ha Hr Hc Hd Hcl HQ.
    assert (Ha0 : along usual events (start limits [] [])).
    { revert Ha. generalize (start limits [] []). clear. induction events as [|e events IH]; intros s0;
        cbn [PipelineSpec.along]; [tauto|]. intros [A B]. split; [apply A|]. destruct (step e s0); try exact I.
      apply IH. exact B. }
    pose proof (reached events limits s Hl H Ha0 Hc Hd) as Hs.
    assert (Hh : healthy s).
    { apply (healthy_run events (start limits [] [])); try assumption.
      - apply sound_start. exact Hl.
      - unfold healthy, Pipeline.start. fields. repeat split; discriminate. }
    exists (Z.to_nat (work s)). intros rest s' He H'.
    destruct (threads_run rest s s' Hs Hh Hr Hcl Hc Hd He H') as [F1 [F2 [F3 [F4 F5]]]].
    pose proof (work_nonneg s'). split; [lia|].
    destruct (acts_or_drained s' F1 F2) as [F6|F6]; [rewrite F3; exact Hcl|left; exact F6|].
    right. apply HQ; assumption.
  Qed.

  Lemma flush_completes events limits s :
    nonneg_limits limits -> run events (start limits [] []) = Next s ->
    along (fun e s => usual e s /\ roomy s) events (start limits [] []) -> roomy s ->
    collision_free hash (received s) -> distinct_times (received s) ->
    (s_client s = Flushing \/ s_client s = Closing) ->
    exists n, forall rest s',
      Forall (fun e => by_threads e /\ spills_written e /\ commits_written e) rest -> run rest s = Next s' ->
      (List.length rest <= n)%nat /\ (acts s' \/ exists s'', step Return s' = Next s'').
  Proof.
    intros Hl H Ha Hr Hc Hd Hcl. apply (completes (fun s' => exists s'', step Return s' = Next s'') events limits s);
      try assumption.
    - destruct Hcl as [-> | ->]; exact I.
    - intros s' Hs' Hd' E _. apply drained_returns; [apply (sd_tokens _ _ _ s' Hs')|exact Hd'|].
      rewrite E. exact Hcl.
  Qed.

  Lemma insert_completes events limits s b :
    nonneg_limits limits -> run events (start limits [] []) = Next s ->
    along (fun e s => usual e s /\ roomy s) events (start limits [] []) -> roomy s ->
    collision_free hash (received s) -> distinct_times (received s) ->
    s_client s = Inserting b -> b_size b <= ingested (s_limits s) ->
    exists n, forall rest s',
      Forall (fun e => by_threads e /\ spills_written e /\ commits_written e) rest -> run rest s = Next s' ->
      (List.length rest <= n)%nat /\ (acts s' \/ exists s'', step Send s' = Next s'').
  Proof.
    intros Hl H Ha Hr Hc Hd Hcl Hb. apply (completes (fun s' => exists s'', step Send s' = Next s'') events limits s);
      try assumption.
    - rewrite Hcl. exact I.
    - intros s' Hs' Hd' E El. apply (drained_sends s' b); try assumption.
      + rewrite E. exact Hcl.
      + rewrite El. exact Hb.
  Qed.

  (** Closing stops the threads. *)
  Lemma closed_stopped events limits s :
    nonneg_limits limits -> run events (start limits [] []) = Next s ->
    along usual events (start limits [] []) ->
    collision_free hash (received s) -> distinct_times (received s) -> s_client s = Closed ->
    s_ingestion s = Stopped /\ s_compressor s = Compressor_stopped /\ s_writer s = Writer_stopped /\ live s = [].
  Proof.
    intros Hl H Ha Hc Hd Hcl.
    pose proof (sd_tokens _ _ _ s (reached events limits s Hl H Ha Hc Hd)) as Ht. unfold tokens in Ht. rewrite Hcl in Ht.
    destruct Ht as [[[[[E1 [E2 [E3 E4]]] [E5 E6]] E7] [E8 [E9 E10]]] _].
    split; [exact E2|]. split; [exact E6|]. split; [exact E8|].
    unfold live. rewrite E1, E2, E3, E4, E5, E6, E7, E8, E9, Hcl. reflexivity.
  Qed.

  (** * Memory *)

  Lemma exact_uncompressed events : forall s s',
    sound s -> slack capacity s = 0 -> run events s = Next s' ->
    along (fun e s => usual e s /\ fits hash capacity e s) events s ->
    collision_free hash (received s') -> distinct_times (received s') -> slack capacity s' = 0.
  Proof.
    induction events as [|e events IH]; intros s s' Hok Hz H Ha Hc Ht; cbn [Pipeline.run] in H.
    - injection H as <-. exact Hz.
    - cbn [PipelineSpec.along] in Ha. destruct Ha as [[Hg Hr] Ha].
      destruct (step e s) as [| |s1] eqn:E; try discriminate H.
      destruct (step_log_ok _ _ _ _ e s s1 E (inv_log _ _ s (sd_inv _ _ _ s Hok))) as [Hp0 Hl1].
      destruct (run_received _ _ _ _ events s1 s' H Hl1) as [Hp _]. apply received_prefix in Hp, Hp0.
      destruct Hp as [new Hp]. destruct Hp0 as [new0 Hp0].
      assert (Hc1 : collision_free hash (received s1) /\ distinct_times (received s1)).
      { rewrite Hp in Hc, Ht. split; [apply (collision_free_app _ _ _ Hc)|apply (distinct_times_app _ _ Ht)]. }
      destruct Hc1 as [Hc1 Ht1].
      apply (IH s1 s'); try assumption.
      + apply (sound_step hash capacity sort logging Hsort e s s1); assumption.
      + rewrite Hp0 in Hc1, Ht1. apply collision_free_app in Hc1. apply distinct_times_app in Ht1.
        destruct Hg as [Hg1 [Hg2 Hg3]].
        destruct (uncompressed_step hash capacity sort logging Hsort e s s1 (sd_inv _ _ _ s Hok) Hc1 Ht1 (conj Hg1 Hg2) E)
          as [[_ F]|[_ F]]; [exact F|]. rewrite (F Hr). exact Hz.
  Qed.

  Lemma exact_compressed events : forall s s',
    sound s -> segments_ok single s -> excess s = 0 -> run events s = Next s' ->
    along (fun e s => usual e s /\ single_field e) events s ->
    collision_free hash (received s') -> distinct_times (received s') ->
    segments_ok single s' /\ excess s' = 0.
  Proof.
    induction events as [|e events IH]; intros s s' Hok Hsg Hz H Ha Hc Ht; cbn [Pipeline.run] in H.
    - injection H as <-. split; assumption.
    - cbn [PipelineSpec.along] in Ha. destruct Ha as [[Hg Hr] Ha].
      destruct (step e s) as [| |s1] eqn:E; try discriminate H.
      destruct (step_log_ok _ _ _ _ e s s1 E (inv_log _ _ s (sd_inv _ _ _ s Hok))) as [Hp0 Hl1].
      destruct (run_received _ _ _ _ events s1 s' H Hl1) as [Hp _]. apply received_prefix in Hp.
      destruct Hp as [new Hp].
      apply (IH s1 s'); try assumption.
      + apply (sound_step hash capacity sort logging Hsort e s s1); try assumption;
          rewrite Hp in Hc, Ht; [apply (collision_free_app _ _ _ Hc)|apply (distinct_times_app _ _ Ht)].
      + apply (segments_step hash capacity sort logging single e s); try assumption.
        destruct e; try exact I. intros _ g Eg. unfold single. rewrite Eg. exact Hr.
      + destruct Hg as [Hg1 [Hg2 Hg3]].
        destruct (compressed_step hash capacity sort logging e s s1 (inv_wf _ _ _ (sd_inv _ _ _ s Hok)) (sd_segments _ _ _ s Hok) Hg1 Hg3 E)
          as [[_ F]|[_ F]]; [exact F|]. rewrite (F Hsg). exact Hz.
  Qed.

  Lemma single_credit s : segments_ok single s -> credit s = used_compressed s.
  Proof.
    intros [_ H1 H2 H3]. unfold credit, used_compressed.
    assert (Hb : forall b, buffer_ok single b -> c_size b = segments_size (c_segments b)).
    { intros b [E F]. rewrite E. unfold segments_size. rewrite total_of_sum. apply sum_ext_in.
      intros g Hg. rewrite Forall_forall in F. apply single_credited. apply F. exact Hg. }
    rewrite total_of_sum.
    rewrite (sum_ext_in (fun e => c_size (snd e)) (fun e => segments_size (c_segments (snd e)))).
    2:{ intros [t b] Hin. apply Hb. apply (H1 t). exact Hin. }
    assert (E2 : match s_client s with Saving _ _ b => c_size b | _ => 0 end
      = match s_client s with Saving _ _ b => segments_size (c_segments b) | _ => 0 end).
    { destruct (s_client s) eqn:E; try reflexivity. apply Hb. apply (H2 _ _ _ eq_refl). }
    assert (E3 : match s_writer s with Committing _ b _ => c_size b | _ => 0 end
      = match s_writer s with Committing _ b _ => segments_size (c_segments b) | _ => 0 end).
    { destruct (s_writer s) eqn:E; try reflexivity. apply Hb. apply (H3 _ _ _ eq_refl). }
    rewrite E2, E3. reflexivity.
  Qed.

  Lemma along_and P Q events : forall s, along P events s -> along Q events s -> along (fun e s => P e s /\ Q e s) events s.
  Proof.
    induction events as [|e events IH]; intros s; cbn [PipelineSpec.along]; [tauto|].
    intros [A B] [C D]. split; [tauto|]. destruct (step e s); try exact I. apply IH; assumption.
  Qed.

  Lemma memory_balance events limits s :
    nonneg_limits limits -> run events (start limits [] []) = Next s ->
    along usual events (start limits [] []) ->
    collision_free hash (received s) -> distinct_times (received s) ->
    (s_ingestion s <> Failed -> ingested (s_pool s) + used_ingested s = ingested (s_limits s))
    /\ (along (fits hash capacity) events (start limits [] []) ->
        uncompressed (s_pool s) + used_uncompressed capacity s
        = uncompressed (s_limits s) + uncompressed_change (s_client s))
    /\ (Forall single_field events ->
        compressed (s_pool s) + used_compressed s
        = compressed (s_limits s) + compressed_change (s_client s) + being_reserved (s_writer s)).
  Proof.
    intros Hl H Ha Hc Hd. pose proof (sound_start hash capacity logging limits Hl) as H0.
    pose proof (reached events limits s Hl H Ha Hc Hd) as Hs. split; [|split].
    - apply (sd_ingested _ _ _ s Hs).
    - intros Hf. pose proof (exact_uncompressed events _ s H0) as E.
      assert (slack capacity s = 0) as Hz; [|unfold slack in Hz; lia].
      apply E; try assumption.
      + unfold slack, used_uncompressed, Pipeline.start. fields. cbn [total_of fold_right uncompressed_change]. lia.
      + apply along_and; assumption.
    - intros Hf. destruct (exact_compressed events _ s H0) as [E1 E2]; try assumption.
      + constructor; unfold Pipeline.start; fields; try (intros; contradiction); intros; discriminate.
      + unfold excess, credit, Pipeline.start. fields. cbn [sum compressed_change being_reserved]. lia.
      + revert Ha Hf. clear. generalize (start limits [] []). induction events as [|e events IH]; intros s0;
          cbn [PipelineSpec.along]; [tauto|]. intros [A B] F. apply Forall_cons_iff in F. split; [tauto|].
        destruct (step e s0); try exact I. apply IH; tauto.
      + unfold excess in E2. rewrite (single_credit s E1) in E2. lia.
  Qed.

  Lemma memory_not_leaked events limits s :
    nonneg_limits limits -> run events (start limits [] []) = Next s ->
    along usual events (start limits [] []) ->
    collision_free hash (received s) -> distinct_times (received s) ->
    uncompressed (s_limits s) + uncompressed_change (s_client s)
      <= uncompressed (s_pool s) + used_uncompressed capacity s
    /\ 0 <= uncompressed (s_pool s) - uncompressed_change (s_client s)
    /\ 0 <= compressed (s_pool s) - compressed_change (s_client s).
  Proof.
    intros Hl H Ha Hc Hd. pose proof (reached events limits s Hl H Ha Hc Hd) as Hs.
    pose proof (sd_slack _ _ _ s Hs) as H1. pose proof (sd_pools _ _ _ s Hs) as H2. unfold slack in H1.
    unfold pools_ok in H2. lia.
  Qed.

  Lemma no_panic events limits s e :
    nonneg_limits limits -> run events (start limits [] []) = Next s ->
    along usual events (start limits [] []) ->
    collision_free hash (received s) -> distinct_times (received s) ->
    usual e s -> step e s <> Aborted.
  Proof.
    intros Hl H Ha Hc Hd He. apply (no_abort hash capacity sort logging e s); [|exact He].
    apply (reached events limits s Hl H Ha Hc Hd).
  Qed.

  (** * Changes of limits *)

  Definition adds (f : Z -> pool -> pool) (change : Z) (limits : pool) (working : client -> Prop) (fails : Prop)
      (s : state) : Prop :=
    (working (s_client s) /\ s_limits s = limits)
    \/ (s_client s = Idle /\ s_limits s = f change limits)
    \/ (fails /\ s_client s = Idle /\ s_limits s = limits).

  Definition lowering (change : Z) (c : client) : Prop :=
    c = Lowering change \/ exists b, c = Spilling change b.
  Definition freeing (change : Z) (c : client) : Prop :=
    c = Freeing change \/ exists t b, c = Saving change t b.

  Lemma uncompressed_change_step e change limits s s' :
    meanwhile e -> pools_ok s -> step e s = Next s' ->
    adds add_uncompressed change limits (lowering change) (change < 0) s ->
    adds add_uncompressed change limits (lowering change) (change < 0) s'.
  Proof.
    intros He Hp H Hs. destruct He as [He|He].
    { destruct (threads_same e s s' He H) as [E1 [_ E3]]. unfold adds in *. rewrite E1, E3. exact Hs. }
    destruct e; try contradiction; cbn [Pipeline.step] in H.
    2,3: injection H as <-; exact Hs.
    unfold pools_ok in Hp. destruct Hs as [[[E|[b E]] El]|[[E El]|[_ [E El]]]]; rewrite E in H; try discriminate H.
    - rewrite E in Hp. cbn [uncompressed_change] in Hp.
      destruct (uncompressed (s_pool s) <? 0) eqn:En.
      + apply Z.ltb_lt in En. unfold take_buffer in H. destruct (s_memory s) as [|[h b] l]; injection H as <-.
        * right. right. fields. split; [lia|]. split; [reflexivity|exact El].
        * left. fields. split; [right; exists b; reflexivity|exact El].
      + injection H as <-. right. left. fields. rewrite El. split; reflexivity.
    - injection H as <-. left. unfold Pipeline.spill. fields. split; [left; reflexivity|exact El].
  Qed.

  Lemma compressed_change_step e change limits s s' :
    meanwhile e -> step e s = Next s' ->
    adds add_compressed change limits (freeing change) False s ->
    adds add_compressed change limits (freeing change) False s'.
  Proof.
    intros He H Hs. destruct He as [He|He].
    { destruct (threads_same e s s' He H) as [E1 [_ E3]]. unfold adds in *. rewrite E1, E3. exact Hs. }
    destruct e; try contradiction; cbn [Pipeline.step] in H.
    2,3: injection H as <-; exact Hs.
    destruct Hs as [[[E|[t [b E]]] El]|[[E El]|[[] _]]]; rewrite E in H; try discriminate H.
    - destruct (compressed (s_pool s) <? 0) eqn:En.
      + destruct (pop_buffer s) as [[[t b] s1]|] eqn:Ep; [|discriminate H]. injection H as <-.
        apply pop_fields in Ep. destruct Ep as [-> _]. left. fields.
        split; [right; exists t, b; reflexivity|exact El].
      + injection H as <-. right. left. fields. rewrite El. split; reflexivity.
    - injection H as <-. left. unfold save. fields. split; [left; reflexivity|exact El].
  Qed.

  Lemma changed (f : Z -> pool -> pool) change limits working fails rest : forall s s',
    (forall e s s', meanwhile e -> pools_ok s -> step e s = Next s' ->
      adds f change limits working fails s -> adds f change limits working fails s') ->
    sound s -> adds f change limits working fails s -> run rest s = Next s' -> along usual rest s ->
    Forall meanwhile rest -> collision_free hash (received s') -> distinct_times (received s') ->
    adds f change limits working fails s'.
  Proof.
    intros s s' Hst. revert s s'.
    induction rest as [|e rest IH]; intros s s' Hok Hs H Ha Hf Hc Ht; cbn [Pipeline.run] in H.
    - injection H as <-. exact Hs.
    - cbn [PipelineSpec.along] in Ha. destruct Ha as [Hg Ha]. apply Forall_cons_iff in Hf. destruct Hf as [He Hf].
      destruct (step e s) as [| |s1] eqn:E; try discriminate H.
      destruct (step_log_ok _ _ _ _ e s s1 E (inv_log _ _ s (sd_inv _ _ _ s Hok))) as [Hp0 Hl1].
      destruct (run_received _ _ _ _ rest s1 s' H Hl1) as [Hp _]. apply received_prefix in Hp.
      destruct Hp as [new Hp]. apply (IH s1 s'); try assumption.
      + apply (sound_step hash capacity sort logging Hsort e s s1); try assumption;
          rewrite Hp in Hc, Ht; [apply (collision_free_app _ _ _ Hc)|apply (distinct_times_app _ _ Ht)].
      + apply (Hst e s s1); try assumption. apply (sd_pools _ _ _ s Hok).
  Qed.

  Lemma run_cons e events s s1 : step e s = Next s1 -> run (e :: events) s = run events s1.
  Proof. intros E. cbn [Pipeline.run]. rewrite E. reflexivity. Qed.

  Lemma change_complete events limits e s s1 rest s' change f :
    nonneg_limits limits -> run events (start limits [] []) = Next s ->
    along usual (events ++ e :: rest) (start limits [] []) ->
    step e s = Next s1 -> run rest s1 = Next s' -> Forall meanwhile rest ->
    collision_free hash (received s') -> distinct_times (received s') -> s_client s' = Idle ->
    (e = Adjust_uncompressed change /\ f = add_uncompressed) \/ (e = Adjust_compressed change /\ f = add_compressed)
    \/ (e = Adjust_ingested change /\ f = add_ingested) ->
    s_limits s' = f change (s_limits s)
    \/ (e = Adjust_uncompressed change /\ change < 0 /\ s_limits s' = s_limits s).
  Proof.
    intros Hl H Ha E H1 Hm Hc Hd Hid Hf.
    rewrite (along_app hash capacity sort logging usual events (e :: rest) (start limits [] []) s H) in Ha.
    destruct Ha as [Ha1 Ha2]. cbn [PipelineSpec.along] in Ha2. rewrite E in Ha2. destruct Ha2 as [Hu Ha2].
    assert (Hs : sound s).
    { assert (Hlog : log_ok logging (s_log s)).
      { apply (run_received hash capacity sort logging events _ s H (inv_log _ _ _ (start_inv hash logging limits))). }
      destruct (run_received hash capacity sort logging (e :: rest) s s') as [Hp _]; [rewrite (run_cons e rest s s1 E); exact H1|exact Hlog|].
      apply received_prefix in Hp. destruct Hp as [new Hp]. rewrite Hp in Hc, Hd.
      apply (reached events limits); try assumption; [apply (collision_free_app _ _ _ Hc)|apply (distinct_times_app _ _ Hd)]. }
    assert (Hs1 : sound s1).
    { destruct (step_log_ok _ _ _ _ e s s1 E (inv_log _ _ s (sd_inv _ _ _ s Hs))) as [_ Hl1].
      destruct (run_received _ _ _ _ rest s1 s' H1 Hl1) as [Hp _]. apply received_prefix in Hp.
      destruct Hp as [new Hp]. rewrite Hp in Hc, Hd.
      apply (sound_step hash capacity sort logging Hsort e s s1); try assumption;
        [apply (collision_free_app _ _ _ Hc)|apply (distinct_times_app _ _ Hd)]. }
    destruct Hf as [[-> ->]|[[-> ->]|[-> ->]]].
    - assert (A : adds add_uncompressed change (s_limits s) (lowering change) (change < 0) s').
      { apply (changed _ change (s_limits s) (lowering change) (change < 0) rest s1 s'); try assumption.
        - intros e0 a a'. apply uncompressed_change_step.
        - cbn [Pipeline.step] in E. destruct (s_client s); try discriminate E.
          destruct (0 <=? _); [|discriminate E]. injection E as <-. left. fields. split; [left; reflexivity|reflexivity]. }
      destruct A as [[[A|[b A]] _]|[[_ A]|[A [_ B]]]]; try congruence; [left; exact A|right; tauto].
    - assert (A : adds add_compressed change (s_limits s) (freeing change) False s').
      { apply (changed _ change (s_limits s) (freeing change) False rest s1 s'); try assumption.
        - intros e0 a a' B1 _. apply compressed_change_step. exact B1.
        - cbn [Pipeline.step] in E. destruct (s_client s); try discriminate E.
          destruct (0 <=? _); [|discriminate E]. injection E as <-. left. fields. split; [left; reflexivity|reflexivity]. }
      destruct A as [[[A|[t [b A]]] _]|[[_ A]|[[] _]]]; try congruence. left. exact A.
    - left. assert (A : s_client s1 = Idle /\ s_limits s1 = add_ingested change (s_limits s)).
      { cbn [Pipeline.step] in E. destruct (s_client s) eqn:Ec; try discriminate E.
        destruct (0 <=? _); [|discriminate E]. injection E as <-. fields. split; [exact Ec|reflexivity]. }
      destruct A as [A1 A2]. rewrite <- A2. clear - Hm H1 A1. revert s1 A1 H1.
      induction rest as [|e rest IH]; intros s1 A1 H1; cbn [Pipeline.run] in H1; [injection H1 as <-; reflexivity|].
      apply Forall_cons_iff in Hm. destruct Hm as [He Hm].
      destruct (step e s1) as [| |s2] eqn:E; try discriminate H1.
      assert (B : s_client s2 = s_client s1 /\ s_limits s2 = s_limits s1).
      { destruct He as [He|He]; [destruct (threads_same e s1 s2 He E) as [B1 [_ B2]]; split; assumption|].
        destruct e; try contradiction; cbn [Pipeline.step] in E; [rewrite A1 in E; discriminate E| |];
          injection E as <-; split; reflexivity. }
      destruct B as [B1 B2]. rewrite <- B2. apply IH; try assumption. congruence.
  Qed.
End Results.
