(** No thread of the pipeline of Model/Pipeline.v panics or waits forever. *)
From Coq Require Import ZArith List Bool String Permutation Sorted Lia.
From Verif Require Import Model.Pipeline Spec.PipelineSpec Proofs.PipelineMaps Proofs.PipelineInvariant
  Proofs.PipelineSteps Proofs.PipelineIds Proofs.PipelineRuns Proofs.PipelineMemory Proofs.PipelineTokens.
Import ListNotations.
Open Scope Z_scope.

Section Progress.
  Variable hash : string -> Z.
  Variable capacity : nat.
  Variable sort : list point -> list point.
  Variable logging : bool.
  Hypothesis Hsort : sorts_points sort.

  Notation step := (step hash capacity sort logging).
  Notation run := (run hash capacity sort logging).
  Notation start := (start logging).
  Notation along := (along hash capacity sort logging).
  Notation wf := (wf hash).
  Notation inv := (inv hash logging).
  Notation slack := (slack capacity).

  (** The ingestion thread only waits for memory that will be returned. *)
  Definition waits (s : state) : Prop :=
    match s_ingestion s with
    | Points _ _ true =>
        s_uncompressed s <> [] \/ exists n m tags points ids, s_compressor s = Busy n m tags points ids
    | _ => True
    end.

  Definition filled (s : state) : Prop :=
    (forall b, In (Data (InMemory b)) (s_uncompressed s) -> m_points b <> [])
    /\ forall n m tags points ids, s_compressor s = Busy n m tags points ids ->
         0 <= n <= memory_size capacity m /\ points <> [].

  (** The writer waits while the limit of compressed memory is changed. *)
  Definition paused (s : state) : Prop :=
    match s_client s with Freeing _ | Saving _ _ _ => s_writer s = Waiting | _ => True end.

  Definition limits_ok (s : state) : Prop :=
    0 <= ingested (s_limits s) /\ 0 <= uncompressed (s_limits s) /\ 0 <= compressed (s_limits s)
    /\ 0 <= uncompressed (s_limits s) + uncompressed_change (s_client s)
    /\ 0 <= compressed (s_limits s) + compressed_change (s_client s).

  (** What remains is not negative but for the change of a limit that is not complete. *)
  Definition pools_ok (s : state) : Prop :=
    0 <= uncompressed (s_pool s) - uncompressed_change (s_client s)
    /\ 0 <= compressed (s_pool s) - compressed_change (s_client s).

  Record sound (s : state) : Prop := {
    sd_inv : inv s;
    sd_tokens : tokens s;
    sd_waits : waits s;
    sd_filled : filled s;
    sd_paused : paused s;
    sd_limits : limits_ok s;
    sd_slack : 0 <= slack s;
    sd_excess : 0 <= excess s;
    sd_segments : segments_ok nonnegative s;
    sd_ingested : ingested_ok s;
    sd_pools : pools_ok s }.

  Ltac cases H :=
    unfold take_buffer in H;
    repeat match type of H with
      | context [match pop_buffer ?x with _ => _ end] => unfold pop_buffer in H
      | context [match ?x with _ => _ end] =>
          match x with
          | context [match _ with _ => _ end] => fail 1
          | _ => destruct x eqn:?
          end
      end;
    try discriminate H; try (injection H as <-).

  Lemma busy_exists (s : state) n m tags points ids :
    s_compressor s = Busy n m tags points ids ->
    exists n m tags points ids, s_compressor s = Busy n m tags points ids.
  Proof. intros E. exists n, m, tags, points, ids. exact E. Qed.

  Lemma waits_step e s s' : tokens s -> wf s -> waits s -> step e s = Next s' -> waits s'.
  Proof.
    intros Ht Hw Hok H. unfold waits in *. destruct e; cbn [Pipeline.step] in H.
    12:{ destruct (s_ingestion s) as [|b l w| | |] eqn:Ei; try discriminate H. destruct l as [|r l]; [discriminate H|].
      destruct w; [discriminate H|]. unfold insert_data_point in H. cbv zeta in H.
      destruct (get Z.eqb _ (s_memory s)) as [buffer|].
      { injection H as <-. unfold inserted. fields. destruct (is_full _ _); exact I. }
      destruct (Pipeline.reserve _ _ _ _ _) as [[s1 ok]|] eqn:Er.
      - destruct ok; [|injection H as <-; exact I].
        destruct (get Z.eqb _ (s_disk s1)) as [d|].
        + destruct (get path_eqb _ _); injection H as <-; unfold inserted; fields; [|exact I].
          destruct (is_full _ _); exact I.
        + injection H as <-. unfold inserted. fields. exact I.
      - injection H as <-. fields. left. unfold Pipeline.reserve in Er.
        destruct (_ <=? _); [discriminate Er|]. destruct (s_uncompressed s); [|discriminate].
        destruct (take_buffer s) as [[? ?]|]; [|discriminate Er]. destruct spilled; discriminate Er. }
    14:{ destruct (s_compressor s) eqn:Ek; try discriminate H.
      destruct (s_uncompressed s) as [|m rest] eqn:Eu; [discriminate H|].
      assert (Hn : forall stop, m = token stop -> match s_ingestion s with Points _ _ true => False | _ => True end).
      { intros stop ->.
        assert (Hd : Forall is_data (s_uncompressed s) -> False).
        { intros Q. rewrite Eu in Q. apply Forall_cons_iff in Q. destruct Q as [Q _]. destruct stop; exact Q. }
        apply calm_or in Ht. destruct Ht as [Ht|[[stop' [Ht Hcl]]|[Ht _]]].
        - exfalso. apply Hd. apply Ht.
        - destruct Ht as [P Q|P Q R|P Q R|P Q R|P Q].
          + exfalso. apply Hd. apply Q.
          + destruct P as [_ [P _]]. rewrite P. destruct stop'; exact I.
          + exfalso. destruct P as [_ [P _]]. congruence.
          + exfalso. destruct P as [[_ [P _]] _]. congruence.
          + exfalso. destruct P as [[[_ [P _]] _] _]. congruence.
        - exfalso. destruct Ht as [[[_ [P _]] _] _]. congruence. }
      destruct m as [[b|d]| |].
      - injection H as <-. fields. destruct (s_ingestion s) as [| b' l [|] | | |]; try exact I.
        right. eexists _, _, _, _, _. reflexivity.
      - destruct (wf_refs _ _ Hw d) as [f [p [ps [Ef _]]]].
        { unfold refs. rewrite Eu. cbn [flat_map message_refs]. apply in_app_iff. right. left. reflexivity. }
        rewrite Ef in H. injection H as <-. fields. destruct (s_ingestion s) as [| b' l [|] | | |]; try exact I.
        right. eexists _, _, _, _, _. reflexivity.
      - injection H as <-. fields. specialize (Hn false eq_refl).
        destruct (s_ingestion s) as [| b' l [|] | | |]; try exact I; contradiction.
      - injection H as <-. fields. specialize (Hn true eq_refl).
        destruct (s_ingestion s) as [| b' l [|] | | |]; try exact I; contradiction. }
    all: cases H; unfold save, Pipeline.spill, finish_all, finish_buffers in *; fields; try exact Hok; try exact I;
      try (destruct (s_ingestion s); cbn [wake]; exact I).
    all: try (rewrite Heqi in *; exact I).
    all: destruct (s_ingestion s) as [| b' l' [|] | | |]; try exact I; try discriminate.
  Qed.

  Lemma filled_step e s s' : wf s -> filled s -> step e s = Next s' -> filled s'.
  Proof.
    intros Hw Hok H.
    destruct e.
    12:{ pose proof (point_same hash capacity sort logging _ _ _ (ex_intro _ spilled eq_refl) H)
        as [E1 [E2 [E3 [E4 [E5 [E6 [E7 [E8 [E9 [E10 E11]]]]]]]]]]. unfold filled. rewrite E9, E10. exact Hok. }
    all: cbn [Pipeline.step] in H.
    14:{ destruct Hok as [H1 H2].
      destruct (s_compressor s) eqn:Ek; try discriminate H.
      destruct (s_uncompressed s) as [|m rest] eqn:Eu; [discriminate H|].
      destruct m as [[b|d]| |].
      - injection H as <-. split; fields.
        + intros b' Hb. apply H1. right. exact Hb.
        + intros n m tags points ids E. injection E as <- <- <- <- <-.
          pose proof (memory_size_nonneg capacity (m_meta b)). split; [lia|].
          intros C. destruct (Hsort (m_points b)) as [P _]. rewrite C in P. apply Permutation_nil in P.
          apply (H1 b); [left; reflexivity|exact P].
      - destruct (wf_refs _ _ Hw d) as [f [p [ps [Ef [Ep _]]]]].
        { unfold refs. rewrite Eu. cbn [flat_map message_refs]. apply in_app_iff. right. left. reflexivity. }
        rewrite Ef in H. injection H as <-. split; fields.
        + intros b' Hb. apply H1. right. exact Hb.
        + intros n m tags points ids E. injection E as <- <- <- <- <-.
          pose proof (memory_size_nonneg capacity (d_meta d)). split; [lia|]. rewrite Ep. discriminate.
      - injection H as <-. split; fields; [|rewrite Ek; discriminate]. intros b' Hb. apply H1. right. exact Hb.
      - injection H as <-. split; fields; [|discriminate]. intros b' Hb. apply H1. right. exact Hb. }
    all: assert (Hfin : forall f g l, In l (map (fun e : Z * memory_buffer => Data (InMemory (snd e)))
            (filter (fun e => f (m_updated (snd e))) (s_memory s))
          ++ map (fun e : Z * disk_buffer => Data (OnDisk (snd e))) (filter (fun e => g (d_updated (snd e))) (s_disk s))) ->
        forall b, l = Data (InMemory b) -> m_points b <> []) by
      (intros f g l Hl b ->; apply in_app_iff in Hl; destruct Hl as [Hl|Hl];
       [apply in_map_iff in Hl; destruct Hl as [[h b'] [E Hl]]; cbn [snd] in E; injection E as ->;
        apply filter_In in Hl; destruct Hl as [Hl _]; apply (wf_memory _ _ Hw) in Hl; apply Hl
       |apply in_map_iff in Hl; destruct Hl as [[h b'] [E _]]; discriminate E]).
    all: cases H; unfold save, Pipeline.spill, finish_all, finish_buffers in *; unfold filled in *; fields; try exact Hok.
    all: destruct Hok as [H1 H2]; split; try exact H2; try discriminate; try exact H1.
    all: try (intros b' Hb; rewrite !in_app_iff in Hb;
      repeat match goal with Hb : _ \/ _ |- _ => destruct Hb as [Hb|Hb] end;
      try (apply H1; exact Hb); try contradiction; try discriminate).
    all: try (apply (Hfin (fun _ => true) (fun _ => true) (Data (InMemory b'))); [|reflexivity];
      apply in_app_iff; first [left; exact Hb|right; exact Hb]).
    all: try (apply (Hfin (fun u => is_unused u (s_index s)) (fun u => is_unused u (s_index s)) (Data (InMemory b')));
      [|reflexivity]; apply in_app_iff; first [left; exact Hb|right; exact Hb]).
    all: try (destruct Hb as [Hb|[]]; try discriminate Hb).
    all: try (injection Hb as <-;
      match goal with E : get Z.eqb _ (s_memory _) = Some _ |- _ =>
        apply (get_in Z.eqb Z.eqb_eq) in E; apply (wf_memory _ _ Hw) in E; apply E end).
    all: try (intros b' []; fail).
  Qed.

  Lemma paused_step e s s' : undisturbed e s -> paused s -> step e s = Next s' -> paused s'.
  Proof.
    intros [_ [Hu1 Hu2]] Hok H. unfold paused in *. destruct e.
    12:{ pose proof (point_same hash capacity sort logging _ _ _ (ex_intro _ spilled eq_refl) H)
        as [E1 [E2 _]]. rewrite E1, E2. exact Hok. }
    all: cbn [Pipeline.step by_writer] in *.
    all: cases H; unfold save, Pipeline.spill, finish_all, finish_buffers in *; fields; try exact Hok; try exact I;
      try exact Hu2; try (rewrite Heqc in *; exact Hok).
    all: destruct (s_client s); try exact I; try contradiction (Hu1 I).
  Qed.

  Lemma limits_step e s s' : limits_ok s -> step e s = Next s' -> limits_ok s'.
  Proof.
    intros Hok H. unfold limits_ok in *. destruct e.
    12:{ pose proof (point_same hash capacity sort logging _ _ _ (ex_intro _ spilled eq_refl) H)
        as [E1 [E2 [E3 [E4 [E5 _]]]]]. rewrite E1, E5. exact Hok. }
    all: cbn [Pipeline.step] in H.
    all: cases H; unfold save, Pipeline.spill, finish_all, finish_buffers in *; fields; try exact Hok;
      repeat match goal with E : s_client _ = _ |- _ => rewrite E in *; clear E end;
      cbn [uncompressed_change compressed_change add_ingested add_uncompressed add_compressed
        ingested uncompressed compressed] in *;
      rewrite ?Z.leb_le in *; try lia.
    unfold Pipeline.start. fields. cbn [uncompressed_change compressed_change]. lia.
  Qed.

  Lemma buffer_nonneg b : buffer_ok nonnegative b -> 0 <= c_size b.
  Proof.
    intros [E H]. rewrite E. apply sum_nonneg. intros g Hg. rewrite Forall_forall in H. specialize (H g Hg).
    pose proof (credited_total (g_sizes g) 0 ltac:(lia) H).
    assert (0 <= total (g_sizes g)); [|lia]. unfold nonnegative in H. clear - H.
    induction H as [|a l Ha H IH]; cbn [total fold_right]; [lia|]. unfold total in IH. lia.
  Qed.

  Lemma pools_step e s s' :
    undisturbed e s -> spills_written e -> filled s -> segments_ok nonnegative s -> pools_ok s ->
    step e s = Next s' -> limits_ok s' -> pools_ok s'.
  Proof.
    intros [Hu1 [Hu2 Hu3]] Hsw [_ Hf] [_ _ Hg1 Hg2] Hok H Hl'. unfold pools_ok in *. destruct e.
    12:{ pose proof (point_same hash capacity sort logging _ _ _ (ex_intro _ spilled eq_refl) H)
        as [E1 [E2 [E3 [E4 [E5 [E6 _]]]]]]. rewrite E1, E6. split; [|apply Hok].
      cbn [Pipeline.step] in H. specialize (Hu1 I).
      assert (Hch : uncompressed_change (s_client s) = 0) by (destruct (s_client s); try contradiction; reflexivity).
      rewrite Hch in *. destruct (s_ingestion s) as [|b l w| | |]; try discriminate H.
      destruct l as [|r l]; [discriminate H|]. destruct w; [discriminate H|]. unfold insert_data_point in H.
      cbv zeta in H. destruct (get Z.eqb _ (s_memory s)) as [buffer|]; [injection H as <-; unfold inserted; fields; lia|].
      destruct (Pipeline.reserve _ _ _ _ _) as [[s1 ok]|] eqn:Er; [|injection H as <-; fields; lia].
      assert (Hs1 : 0 <= uncompressed (s_pool s1)).
      { unfold Pipeline.reserve, take_buffer, Pipeline.spill, spill_failed in Er.
        destruct (memory_size capacity (b_meta b) <=? uncompressed (s_pool s)) eqn:E.
        { apply Z.leb_le in E. injection Er as <- _. fields. cbn [add_uncompressed uncompressed]. lia. }
        destruct (s_uncompressed s); [|discriminate Er].
        destruct (s_memory s) as [|[h c] m]; [injection Er as <- _; lia|].
        destruct spilled; injection Er as <- _; fields; cbn [add_uncompressed uncompressed]; [|lia].
        pose proof (memory_size_nonneg capacity (m_meta c)). lia. }
      repeat match type of H with
        | context [match ?x with _ => _ end] =>
            match x with
            | context [match _ with _ => _ end] => fail 1
            | _ => destruct x
            end
        end; injection H as <-; unfold inserted; fields; lia. }
    18:{ cbn [Pipeline.step] in H. destruct (s_writer s) as [| |table b t| |] eqn:Ew; try discriminate H.
      pose proof (buffer_nonneg b (Hg2 _ _ _ eq_refl)).
      destruct written; [injection H as <-; unfold save; fields; cbn [add_compressed uncompressed compressed]; lia|].
      destruct t; injection H as <-; fields; lia. }
    9:{ cbn [Pipeline.step] in H. destruct (s_client s) as [| | | | |change|change b|change|change table b|] eqn:Ec; try discriminate H;
        cbn [uncompressed_change compressed_change] in *.
      - unfold take_buffer in H. destruct (uncompressed (s_pool s) <? 0) eqn:E.
        + destruct (s_memory s) as [|[h b] l]; injection H as <-; fields;
            cbn [uncompressed_change compressed_change add_uncompressed uncompressed compressed]; lia.
        + apply Z.ltb_ge in E. injection H as <-. fields. cbn [uncompressed_change compressed_change]. lia.
      - injection H as <-. unfold Pipeline.spill. fields.
        cbn [uncompressed_change compressed_change add_uncompressed uncompressed compressed].
        pose proof (memory_size_nonneg capacity (m_meta b)). lia.
      - destruct (compressed (s_pool s) <? 0) eqn:E.
        + destruct (pop_buffer s) as [[[t b] s1]|] eqn:Ep; [|discriminate H]. injection H as <-.
          apply pop_fields in Ep. destruct Ep as [-> _]. fields. cbn [uncompressed_change compressed_change]. lia.
        + apply Z.ltb_ge in E. injection H as <-. fields. cbn [uncompressed_change compressed_change]. lia.
      - injection H as <-. unfold save. fields.
        cbn [uncompressed_change compressed_change add_compressed uncompressed compressed].
        pose proof (buffer_nonneg b (Hg1 _ _ _ eq_refl)). lia. }
    16:{ cbn [Pipeline.step] in H. specialize (Hu2 I).
      assert (Hch : compressed_change (s_client s) = 0) by (destruct (s_client s); try contradiction; reflexivity).
      destruct (s_writer s) as [|t| | |] eqn:Ew; try discriminate H. destruct t as [size| |].
      - destruct (size <=? compressed (s_pool s)) eqn:E.
        + apply Z.leb_le in E. injection H as <-. fields. cbn [add_compressed uncompressed compressed]. lia.
        + destruct (pop_buffer s) as [[[t b] s1]|] eqn:Ep; [|discriminate H]. injection H as <-.
          apply pop_fields in Ep. destruct Ep as [-> _]. fields. lia.
      - destruct (s_queue s); [injection H as <-; fields; lia|].
        destruct (pop_buffer s) as [[[t b] s1]|] eqn:Ep; [|discriminate H]. injection H as <-.
        apply pop_fields in Ep. destruct Ep as [-> _]. fields. lia.
      - destruct (s_queue s); [injection H as <-; fields; lia|].
        destruct (pop_buffer s) as [[[t b] s1]|] eqn:Ep; [|discriminate H]. injection H as <-.
        apply pop_fields in Ep. destruct Ep as [-> _]. fields. lia. }
    all: cbn [Pipeline.step] in H.
    14:{ destruct (s_compressor s) as [|n m tags points ids| |] eqn:Ek; try discriminate H.
      destruct (_ && _); [|discriminate H]. injection H as <-. fields.
      cbn [add_uncompressed uncompressed compressed]. specialize (Hf _ _ _ _ _ eq_refl). lia. }
    all: cases H; unfold finish_all, finish_buffers in *; fields; try exact Hok;
      repeat match goal with E : s_client _ = _ |- _ => rewrite E in *; clear E end;
      cbn [uncompressed_change compressed_change add_ingested add_uncompressed add_compressed
        ingested uncompressed compressed] in *; try lia.
    unfold limits_ok, Pipeline.start in *. fields. cbn [uncompressed_change compressed_change] in *. lia.
  Qed.

  Lemma segments_sent e : sent nonnegative e.
  Proof. destruct e; try exact I. intros H g E. unfold nonnegative. rewrite E. exact H. Qed.

  Lemma sound_step e s s' :
    sound s -> collision_free hash (received s') -> distinct_times (received s') -> usual e s ->
    step e s = Next s' -> sound s'.
  Proof.
    intros [Hinv Ht Hwt Hf Hp Hl Hs He Hg Hi Hpl] Hc Hd [Hu [Hsw Hcw]] H.
    pose proof (inv_wf _ _ _ Hinv) as Hw.
    assert (Hc0 : collision_free hash (received s) /\ distinct_times (received s)).
    { destruct (step_log_ok _ _ _ _ e s s' H (inv_log _ _ _ Hinv)) as [El _]. apply received_prefix in El.
      destruct El as [new El]. rewrite El in Hc, Hd. split; [apply (collision_free_app _ _ _ Hc)|apply (distinct_times_app _ _ Hd)]. }
    destruct Hc0 as [Hc0 Hd0].
    constructor.
    - apply (step_inv hash capacity sort logging Hsort e s); try assumption. split; assumption.
    - apply (tokens_step hash capacity sort logging e s); assumption.
    - apply (waits_step e s); assumption.
    - apply (filled_step e s); assumption.
    - apply (paused_step e s); assumption.
    - apply (limits_step e s); assumption.
    - destruct (uncompressed_step hash capacity sort logging Hsort e s s' Hinv Hc0 Hd0 (conj Hu Hsw) H) as [[_ E]|[E _]]; lia.
    - destruct (compressed_step hash capacity sort logging e s s' Hw Hg Hu Hcw H) as [[_ E]|[E _]]; lia.
    - apply (segments_step hash capacity sort logging nonnegative e s); try assumption. apply segments_sent.
    - apply (ingested_step hash capacity sort logging e s); assumption.
    - apply (pools_step e s); try assumption. apply (limits_step e s); assumption.
  Qed.

  Lemma sound_start limits : nonneg_limits limits -> sound (start limits [] []).
  Proof.
    intros [H1 [H2 H3]]. constructor.
    - apply start_inv.
    - unfold tokens, Pipeline.start, calm, ahead1, ahead2, ahead3. fields. repeat split; try discriminate; constructor.
    - exact I.
    - split; unfold Pipeline.start; fields; [contradiction|discriminate].
    - exact I.
    - unfold limits_ok, Pipeline.start. fields. cbn [uncompressed_change compressed_change]. lia.
    - unfold PipelineMemory.slack, used_uncompressed, Pipeline.start. fields. cbn [total_of fold_right uncompressed_change]. lia.
    - unfold excess, credit, Pipeline.start. fields. cbn [sum compressed_change being_reserved]. lia.
    - constructor; unfold Pipeline.start; fields; try (intros; contradiction); intros; discriminate.
    - unfold ingested_ok, used_ingested, Pipeline.start. fields. cbn [total_of fold_right]. lia.
    - unfold pools_ok, Pipeline.start. fields. cbn [uncompressed_change compressed_change]. lia.
  Qed.

  Lemma sound_run events : forall s s',
    sound s -> run events s = Next s' -> along usual events s ->
    collision_free hash (received s') -> distinct_times (received s') -> sound s'.
  Proof.
    induction events as [|e events IH]; intros s s' Hok H Ha Hc Ht; cbn [Pipeline.run] in H.
    - injection H as <-. exact Hok.
    - cbn [PipelineSpec.along] in Ha. destruct Ha as [Hg Ha].
      destruct (step e s) as [| |s1] eqn:E; try discriminate H.
      destruct (step_log_ok _ _ _ _ e s s1 E (inv_log _ _ s (sd_inv s Hok))) as [_ Hl1].
      destruct (run_received _ _ _ _ events s1 s' H Hl1) as [Hp _]. apply received_prefix in Hp.
      destruct Hp as [new Hp]. apply (IH s1 s'); try assumption.
      rewrite Hp in Hc, Ht. apply (sound_step e s s1); try assumption.
      + apply collision_free_app in Hc. exact Hc.
      + apply distinct_times_app in Ht. exact Ht.
  Qed.

  (** * Panics *)

  Lemma no_abort e s : sound s -> usual e s -> step e s <> Aborted.
  Proof.
    intros [Hinv Ht Hwt Hf Hp Hl Hs He Hg Hi _] [Hu [Hsw Hcw]] H. pose proof (inv_wf _ _ _ Hinv) as Hw.
    assert (Hpop : s_queue s <> [] -> pop_buffer s <> None).
    { intros Hq C. destruct (pop_some hash s Hw Hq) as [t [b [s1 E]]]. congruence. }
    assert (Hempty : s_queue s = [] -> s_buffers s = []).
    { intros Hq. pose proof (wf_buffers _ _ Hw) as Hb. rewrite Hq in Hb.
      destruct (s_buffers s); [reflexivity|discriminate Hb]. }
    unfold limits_ok in Hl. unfold excess, credit in He.
    destruct e; cbn [Pipeline.step] in H.
    12:{ destruct (s_ingestion s) as [|b l w| | |]; try discriminate H. destruct l; [discriminate H|].
      destruct w; [discriminate H|]. unfold insert_data_point in H. cbv zeta in H.
      repeat match type of H with
        | context [match ?x with _ => _ end] =>
            match x with
            | context [match _ with _ => _ end] => fail 1
            | _ => destruct x
            end
        end; discriminate H. }
    - destruct (s_client s); try discriminate H. destruct (0 <=? size); discriminate H.
    - destruct (s_client s); try discriminate H. destruct (_ <=? _); discriminate H.
    - destruct (s_client s); discriminate H.
    - destruct (s_client s); discriminate H.
    - destruct (s_client s); try discriminate H; destruct (s_results s); try discriminate H.
      destruct (is_finished s); discriminate H.
    - destruct (s_client s); try discriminate H. destruct (0 <=? _); discriminate H.
    - destruct (s_client s); try discriminate H. destruct (0 <=? _); discriminate H.
    - destruct (s_client s); try discriminate H. destruct (0 <=? _); discriminate H.
    - destruct (s_client s) eqn:Ec; try discriminate H.
      + destruct (_ <? 0); [|discriminate H]. destruct (take_buffer s) as [[? ?]|]; discriminate H.
      + destruct (compressed (s_pool s) <? 0) eqn:E; [|discriminate H]. apply Z.ltb_lt in E.
        destruct (pop_buffer s) as [[[t b] s1]|] eqn:Epop; [discriminate H|].
        apply Hpop; [|reflexivity]. intros Hq. unfold paused in Hp. rewrite Ec in Hp.
        rewrite (Hempty Hq), Hp in He. cbn [sum compressed_change being_reserved] in *. lia.
    - destruct (s_client s) as [| | | | | | | | |l]; try discriminate H. destruct l; [discriminate H|].
      destruct (_ <=? _); discriminate H.
    - destruct (s_ingestion s); try discriminate H. destruct (s_ingested s) as [|[| |] l]; discriminate H.
    - destruct (s_ingestion s) as [| |h b rest| |] eqn:Ei; try discriminate H.
      destruct (get Z.eqb h (s_memory s)) eqn:E; [discriminate H|].
      apply (get_none Z.eqb Z.eqb_eq) in E. apply E. apply (wf_full _ _ Hw h b rest Ei).
    - destruct (s_ingestion s) as [|b l w| | |]; try discriminate H. destruct l; discriminate H.
    - destruct (s_compressor s); try discriminate H. destruct (s_uncompressed s) as [|[[b|d]| |] l]; try discriminate H.
      destruct (get path_eqb _ _); discriminate H.
    - destruct (s_compressor s); try discriminate H. destruct (_ && _); discriminate H.
    - destruct (s_writer s); try discriminate H. destruct (s_compressed s) as [|[g| |] l]; try discriminate H.
      cbv zeta in H. fields. destruct (get String.eqb _ _); discriminate H.
    - destruct Hu as [_ [Hu _]]. specialize (Hu I).
      destruct (s_writer s) as [|t| | |] eqn:Ew; try discriminate H. destruct t as [size| |].
      + destruct (size <=? compressed (s_pool s)) eqn:E; [discriminate H|]. apply Z.leb_gt in E.
        destruct (pop_buffer s) as [[[t b] s1]|] eqn:Epop; [discriminate H|].
        apply Hpop; [|reflexivity]. intros Hq. rewrite (Hempty Hq) in He.
        cbn [sum being_reserved] in He. destruct (s_client s); try contradiction; cbn [compressed_change] in *; lia.
      + destruct (s_queue s) eqn:Eq; [discriminate H|].
        destruct (pop_buffer s) as [[[t' b] s1]|] eqn:Epop; [discriminate H|]. apply Hpop; [discriminate|reflexivity].
      + destruct (s_queue s) eqn:Eq; [discriminate H|].
        destruct (pop_buffer s) as [[[t' b] s1]|] eqn:Epop; [discriminate H|]. apply Hpop; [discriminate|reflexivity].
    - destruct (s_writer s); try discriminate H. destruct written; [discriminate H|]. destruct t; discriminate H.
    - discriminate H.
    - discriminate H.
    - discriminate H.
  Qed.

  (** * Threads that end *)

  Lemma failed_point e s s' :
    sound s -> usual e s -> collision_free hash (received s) -> distinct_times (received s) ->
    room capacity (received s) (uncompressed (s_limits s)) ->
    (exists w, e = Point w) -> step e s = Next s' -> s_ingestion s' <> Failed.
  Proof.
    intros [Hinv _ _ Hf _ Hl Hs _ _ _ _] [Hu [Hsw _]] Hc Hd Hroom [w ->] H.
    pose proof (inv_wf _ _ _ Hinv) as Hw. pose proof (inv_below _ _ _ Hinv) as Hb.
    destruct w; [|contradiction Hsw; reflexivity].
    cbn [Pipeline.step] in H. destruct (s_ingestion s) as [|b l w| | |] eqn:Ei; try discriminate H.
    destruct l as [|r l]; [discriminate H|]. destruct w; [discriminate H|].
    unfold insert_data_point in H. cbv zeta in H.
    destruct (get Z.eqb _ (s_memory s)) as [buffer|].
    { injection H as <-. unfold inserted. fields. destruct (is_full _ _); discriminate. }
    destruct (Pipeline.reserve _ _ _ _ _) as [[s1 ok]|] eqn:Er; [|injection H as <-; discriminate].
    destruct (reserve_ok hash capacity sort Hsort s (b_meta b) s1 ok b (r :: l) Hw Hb Hc Hd Ei Er)
      as [Hw1 [Ha1 [Hcl [Hi1 [Hl1 Hm1]]]]].
    destruct ok.
    - destruct (get Z.eqb _ (s_disk s1)) as [d|] eqn:Ed.
      + destruct (get path_eqb _ _) eqn:Ef.
        * injection H as <-. unfold inserted. fields. destruct (is_full _ _); discriminate.
        * exfalso. apply (get_in Z.eqb Z.eqb_eq) in Ed.
          destruct (wf_refs _ _ Hw1 d) as [f [p [ps [Hf' _]]]]; [|congruence].
          apply in_refs_disk. apply in_map_iff. eexists. split; [|exact Ed]. reflexivity.
      + injection H as <-. unfold inserted. fields. discriminate.
    - exfalso. unfold Pipeline.reserve in Er.
      destruct (memory_size capacity (b_meta b) <=? uncompressed (s_pool s)) eqn:E; [discriminate Er|].
      apply Z.leb_gt in E. destruct (s_uncompressed s) eqn:Eu; [|discriminate Er]. unfold take_buffer in Er.
      destruct (s_memory s) as [|[k c] ms] eqn:Em; [|discriminate Er].
      assert (Hx : In (row_item b r) (received s)) by (apply live_received; [exact Hb|apply (row_live s b r l false Ei)]).
      pose proof (Hroom _ _ Hx Hx) as H1.
      change (i_meta (row_item b r)) with (b_meta b) in H1.
      pose proof (memory_size_nonneg capacity (b_meta b)).
      destruct Hu as [Hu _]. specialize (Hu I).
      unfold PipelineMemory.slack, used_uncompressed in Hs. rewrite Eu, Em in Hs.
      cbn [total_of fold_right] in Hs.
      assert (Hch : uncompressed_change (s_client s) = 0
        /\ match s_client s with Spilling _ b => memory_size capacity (m_meta b) | _ => 0 end = 0).
      { destruct (s_client s); try contradiction; split; reflexivity. }
      destruct Hch as [Hch1 Hch2]. rewrite Hch1, Hch2 in Hs.
      destruct (s_compressor s) as [|n m tags points ids| |] eqn:Ek; try lia.
      destruct Hf as [_ Hf]. destruct (Hf n m tags points ids Ek) as [Hn Hp].
      destruct points as [|p points]; [contradiction Hp; reflexivity|].
      assert (Hy : In {| i_meta := m; i_tags := tags; i_point := p |} (received s)).
      { apply live_received; [exact Hb|]. unfold live. rewrite Ek. cbn [held_by_compressor items map].
        rewrite !in_app_iff. do 6 right. left. left. reflexivity. }
      pose proof (Hroom _ _ Hx Hy) as H2. change (i_meta (row_item b r)) with (b_meta b) in H2.
      cbn [i_meta] in H2. lia.
  Qed.

  Lemma healthy_step e s s' :
    sound s -> usual e s -> collision_free hash (received s) -> distinct_times (received s) ->
    room capacity (received s) (uncompressed (s_limits s)) ->
    healthy s -> step e s = Next s' -> healthy s'.
  Proof.
    intros Hok Hus Hc Hd Hroom Hh H.
    pose proof (failed_point e s s' Hok Hus Hc Hd Hroom) as Hfp.
    destruct Hok as [Hinv _ _ _ _ _ _ _ _ _ _]. destruct Hus as [_ [_ Hcw]].
    pose proof (inv_wf _ _ _ Hinv) as Hw. destruct Hh as [H1 [H2 H3]]. unfold healthy.
    destruct e.
    12:{ specialize (Hfp (ex_intro _ spilled eq_refl) H).
      pose proof (point_same hash capacity sort logging _ _ _ (ex_intro _ spilled eq_refl) H)
        as [E1 [E2 [E3 [E4 [E5 [E6 [E7 [E8 [E9 [E10 E11]]]]]]]]]]. rewrite E2, E10. tauto. }
    all: clear Hfp; cbn [Pipeline.step] in H.
    14:{ destruct (s_compressor s) eqn:Ek; try discriminate H.
      destruct (s_uncompressed s) as [|[[b|d]| |] rest] eqn:Eu; try discriminate H;
        try (injection H as <-; fields; rewrite ?Ek; repeat split; try assumption; discriminate).
      destruct (wf_refs _ _ Hw d) as [f [p [ps [Ef _]]]].
      { unfold refs. rewrite Eu. cbn [flat_map message_refs]. apply in_app_iff. right. left. reflexivity. }
      rewrite Ef in H. injection H as <-. fields. repeat split; try assumption; discriminate. }
    17:{ destruct (s_writer s) as [| |table b t| |] eqn:Ew; try discriminate H.
      destruct written; [|contradiction Hcw; reflexivity]. injection H as <-. unfold save. fields.
      repeat split; try assumption; discriminate. }
    all: cases H; unfold save, Pipeline.spill, finish_all, finish_buffers, Pipeline.start in *; fields;
      (split; [|split]); try assumption; try discriminate; try congruence.
    all: destruct (s_ingestion s); cbn [wake]; try discriminate; try exact H1.
  Qed.

  (** * Work left *)

  Definition message_work {A : Type} (f : A -> Z) (t : Z) (m : message A) : Z :=
    match m with Data a => f a | _ => t end.
  Definition len {A : Type} (l : list A) : Z := Z.of_nat (List.length l).
  Definition ingestion_work (i : ingestion) : Z :=
    match i with
    | Points _ rest waiting => 10 * len rest + 1 + (if waiting then 0 else 1)
    | Full _ _ rest => 10 * len rest + 3
    | _ => 0
    end.
  Definition work (s : state) : Z :=
    sum (message_work (fun b => 10 * len (b_rows b) + 3) 4) (s_ingested s)
    + ingestion_work (s_ingestion s)
    + 7 * len (s_memory s) + 7 * len (s_disk s)
    + sum (message_work (fun _ => 7) 3) (s_uncompressed s)
    + match s_compressor s with Busy _ _ _ _ _ => 6 | _ => 0 end
    + sum (message_work (fun _ => 4) 2) (s_compressed s)
    + 2 * len (s_queue s)
    + match s_writer s with Working _ => 1 | Committing _ _ _ => 2 | _ => 0 end.

  Lemma work_nonneg s : 0 <= work s.
  Proof.
    assert (Hlen : forall A (l : list A), 0 <= len l) by (intros; unfold len; lia).
    pose proof (Hlen _ (s_memory s)) as L1. pose proof (Hlen _ (s_disk s)) as L2.
    pose proof (Hlen _ (s_queue s)) as L3.
    unfold work.
    pose proof (sum_nonneg (message_work (fun b => 10 * len (b_rows b) + 3) 4) (s_ingested s)) as H1.
    pose proof (sum_nonneg (message_work (fun _ : uncompressed_buffer => 7) 3) (s_uncompressed s)) as H2.
    pose proof (sum_nonneg (message_work (fun _ : segments => 4) 2) (s_compressed s)) as H3.
    assert (0 <= ingestion_work (s_ingestion s)).
    { unfold ingestion_work, len. destruct (s_ingestion s) as [|b l [|]|h b l| |]; lia. }
    assert (0 <= sum (message_work (fun b => 10 * len (b_rows b) + 3) 4) (s_ingested s)).
    { apply H1. intros [b| |] _; unfold message_work, len; lia. }
    assert (0 <= sum (message_work (fun _ : uncompressed_buffer => 7) 3) (s_uncompressed s)).
    { apply H2. intros [b| |] _; unfold message_work; lia. }
    assert (0 <= sum (message_work (fun _ : segments => 4) 2) (s_compressed s)).
    { apply H3. intros [b| |] _; unfold message_work; lia. }
    destruct (s_compressor s), (s_writer s); lia.
  Qed.

  Lemma len_cons {A} (a : A) l : len (a :: l) = len l + 1.
  Proof. unfold len. cbn [List.length]. lia. Qed.
  Lemma len_app {A} (l k : list A) : len (l ++ k) = len l + len k.
  Proof. unfold len. rewrite app_length. lia. Qed.

  Lemma len_remove {K A} (eqb : K -> K -> bool) k (m : list (K * A)) : len (remove eqb k m) <= len m.
  Proof.
    unfold remove. induction m as [|[a v] m IH]; cbn [filter]; [lia|].
    destruct (negb _); rewrite ?len_cons; lia.
  Qed.

  Lemma len_remove_get {K A} (eqb : K -> K -> bool) (Heq : forall a b, eqb a b = true <-> a = b) k v (m : list (K * A)) :
    get eqb k m = Some v -> len (remove eqb k m) + 1 <= len m.
  Proof.
    induction m as [|[a w] m IH]; cbn [get]; [discriminate|]. intros H.
    change (remove eqb k ((a, w) :: m)) with
      (if negb (eqb k a) then (a, w) :: remove eqb k m else remove eqb k m).
    destruct (eqb k a) eqn:E; cbn [negb]; rewrite !len_cons.
    - pose proof (len_remove eqb k m). lia.
    - specialize (IH H). lia.
  Qed.

  Lemma len_put {K A} (eqb : K -> K -> bool) k (v : A) m : len (put eqb k v m) <= len m + 1.
  Proof.
    induction m as [|[a w] m IH]; cbn [put]; [rewrite !len_cons; lia|].
    destruct (eqb k a); rewrite !len_cons; lia.
  Qed.

  Lemma reserve_work w m s s1 ok :
    Pipeline.reserve capacity sort w m s = Some (s1, ok) ->
    len (s_memory s1) + len (s_disk s1) <= len (s_memory s) + len (s_disk s)
    /\ s_ingested s1 = s_ingested s /\ s_uncompressed s1 = s_uncompressed s /\ s_compressor s1 = s_compressor s
    /\ s_compressed s1 = s_compressed s /\ s_queue s1 = s_queue s /\ s_writer s1 = s_writer s.
  Proof.
    unfold Pipeline.reserve, take_buffer, Pipeline.spill, spill_failed. intros H.
    destruct (memory_size capacity m <=? uncompressed (s_pool s)).
    { injection H as <- _. fields. repeat split; lia. }
    destruct (s_uncompressed s) eqn:Eu; [|discriminate H].
    destruct (s_memory s) as [|[h b] l] eqn:Em; [injection H as <- _; rewrite Em; repeat split; try assumption; lia|].
    destruct w; injection H as <- _; fields; rewrite ?len_cons; repeat split; try assumption.
    - pose proof (len_put Z.eqb (m_hash b) (spilled sort b) (s_disk s)). lia.
    - match goal with |- len (put Z.eqb ?k ?v ?m) + _ <= _ => pose proof (len_put Z.eqb k v m) end. lia.
  Qed.

  Lemma sum_const {A} (f : A -> Z) c l : (forall a, f a = c) -> sum f l = c * len l.
  Proof.
    intros H. induction l as [|a l IH]; cbn [sum]; [unfold len; cbn [List.length]; lia|]. rewrite H, IH, len_cons. lia.
  Qed.

  Lemma len_filter {A} f (l : list A) : len (filter f l) + len (filter (fun a => negb (f a)) l) = len l.
  Proof.
    induction l as [|a l IH]; cbn [filter]; [reflexivity|]. destruct (f a); cbn [negb]; rewrite !len_cons; lia.
  Qed.

  Lemma finish_work f g s : work (finish_buffers f g s) = work s.
  Proof.
    unfold work, finish_buffers. fields. rewrite !sum_app, !sum_map. cbn [message_work].
    rewrite (sum_const (fun _ : Z * memory_buffer => 7) 7) by reflexivity.
    rewrite (sum_const (fun _ : Z * disk_buffer => 7) 7) by reflexivity.
    pose proof (len_filter (fun e => f (m_updated (snd e))) (s_memory s)) as H1.
    pose proof (len_filter (fun e => g (d_updated (snd e))) (s_disk s)) as H2. cbv beta in H1, H2. lia.
  Qed.

  Lemma next_eq x y : Next x = Next y -> x = y.
  Proof. intros E. injection E as E. exact E. Qed.

  Lemma work_step e s s' : by_threads e -> step e s = Next s' -> work s' < work s.
  Proof.
    intros He H. destruct e; unfold by_threads, by_ingestion, by_compressor, by_writer in He; try tauto; clear He;
      cbn [Pipeline.step] in H.
    - destruct (s_ingestion s) eqn:Ei; try discriminate H.
      destruct (s_ingested s) as [|[b| |] rest] eqn:Em; try discriminate H; apply next_eq in H; rewrite <- H; clear H.
      + unfold work. fields. rewrite Em, Ei. cbn [sum message_work ingestion_work]. lia.
      + assert (E : work s = work (finish_all (with_ingested rest s)) + 4).
        { unfold finish_all. rewrite finish_work. unfold work. fields. rewrite Em. cbn [sum message_work]. lia. }
        rewrite E. generalize (finish_all (with_ingested rest s)). intros s1. unfold work. fields.
        rewrite sum_app. cbn [sum message_work]. lia.
      + assert (E : work s = work (finish_all (with_ingested rest s)) + 4).
        { unfold finish_all. rewrite finish_work. unfold work. fields. rewrite Em. cbn [sum message_work]. lia. }
        assert (E2 : s_ingestion (finish_all (with_ingested rest s)) = Receiving) by (unfold finish_all, finish_buffers; fields; exact Ei).
        rewrite E. revert E2. generalize (finish_all (with_ingested rest s)). intros s1 E2. unfold work. fields.
        rewrite sum_app, E2. cbn [sum message_work ingestion_work]. lia.
    - destruct (s_ingestion s) as [|b l w| | |] eqn:Ei; try discriminate H. destruct l as [|r l]; [discriminate H|].
      destruct w; [discriminate H|]. unfold insert_data_point in H. cbv zeta in H.
      assert (Hi : forall h full buffer s1,
        len (s_memory s1) + len (s_disk s1) <= len (s_memory s) + len (s_disk s) ->
        s_ingested s1 = s_ingested s -> s_uncompressed s1 = s_uncompressed s -> s_compressor s1 = s_compressor s ->
        s_compressed s1 = s_compressed s -> s_queue s1 = s_queue s -> s_writer s1 = s_writer s ->
        work (inserted h full buffer b l s1) < work s).
      { intros h full buffer s1 E1 E2 E3 E4 E5 E6 E7. unfold work, inserted. fields.
        rewrite Ei, E2, E3, E4, E5, E6, E7. pose proof (len_put Z.eqb h buffer (s_memory s1)) as Hp.
        unfold ingestion_work. destruct full; rewrite !len_cons; lia. }
      destruct (get Z.eqb _ (s_memory s)) as [buffer|].
      { injection H as <-. apply Hi; try reflexivity. }
      destruct (Pipeline.reserve _ _ _ _ _) as [[s1 ok]|] eqn:Er.
      2:{ injection H as <-. unfold work. fields. rewrite Ei. cbn [ingestion_work]. lia. }
      apply reserve_work in Er. destruct Er as [E1 [E2 [E3 [E4 [E5 [E6 E7]]]]]].
      assert (Hfail : work (with_ingestion Failed s1) < work s).
      { unfold work. fields. rewrite Ei, E2, E3, E4, E5, E6, E7. cbn [ingestion_work]. rewrite len_cons.
        unfold len in *. lia. }
      destruct ok; [|injection H as <-; exact Hfail].
      destruct (get Z.eqb _ (s_disk s1)) as [d|] eqn:Ed.
      + destruct (get path_eqb _ _); injection H as <-; [|exact Hfail].
        apply Hi; fields; try assumption.
        pose proof (len_remove_get Z.eqb Z.eqb_eq _ _ _ Ed). lia.
      + injection H as <-. apply Hi; try assumption.
    - destruct (s_ingestion s) as [| |h b rest| |] eqn:Ei; try discriminate H.
      destruct (get Z.eqb h (s_memory s)) as [buffer|] eqn:E; [|discriminate H]. injection H as <-.
      pose proof (len_remove_get Z.eqb Z.eqb_eq _ _ _ E). unfold work. fields. rewrite Ei, sum_app.
      cbn [sum message_work ingestion_work]. lia.
    - destruct (s_ingestion s) as [|b l w| | |] eqn:Ei; try discriminate H. destruct l; [|discriminate H].
      apply next_eq in H. rewrite <- H. clear H.
      assert (E : work s = work (finish_buffers (fun u => is_unused u (s_index s)) (fun u => is_unused u (s_index s)) s))
        by (rewrite finish_work; reflexivity).
      rewrite E. unfold work, finish_buffers. fields. rewrite Ei. unfold ingestion_work, len at 6.
      cbn [List.length]. destruct w; lia.
    - destruct (s_compressor s) eqn:Ek; try discriminate H.
      destruct (s_uncompressed s) as [|[[b|d]| |] rest] eqn:Eu; try discriminate H.
      + injection H as <-. unfold work. fields. rewrite Eu, Ek. cbn [sum message_work]. lia.
      + destruct (get path_eqb _ _); injection H as <-; unfold work; fields; rewrite Eu, Ek; cbn [sum message_work]; lia.
      + injection H as <-. unfold work. fields. rewrite Eu, Ek, sum_app. cbn [sum message_work]. lia.
      + injection H as <-. unfold work. fields. rewrite Eu, Ek, sum_app. cbn [sum message_work]. lia.
    - destruct (s_compressor s) as [|mem m tags points ids| |] eqn:Ek; try discriminate H.
      destruct (_ && _); [|discriminate H]. injection H as <-. unfold work. fields. rewrite Ek, sum_app.
      cbn [sum message_work].
      assert (ingestion_work (wake (s_ingestion s)) <= ingestion_work (s_ingestion s) + 1).
      { destruct (s_ingestion s) as [|b l [|]| | |]; cbn [wake ingestion_work]; lia. }
      lia.
    - destruct (s_writer s) eqn:Ew; try discriminate H.
      destruct (s_compressed s) as [|[g| |] rest] eqn:Em; try discriminate H.
      + cbv zeta in H. fields. destruct (get String.eqb _ (s_buffers s)); injection H as <-; unfold work; fields;
          rewrite Ew, Em, ?len_app; cbn [sum message_work]; change (len [t_name (g_meta g)]) with 1; lia.
      + injection H as <-. unfold work. fields. rewrite Ew, Em. cbn [sum message_work]. lia.
      + injection H as <-. unfold work. fields. rewrite Ew, Em. cbn [sum message_work]. lia.
    - destruct (s_writer s) as [|t| | |] eqn:Ew; try discriminate H.
      assert (Hpop : forall t table b s1, pop_buffer s = Some (table, b, s1) ->
        work (with_writer (Committing table b t) s1) < work s).
      { intros t' table b s1 E. apply pop_fields in E. destruct E as [-> [q Eq]]. unfold work. fields.
        rewrite Ew, Eq. cbn [tl]. rewrite len_cons. lia. }
      destruct t as [size| |].
      + destruct (_ <=? _); [injection H as <-; unfold work; fields; rewrite Ew; lia|].
        destruct (pop_buffer s) as [[[table b] s1]|]; [|discriminate H]. injection H as <-. apply Hpop. reflexivity.
      + destruct (s_queue s) eqn:Eq; [injection H as <-; unfold work; fields; rewrite Ew; lia|].
        destruct (pop_buffer s) as [[[table b] s1]|]; [|discriminate H]. injection H as <-. apply Hpop. reflexivity.
      + destruct (s_queue s) eqn:Eq; [injection H as <-; unfold work; fields; rewrite Ew; lia|].
        destruct (pop_buffer s) as [[[table b] s1]|]; [|discriminate H]. injection H as <-. apply Hpop. reflexivity.
    - destruct (s_writer s) as [| |table b t| |] eqn:Ew; try discriminate H.
      destruct written; [injection H as <-; unfold work, save; fields; rewrite Ew; lia|].
      destruct t; injection H as <-; unfold work; fields; rewrite Ew; lia.
  Qed.
End Progress.
