(** More about the pipeline of Model/Pipeline.v: spilling of single buffers, hash collisions, and loops that
    free memory. *)
From Coq Require Import ZArith List Bool String Permutation Sorted Lia.
From Verif Require Import Model.Pipeline Spec.PipelineSpec Proofs.PipelineMaps Proofs.PipelineInvariant
  Proofs.PipelineSteps Proofs.PipelineIds Proofs.PipelineRuns Proofs.PipelineMemory Proofs.PipelineCrash
  Proofs.PipelineTokens Proofs.PipelineProgress Proofs.PipelineResults Proofs.PipelineExamples.
Import ListNotations.
Open Scope Z_scope.

(** * Spilling *)

Lemma sorted_unique (l : list point) : forall k, StronglySorted earlier l -> StronglySorted earlier k ->
  Permutation l k -> NoDup (map p_time k) -> l = k.
Proof.
  induction l as [|p l IH]; intros k Hl Hk Hp Hn.
  - apply Permutation_nil in Hp. symmetry. exact Hp.
  - destruct k as [|q k]; [apply Permutation_sym, Permutation_nil in Hp; discriminate Hp|].
    apply StronglySorted_inv in Hl, Hk. destruct Hl as [Hl Hl2]. destruct Hk as [Hk Hk2].
    assert (E : p = q).
    { assert (Hpin : In p (q :: k)) by (apply (Permutation_in p Hp); left; reflexivity).
      assert (Hqin : In q (p :: l)) by (apply (Permutation_in q (Permutation_sym Hp)); left; reflexivity).
      destruct Hpin as [E|Hpin]; [symmetry; exact E|]. destruct Hqin as [E|Hqin]; [exact E|].
      rewrite Forall_forall in Hl2, Hk2. specialize (Hl2 q Hqin). specialize (Hk2 p Hpin). unfold earlier in *.
      cbn [map] in Hn. inversion Hn as [|t ts Hnin _]. exfalso. apply Hnin.
      replace (p_time q) with (p_time p) by lia. apply in_map. exact Hpin. }
    subst q. f_equal. apply IH; try assumption.
    + apply Permutation_cons_inv in Hp. exact Hp.
    + cbn [map] in Hn. inversion Hn. assumption.
Qed.

Section Spills.
  Variable sort : list point -> list point.
  Hypothesis Hsort : sorts_points sort.

  Definition alike (b c : memory_buffer) : Prop :=
    m_hash b = m_hash c /\ m_meta b = m_meta c /\ m_tags b = m_tags c /\ m_ids b = m_ids c
    /\ Permutation (m_points b) (m_points c).

  Lemma uses_alike uses : forall b c, alike b c -> alike (with_spills sort uses b) (without_spills uses c).
  Proof.
    induction uses as [|u uses IH]; intros b c H; [exact H|].
    unfold with_spills, without_spills. cbn [fold_left].
    apply (IH (match u with
               | Spilled index => loaded index (spilled sort b) (spilled_file sort b)
               | Added index r id => add_point index r id b end)
              (match u with Spilled _ => c | Added index r id => add_point index r id c end)).
    destruct H as [H1 [H2 [H3 [H4 H5]]]]. destruct u as [index|index r id].
    - unfold alike. cbn [loaded spilled spilled_file m_hash m_meta m_tags m_ids m_points d_hash d_meta d_ids f_tags f_points].
      repeat (split; [assumption|]). rewrite <- H5. apply Hsort.
    - unfold alike, add_point. cbn [m_hash m_meta m_tags m_ids m_points].
      repeat (split; [assumption|]). split; [rewrite H4; reflexivity|]. apply Permutation_app_tail. exact H5.
  Qed.

  Lemma spilling_transparent uses b :
    let b1 := with_spills sort uses b in
    let b2 := without_spills uses b in
    m_hash b1 = m_hash b2 /\ m_meta b1 = m_meta b2 /\ m_tags b1 = m_tags b2 /\ m_ids b1 = m_ids b2
    /\ Permutation (m_points b1) (m_points b2)
    /\ (NoDup (map p_time (m_points b2)) ->
        sort (m_points b1) = sort (m_points b2) /\ f_points (spilled_file sort b1) = sort (m_points b2)).
  Proof.
    cbv zeta. assert (H : alike b b) by (unfold alike; repeat (split; [reflexivity|]); reflexivity).
    destruct (uses_alike uses b b H) as [H1 [H2 [H3 [H4 H5]]]].
    repeat (split; [assumption|]). intros Hn.
    assert (E : sort (m_points (with_spills sort uses b)) = sort (m_points (without_spills uses b))).
    { apply sorted_unique; try apply Hsort.
      - rewrite (proj1 (Hsort (m_points (with_spills sort uses b)))), (proj1 (Hsort (m_points (without_spills uses b)))).
        exact H5.
      - apply (Permutation_NoDup (l := map p_time (m_points (without_spills uses b)))); [|exact Hn].
        apply Permutation_map, Permutation_sym, Hsort. }
    split; [exact E|]. cbn [spilled_file f_points]. exact E.
  Qed.
End Spills.

(** * Hash collisions *)

Definition mixed_rows : list row :=
  [{| r_tags := ["a"%string; "bc"%string]; r_time := 1; r_values := [10] |};
   {| r_tags := ["ab"%string; "c"%string]; r_time := 2; r_values := [20] |}].
Definition mixed_before : list event := [Replay; Insert table1 mixed_rows 1; Send; Receive; Point true].
Definition mixed_after : list event :=
  [Finish; Request_flush; Receive; Compress; Send_segments [5]; Compress; Write; Work; Write; Work; Commit true;
   Work; Return].
Definition mixed_limits : pool := pools 1000 (2 * one) 1000.

Lemma mixed_witness hash sort : sorts_points sort -> exists s x,
  run hash code_capacity sort true (mixed_before ++ Point true :: mixed_after) (start true mixed_limits [] []) = Next s
  /\ In x (saved s) /\ ~ In x (received s).
Proof.
  intros Hsort.
  assert (Hin : forall p l, In p l -> In p (sort l)).
  { intros p l H. apply (Permutation_in p (Permutation_sym (proj1 (Hsort l)))). exact H. }
  set (h := hash "abcm"%string). set (p1 := {| p_time := 1; p_values := [10]; p_source := Some 0 |}).
  set (p2 := {| p_time := 2; p_values := [20]; p_source := Some 0 |}).
  rewrite (run_app hash code_capacity sort true mixed_before).
  destruct (run hash code_capacity sort true mixed_before (start true mixed_limits [] [])) as [| |s1] eqn:E1;
    [exfalso; revert E1; vm_compute; discriminate|exfalso; revert E1; vm_compute; discriminate|].
  change (Point true :: mixed_after) with ([Point true] ++ mixed_after). rewrite (run_app hash code_capacity sort true [Point true]).
  assert (E2 : exists s2, run hash code_capacity sort true [Point true] s1 = Next s2
    /\ s2 = with_ingestion (Points (match s_ingestion s1 with Points b _ _ => b | _ => {| b_meta := table1; b_rows := []; b_size := 0; b_id := None |} end) [] false)
         (with_memory [(h, {| m_hash := h; m_meta := table1; m_updated := 0; m_points := [p1; p2];
                              m_tags := ["a"%string; "bc"%string]; m_ids := [0] |})] s1)).
  { eexists. split; [|reflexivity]. vm_compute in E1. injection E1 as <-.
    cbn [run step s_ingestion]. unfold insert_data_point. cbv zeta. cbn [s_memory get].
    change (tag_hash hash (t_name (b_meta _)) (r_tags _)) with h.
    change (hash "abcm"%string) with h. rewrite !Z.eqb_refl. unfold is_full.
    unfold add_point. unfold inserted. cbn [s_memory put b_id m_points m_hash].
    rewrite Z.eqb_refl. reflexivity. }
  destruct E2 as [s2 [E2 E2']]. rewrite E2. vm_compute in E1. injection E1 as <-.
  unfold with_ingestion, with_memory in E2'.
  cbn [s_client s_ingestion s_compressor s_writer s_ingested s_uncompressed s_compressed s_results
       s_index s_memory s_disk s_files s_buffers s_queue s_pool s_limits s_log s_table] in E2'.
  subst s2.
  match goal with |- exists s x, ?r = Next s /\ _ => destruct r as [| |s] eqn:E3 end;
    [exfalso; revert E3; vm_compute; discriminate|exfalso; revert E3; vm_compute; discriminate|].
  exists s, {| i_meta := table1; i_tags := ["a"%string; "bc"%string]; i_point := p2 |}.
  split; [reflexivity|]. vm_compute in E3. injection E3 as <-.
  split.
  - unfold saved. cbn [s_table flat_map]. rewrite app_nil_r. unfold commit_items. cbn [k_segments flat_map].
    rewrite app_nil_r. unfold segment_items, items. cbn [g_meta g_tags g_points].
    apply in_map_iff. exists p2. split; [reflexivity|]. apply Hin. right. left. reflexivity.
  - unfold received. cbn [s_log flat_map]. intros [H|[H|[]]]; discriminate H.
Qed.

(** * Loops *)

Section Loops.
  Variable hash : string -> Z.
  Variable capacity : nat.
  Variable sort : list point -> list point.
  Variable logging : bool.
  Hypothesis Hsort : sorts_points sort.

  Notation step := (step hash capacity sort logging).
  Notation run := (run hash capacity sort logging).
  Notation start := (start logging).
  Notation along := (along hash capacity sort logging).

  (** The threads do only so much on their own. *)
  Lemma threads_pause events : forall s s', Forall by_threads events -> run events s = Next s' ->
    work s' + Z.of_nat (List.length events) <= work s.
  Proof.
    induction events as [|e events IH]; intros s s' He H; cbn [Pipeline.run] in H.
    - injection H as <-. cbn [List.length]. lia.
    - destruct (step e s) as [| |s1] eqn:E; try discriminate H. apply Forall_cons_iff in He. destruct He as [He1 He2].
      pose proof (work_step hash capacity sort logging e s s1 He1 E). specialize (IH s1 s' He2 H).
      cbn [List.length]. lia.
  Qed.

  Lemma writer_continues events limits s :
    nonneg_limits limits -> run events (start limits [] []) = Next s -> along usual events (start limits [] []) ->
    collision_free hash (received s) -> distinct_times (received s) ->
    match s_client s with Freeing _ | Saving _ _ _ => False | _ => True end ->
    match s_writer s with
    | Working _ => exists s', step Work s = Next s'
    | Committing _ _ _ => exists s', step (Commit true) s = Next s'
    | _ => True
    end
    /\ exists n, forall rest s', Forall by_writer rest -> run rest s = Next s' -> (List.length rest <= n)%nat.
  Proof.
    intros Hl H Ha Hc Hd Hcl. split.
    - pose proof (fun e => no_panic hash capacity sort logging Hsort events limits s e Hl H Ha Hc Hd) as Hp.
      destruct (s_writer s) as [|t|t b w| |] eqn:Ew; try exact I.
      + assert (Hu : usual Work s).
        { split; [|split; intros C; discriminate C]. split; [intros []|]. split; [intros _; exact Hcl|exact I]. }
        specialize (Hp Work Hu). destruct (step Work s) as [| |s'] eqn:E; [|contradiction Hp; reflexivity|exists s'; reflexivity].
        exfalso. cbn [Pipeline.step] in E. rewrite Ew in E.
        destruct t as [size| |].
        * destruct (size <=? compressed (s_pool s)); [discriminate E|].
          destruct (pop_buffer s) as [[[t b] s1]|]; discriminate E.
        * destruct (s_queue s); [discriminate E|]. destruct (pop_buffer s) as [[[t b] s1]|]; discriminate E.
        * destruct (s_queue s); [discriminate E|]. destruct (pop_buffer s) as [[[t b] s1]|]; discriminate E.
      + eexists. cbn [Pipeline.step]. rewrite Ew. reflexivity.
    - exists (Z.to_nat (work s)). intros rest s' Hr Hrun.
      assert (Hb : Forall by_threads rest).
      { eapply Forall_impl; [|exact Hr]. intros e He. right. right. exact He. }
      pose proof (threads_pause rest s s' Hb Hrun). pose proof (work_nonneg s'). lia.
  Qed.

  Lemma usual_adjust s : usual Adjust s.
  Proof. split; [|split; intros C; discriminate C]. split; [intros []|]. split; [intros []|exact I]. Qed.

  Lemma sound_adjust s s' : sound hash capacity logging s -> collision_free hash (received s) ->
    distinct_times (received s) -> step Adjust s = Next s' -> sound hash capacity logging s' /\ s_log s' = s_log s.
  Proof.
    intros Hs Hc Hd E.
    assert (El : s_log s' = s_log s).
    { cbn [Pipeline.step] in E. destruct (s_client s); try discriminate E.
      - destruct (uncompressed (s_pool s) <? 0); [|injection E as <-; reflexivity].
        unfold take_buffer in E. destruct (s_memory s) as [|[h b] l]; injection E as <-; reflexivity.
      - injection E as <-. reflexivity.
      - destruct (compressed (s_pool s) <? 0); [|injection E as <-; reflexivity].
        destruct (pop_buffer s) as [[[t b] s1]|] eqn:Ep; [|discriminate E]. injection E as <-.
        apply pop_log in Ep. exact Ep.
      - injection E as <-. reflexivity. }
    split; [|exact El].
    apply (sound_step hash capacity sort logging Hsort Adjust s s' Hs); [| |apply usual_adjust|exact E];
      unfold received in *; rewrite El; assumption.
  Qed.

  Lemma freeing_ends n : forall s change, sound hash capacity logging s ->
    collision_free hash (received s) -> distinct_times (received s) -> s_client s = Freeing change ->
    (List.length (s_queue s) <= n)%nat ->
    exists k s', run (repeat Adjust k) s = Next s' /\ s_client s' = Idle /\ 0 <= compressed (s_pool s').
  Proof.
    induction n as [|n IH]; intros s change Hs Hc Hd Hcl Hn;
      pose proof (no_abort hash capacity sort logging Adjust s Hs (usual_adjust s)) as Hp;
      (destruct (compressed (s_pool s) <? 0) eqn:Ez;
       [|exists 1%nat; eexists; cbn [repeat Pipeline.run Pipeline.step]; rewrite Hcl, Ez;
         split; [reflexivity|]; fields; split; [reflexivity|apply Z.ltb_ge; exact Ez]]).
    - exfalso. apply Hp. cbn [Pipeline.step]. rewrite Hcl, Ez. unfold pop_buffer.
      destruct (s_queue s); [reflexivity|cbn [List.length] in Hn; lia].
    - destruct (step Adjust s) as [| |s1] eqn:E1; [|contradiction Hp; reflexivity|].
      { exfalso. cbn [Pipeline.step] in E1. rewrite Hcl, Ez in E1. destruct (pop_buffer s) as [[[t b] s1]|]; discriminate E1. }
      destruct (sound_adjust s s1 Hs Hc Hd E1) as [Hs1 El1].
      assert (H1 : exists t b, s_client s1 = Saving change t b /\ (List.length (s_queue s1) < List.length (s_queue s))%nat).
      { cbn [Pipeline.step] in E1. rewrite Hcl, Ez in E1. unfold pop_buffer in E1.
        destruct (s_queue s) as [|t q] eqn:Eq; [discriminate E1|].
        destruct (get String.eqb t (s_buffers s)) as [b|]; [|discriminate E1]. injection E1 as <-. exists t, b. fields.
        split; [reflexivity|]. cbn [List.length]. lia. }
      destruct H1 as [t [b [Hc1 Hq1]]].
      assert (Hc1' : collision_free hash (received s1)) by (unfold received in *; rewrite El1; exact Hc).
      assert (Hd1' : distinct_times (received s1)) by (unfold received in *; rewrite El1; exact Hd).
      destruct (step Adjust s1) as [| |s2] eqn:E2; try (cbn [Pipeline.step] in E2; rewrite Hc1 in E2; discriminate E2).
      destruct (sound_adjust s1 s2 Hs1 Hc1' Hd1' E2) as [Hs2 El2].
      assert (H2 : s_client s2 = Freeing change /\ s_queue s2 = s_queue s1).
      { cbn [Pipeline.step] in E2. rewrite Hc1 in E2. injection E2 as <-. split; reflexivity. }
      destruct H2 as [Hc2 Hq2].
      destruct (IH s2 change Hs2) as [k [s' [Hk Hk2]]]; try exact Hc2.
      + unfold received in *. rewrite El2. exact Hc1'.
      + unfold received in *. rewrite El2. exact Hd1'.
      + rewrite Hq2. lia.
      + exists (S (S k)), s'. split; [|exact Hk2]. cbn [repeat Pipeline.run]. rewrite E1, E2. exact Hk.
  Qed.

  Lemma client_continues events limits s :
    nonneg_limits limits -> run events (start limits [] []) = Next s -> along usual events (start limits [] []) ->
    collision_free hash (received s) -> distinct_times (received s) ->
    (exists change, s_client s = Freeing change) ->
    exists k s', run (repeat Adjust k) s = Next s' /\ s_client s' = Idle /\ 0 <= compressed (s_pool s').
  Proof.
    intros Hl H Ha Hc Hd [change Hcl].
    apply (freeing_ends (List.length (s_queue s)) s change); try assumption; [|lia].
    apply (reached hash capacity sort logging Hsort events limits s Hl H Ha Hc Hd).
  Qed.

  (** * Use of memory *)

  Lemma usage_below events limits s :
    nonneg_limits limits -> run events (start limits [] []) = Next s -> along usual events (start limits [] []) ->
    collision_free hash (received s) -> distinct_times (received s) -> s_client s = Idle ->
    (along (fits hash capacity) events (start limits [] []) ->
       uncompressed (s_pool s) + used_uncompressed capacity s = uncompressed (s_limits s)
       /\ used_uncompressed capacity s <= uncompressed (s_limits s))
    /\ (Forall single_field events -> being_reserved (s_writer s) = 0 ->
       compressed (s_pool s) + used_compressed s = compressed (s_limits s)
       /\ used_compressed s <= compressed (s_limits s)).
  Proof.
    intros Hl H Ha Hc Hd Hcl.
    destruct (memory_balance hash capacity sort logging Hsort events limits s Hl H Ha Hc Hd) as [_ [H2 H3]].
    destruct (memory_not_leaked hash capacity sort logging Hsort events limits s Hl H Ha Hc Hd) as [_ [H4 H5]].
    rewrite Hcl in *. cbn [uncompressed_change compressed_change] in *. split.
    - intros Hf. specialize (H2 Hf). lia.
    - intros Hf Hw. specialize (H3 Hf). rewrite Hw in H3. lia.
  Qed.

  Lemma healthy_from_start events limits s :
    nonneg_limits limits -> run events (start limits [] []) = Next s ->
    along (fun e s => usual e s /\ roomy capacity s) events (start limits [] []) ->
    collision_free hash (received s) -> distinct_times (received s) -> healthy s.
  Proof.
    intros Hl H Ha Hc Hd. apply (healthy_run hash capacity sort logging Hsort events (start limits [] []) s);
      try assumption.
    - apply sound_start. exact Hl.
    - unfold Pipeline.start. split; [discriminate|]. split; discriminate.
  Qed.

  Lemma closed_saved events limits s :
    nonneg_limits limits -> run events (start limits [] []) = Next s ->
    along usual events (start limits [] []) ->
    collision_free hash (received s) -> distinct_times (received s) -> s_client s = Closed ->
    s_ingestion s = Stopped /\ s_compressor s = Compressor_stopped /\ s_writer s = Writer_stopped /\ live s = []
    /\ (~ In Crash events -> Permutation (received s) (saved s)).
  Proof.
    intros Hl H Ha Hc Hd Hcl.
    destruct (closed_stopped hash capacity sort logging Hsort events limits s Hl H Ha Hc Hd Hcl) as [H1 [H2 [H3 H4]]].
    split; [exact H1|]. split; [exact H2|]. split; [exact H3|]. split; [exact H4|]. intros Hcr.
    assert (Hh : healthy s) by (unfold healthy; rewrite H1, H2, H3; repeat split; discriminate).
    pose proof (nothing_lost hash capacity sort Hsort logging events limits s H Hcr Ha Hh Hc Hd) as Hp.
    rewrite H4, app_nil_r in Hp. exact Hp.
  Qed.

  Lemma spilled_files events limits s :
    run events (start limits [] []) = Next s ->
    along (fun e s => undisturbed e s /\ spills_written e) events (start limits [] []) ->
    collision_free hash (received s) -> distinct_times (received s) ->
    NoDup (map d_path (map snd (s_disk s) ++ on_disk (s_uncompressed s)))
    /\ forall d, In d (map snd (s_disk s) ++ on_disk (s_uncompressed s)) ->
         exists f, get path_eqb (d_path d) (s_files s) = Some f /\ f_points f <> []
           /\ tag_hash hash (t_name (d_meta d)) (f_tags f) = d_hash d.
  Proof.
    intros H Ha Hc Ht.
    pose proof (run_inv hash capacity sort logging Hsort events _ s (start_inv hash logging limits) H Ha Hc Ht) as Hinv.
    pose proof (inv_wf _ _ s Hinv) as Hwf. split; [exact (wf_paths _ s Hwf)|].
    intros d Hd. destruct (wf_refs _ s Hwf d Hd) as [f [p [ps [E1 [E2 [E3 _]]]]]].
    exists f. split; [exact E1|]. split; [rewrite E2; discriminate|symmetry; exact E3].
  Qed.
End Loops.

(** * Examples *)

Lemma lost_example : exists s b,
  run_ (lost_before ++ Crash :: lost_after) (start_ lost_limits) = Next s
  /\ along_ (fun e s => undisturbed e s /\ spills_written e) (lost_before ++ Crash :: lost_after) (start_ lost_limits)
  /\ ~ In Crash lost_after /\ Forall commits_written lost_after /\ healthy s
  /\ collision_free toy_hash (received s) /\ distinct_times (received s)
  /\ In b (s_log s) /\ List.length (b_rows b) = 1%nat /\ List.length (s_log s) = 2%nat.
Proof.
  assert (H : checked code_capacity true (lost_before ++ Crash :: lost_after) lost_limits
    (fun s => distinct_timesb (received s) && healthyb s && Nat.eqb (List.length (s_log s)) 2
              && match s_log s with [_; b] => Nat.eqb (List.length (b_rows b)) 1 | _ => false end) = true)
    by (vm_compute; reflexivity).
  use_checked H. destruct (s_log s) as [|b0 [|b [|? ?]]] eqn:El; try discriminate K. exists s, b.
  split; [exact Hrun|].
  split.
  { revert Halong. generalize (lost_before ++ Crash :: lost_after) (start_ lost_limits). clear.
    induction l as [|e l IH]; intros s; cbn [along]; [intros _; exact I|]. intros [[H1 [H2 _]] H3].
    split; [split; assumption|]. destruct (step toy_hash code_capacity toy_sort true e s); try exact I. apply IH. exact H3. }
  split; [unfold lost_after; cbn [In]; intros HC; repeat (destruct HC as [HC|HC]; [discriminate HC|]); exact HC|].
  split; [unfold lost_after; repeat (constructor; [discriminate|]); constructor|].
  split; [apply healthyb_ok; exact K1|]. split; [exact Hfree|]. split; [apply distinct_timesb_ok; exact H|].
  split; [rewrite El; right; left; reflexivity|]. split; [apply Nat.eqb_eq; exact K|rewrite El; reflexivity].
Qed.

Lemma spills_example :
  let b := {| m_hash := 7; m_meta := table1; m_updated := 0; m_points := []; m_tags := ["a"%string]; m_ids := [] |} in
  let uses := [Added 0 (row_of "a" 3 30) (Some 0); Spilled 1; Added 1 (row_of "a" 1 10) (Some 1); Spilled 2;
               Added 2 (row_of "a" 2 20) (Some 1); Added 2 (row_of "a" 0 5) (Some 2)] in
  sorts_points toy_sort
  /\ NoDup (map p_time (m_points (without_spills uses b)))
  /\ map p_time (m_points (with_spills toy_sort uses b)) = [1; 3; 2; 0]
  /\ map p_time (m_points (without_spills uses b)) = [3; 1; 2; 0].
Proof.
  split; [exact toy_sorts|]. split; [|split; reflexivity].
  change (NoDup [3; 1; 2; 0]). repeat (constructor; [cbn [In]; intros C; repeat (destruct C as [C|C]; [discriminate C|]); exact C|]).
  constructor.
Qed.

Lemma files_example : exists s,
  run2 (firstn 13 busy_run) (start_ busy_limits) = Next s
  /\ along2 usual (firstn 13 busy_run) (start_ busy_limits)
  /\ collision_free toy_hash (received s) /\ distinct_times (received s)
  /\ List.length (s_disk s) = 1%nat /\ List.length (s_memory s) = 2%nat.
Proof.
  assert (H : checked 2 true (firstn 13 busy_run) busy_limits
    (fun s => distinct_timesb (received s) && Nat.eqb (List.length (s_disk s)) 1
              && Nat.eqb (List.length (s_memory s)) 2) = true) by (vm_compute; reflexivity).
  use_checked H. exists s. split; [exact Hrun|]. split; [exact Halong|]. split; [exact Hfree|].
  split; [apply distinct_timesb_ok; exact H|]. split; [apply Nat.eqb_eq; exact K0|apply Nat.eqb_eq; exact K].
Qed.

Definition freeing_limits : pool := pools 1000 72 8.
Definition freeing_before : list event :=
  [Replay; Insert table1 [row_of "a" 1 10; row_of "a" 2 20] 1; Send; Receive; Point true; Point true; Send_full; Finish;
   Compress; Send_segments [5]; Write; Work;
   Insert table3 [row_of "a" 1 10; row_of "a" 2 20] 1; Send; Receive; Point true; Point true; Send_full; Finish;
   Compress; Send_segments [5]; Write].
Definition freeing_after : list event := [Work; Commit true; Work; Adjust_compressed (-6)].

Lemma freeing_example : exists s s' size change,
  nonneg_limits freeing_limits
  /\ run2 freeing_before (start_ freeing_limits) = Next s
  /\ along2 usual freeing_before (start_ freeing_limits)
  /\ s_writer s = Working (Reserve size) /\ compressed (s_pool s) < size
  /\ run2 (freeing_before ++ freeing_after) (start_ freeing_limits) = Next s'
  /\ along2 usual (freeing_before ++ freeing_after) (start_ freeing_limits)
  /\ s_client s' = Freeing change /\ compressed (s_pool s') < 0
  /\ collision_free toy_hash (received s') /\ distinct_times (received s').
Proof.
  assert (H1 : checked 2 true freeing_before freeing_limits
    (fun s => match s_writer s with Working (Reserve size) => compressed (s_pool s) <? size | _ => false end) = true)
    by (vm_compute; reflexivity).
  assert (H : checked 2 true (freeing_before ++ freeing_after) freeing_limits
    (fun s => distinct_timesb (received s) && (compressed (s_pool s) <? 0)
              && match s_client s with Freeing _ => true | _ => false end) = true)
    by (vm_compute; reflexivity).
  use_checked H.
  apply checked_ok in H1. destruct H1 as [s0 [Hrun0 [Halong0 [_ H1]]]].
  destruct (s_writer s0) as [| [size| |]| | |] eqn:Ew; try discriminate H1.
  destruct (s_client s) as [| | | | | | |change| |] eqn:Ec; try discriminate K.
  exists s0, s, size, change.
  split; [repeat split; intros C; discriminate C|].
  split; [exact Hrun0|]. split; [exact Halong0|]. split; [exact Ew|]. split; [apply Z.ltb_lt; exact H1|].
  split; [exact Hrun|]. split; [exact Halong|]. split; [exact Ec|]. split; [apply Z.ltb_lt; exact K0|].
  split; [exact Hfree|apply distinct_timesb_ok; exact H].
Qed.

Lemma closing_example : exists s s1,
  run2 (busy_run ++ [Request_stop]) (start_ busy_limits) = Next s
  /\ along2 (fun e s => usual e s /\ roomy 2 s) (busy_run ++ [Request_stop]) (start_ busy_limits)
  /\ roomy 2 s /\ collision_free toy_hash (received s) /\ distinct_times (received s)
  /\ s_client s = Closing /\ live s <> []
  /\ run2 (busy_run ++ Request_stop :: busy_flush ++ [Return]) (start_ busy_limits) = Next s1
  /\ along2 usual (busy_run ++ Request_stop :: busy_flush ++ [Return]) (start_ busy_limits)
  /\ s_client s1 = Closed.
Proof.
  assert (H1 : checked 2 true (busy_run ++ Request_stop :: busy_flush ++ [Return]) busy_limits (clientb Closed) = true)
    by (vm_compute; reflexivity).
  assert (H : checked 2 true (busy_run ++ [Request_stop]) busy_limits
    (fun s => distinct_timesb (received s) && roomyb 2 s && clientb Closing s
              && negb (Nat.eqb (List.length (live s)) 0)) = true)
    by (vm_compute; reflexivity).
  use_checked H. apply checked_ok in H1. destruct H1 as [s1 [Hrun1 [Halong1 [_ H1]]]].
  exists s, s1. split; [exact Hrun|].
  split; [refine (alongb_ok 2 true (fun e s => usualb e s && roomyb 2 s) _ _ _ _ _);
          [intros e s' E; apply andb_true_iff in E; destruct E as [E1 E2];
           split; [apply usualb_ok; exact E1|apply roomb_ok; exact E2]|vm_compute; reflexivity]|].
  split; [apply roomb_ok; exact K1|]. split; [exact Hfree|]. split; [apply distinct_timesb_ok; exact H|].
  split; [apply clientb_ok; exact K0|]. split; [intros E; rewrite E in K; discriminate K|].
  split; [exact Hrun1|]. split; [exact Halong1|apply clientb_ok; exact H1].
Qed.

Lemma change_example : exists events e s s1 rest s',
  run2 events (start_ busy_limits) = Next s
  /\ along2 usual (events ++ e :: rest) (start_ busy_limits)
  /\ step toy_hash 2 toy_sort true e s = Next s1 /\ run2 rest s1 = Next s'
  /\ Forall meanwhile rest /\ collision_free toy_hash (received s') /\ distinct_times (received s')
  /\ s_client s' = Idle /\ e = Adjust_uncompressed (-24) /\ uncompressed (s_pool s) = 0
  /\ uncompressed (s_limits s') = 48.
Proof.
  exists (firstn 8 busy_run), (Adjust_uncompressed (-24)).
  destruct (run2 (firstn 8 busy_run) (start_ busy_limits)) as [| |s] eqn:E;
    try (exfalso; revert E; vm_compute; discriminate).
  destruct (step toy_hash 2 toy_sort true (Adjust_uncompressed (-24)) s) as [| |s1] eqn:E1;
    try (exfalso; revert E1; vm_compute in E; injection E as <-; vm_compute; discriminate).
  set (rest := [Reorder_memory 1; Adjust; Adjust; Adjust]).
  destruct (run2 rest s1) as [| |s2] eqn:E2;
    try (exfalso; revert E2; vm_compute in E; injection E as <-; vm_compute in E1; injection E1 as <-; vm_compute; discriminate).
  exists s, s1, rest, s2. split; [reflexivity|].
  split; [refine (alongb_ok 2 true usualb _ usualb_ok _ _ _); vm_compute; reflexivity|].
  split; [exact E1|]. split; [exact E2|].
  split; [repeat (constructor; [right; exact I|]); constructor|].
  vm_compute in E; injection E as <-; vm_compute in E1; injection E1 as <-; vm_compute in E2; injection E2 as <-.
  split; [apply collision_freeb_ok; vm_compute; reflexivity|]. split; [apply distinct_timesb_ok; vm_compute; reflexivity|].
  split; [reflexivity|]. split; [reflexivity|]. split; reflexivity.
Qed.

Definition waiting_limits : pool := pools 10 72 12.
Definition waiting_run : list event :=
  [Replay; Insert table1 [row_of "a" 1 10; row_of "b" 1 20] 7; Send; Insert table2 [row_two "a" 7 50 51] 8].

Lemma waiting_example : exists s b,
  nonneg_limits waiting_limits
  /\ run2 waiting_run (start_ waiting_limits) = Next s
  /\ along2 (fun e s => usual e s /\ roomy 2 s) waiting_run (start_ waiting_limits)
  /\ roomy 2 s /\ collision_free toy_hash (received s) /\ distinct_times (received s)
  /\ s_client s = Inserting b /\ b_size b <= ingested (s_limits s) /\ ingested (s_pool s) < b_size b.
Proof.
  assert (H : checked 2 true waiting_run waiting_limits
    (fun s => distinct_timesb (received s) && roomyb 2 s
              && match s_client s with
                 | Inserting b => (b_size b <=? ingested (s_limits s)) && (ingested (s_pool s) <? b_size b)
                 | _ => false
                 end) = true)
    by (vm_compute; reflexivity).
  use_checked H. destruct (s_client s) as [|b| | | | | | | |] eqn:Ec; try discriminate K.
  apply andb_true_iff in K. destruct K as [K1 K2]. exists s, b.
  split; [repeat split; intros C; discriminate C|]. split; [exact Hrun|].
  split; [refine (alongb_ok 2 true (fun e s => usualb e s && roomyb 2 s) _ _ _ _ _);
          [intros e s' E; apply andb_true_iff in E; destruct E as [E1 E2];
           split; [apply usualb_ok; exact E1|apply roomb_ok; exact E2]|vm_compute; reflexivity]|].
  split; [apply roomb_ok; exact K0|]. split; [exact Hfree|]. split; [apply distinct_timesb_ok; exact H|].
  split; [exact Ec|]. split; [apply Z.leb_le; exact K1|apply Z.ltb_lt; exact K2].
Qed.
