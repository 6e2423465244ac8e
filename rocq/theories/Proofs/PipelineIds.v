(** The pipeline of Model/Pipeline.v keeps the ids of exactly the batches its buffers have data points
    of. *)
From Coq Require Import ZArith List Bool String Permutation Sorted Lia.
From Verif Require Import Model.Pipeline Spec.PipelineSpec Proofs.PipelineMaps Proofs.PipelineInvariant
  Proofs.PipelineSteps.
Import ListNotations.
Open Scope Z_scope.

Definition exact (ids : list Z) (points : list point) : Prop :=
  forall i, In i ids <-> exists p, In p points /\ p_source p = Some i.

Definition all_points (l : list segments) : list point := flat_map g_points l.

Definition exact_segments (table : string) (ids : list Z) (l : list segments) : Prop :=
  (forall g, In g l -> t_name (g_meta g) = table) /\ exact ids (all_points l).

Record ids_ok (s : state) : Prop := {
  io_memory : forall h b, In (h, b) (s_memory s) -> exact (m_ids b) (m_points b);
  io_hand : forall b, In b (hand (s_client s)) -> exact (m_ids b) (m_points b);
  io_refs : forall d f, In d (refs s) -> get path_eqb (d_path d) (s_files s) = Some f ->
              exact (d_ids d) (f_points f);
  io_channel : forall b, In (Data (InMemory b)) (s_uncompressed s) -> exact (m_ids b) (m_points b);
  io_busy : forall n m tags points ids, s_compressor s = Busy n m tags points ids -> exact ids points;
  io_segments : forall g, In (Data g) (s_compressed s) -> exact (g_ids g) (g_points g);
  io_buffers : forall t b, In (t, b) (s_buffers s) -> exact_segments t (c_ids b) (c_segments b);
  io_saving : forall c t b, s_client s = Saving c t b -> exact_segments t (c_ids b) (c_segments b);
  io_writer : forall t b k, s_writer s = Committing t b k -> exact_segments t (c_ids b) (c_segments b);
  io_table : forall k, In k (s_table s) -> exact_segments (k_table k) (k_ids k) (k_segments k) }.

Lemma exact_perm ids p q : Permutation p q -> exact ids p -> exact ids q.
Proof.
  intros Hp H i. rewrite (H i). split; intros [x [Hx E]]; exists x; (split; [|exact E]).
  - apply (Permutation_in x Hp Hx).
  - apply (Permutation_in x (Permutation_sym Hp) Hx).
Qed.

Lemma exact_add ids points id t vs :
  exact ids points ->
  exact (insert_batch_id id ids) (points ++ [{| p_time := t; p_values := vs; p_source := id |}]).
Proof.
  intros H i. destruct id as [j|]; cbn [insert_batch_id].
  - rewrite in_add_id, (H i). split.
    + intros [->|[p [Hp E]]].
      * eexists. split; [apply in_app_iff; right; left; reflexivity|reflexivity].
      * exists p. split; [apply in_app_iff; left; exact Hp|exact E].
    + intros [p [Hp E]]. apply in_app_iff in Hp. destruct Hp as [Hp|[<-|[]]].
      * right. exists p. split; assumption.
      * left. cbn [p_source] in E. congruence.
  - rewrite (H i). split.
    + intros [p [Hp E]]. exists p. split; [apply in_app_iff; left; exact Hp|exact E].
    + intros [p [Hp E]]. apply in_app_iff in Hp. destruct Hp as [Hp|[<-|[]]].
      * exists p. split; assumption.
      * discriminate E.
Qed.

(** A new buffer is created with the id of its first data point, which is then added again. *)
Lemma exact_new id t vs :
  exact (insert_batch_id id (insert_batch_id id [])) [{| p_time := t; p_values := vs; p_source := id |}].
Proof.
  intros i. destruct id as [j|]; cbn [insert_batch_id].
  - rewrite !in_add_id. cbn [In]. split.
    + intros H. eexists. split; [left; reflexivity|]. cbn [p_source]. f_equal. destruct H as [H|[H|[]]]; congruence.
    + intros [p [[<-|[]] E]]. cbn [p_source] in E. left. congruence.
  - split; [intros []|]. intros [p [[<-|[]] E]]. discriminate E.
Qed.

Lemma exact_append t g b :
  t_name (g_meta g) = t -> exact (g_ids g) (g_points g) -> exact_segments t (c_ids b) (c_segments b) ->
  exact_segments t (c_ids (append_segments g b)) (c_segments (append_segments g b)).
Proof.
  intros Ht Hg [H1 H2]. cbn [append_segments c_ids c_segments]. split.
  - intros x Hx. apply in_app_iff in Hx. destruct Hx as [Hx|[<-|[]]]; [apply H1; exact Hx|exact Ht].
  - intros i. unfold all_points in *. rewrite in_add_ids, (Hg i), (H2 i), flat_map_app.
    cbn [flat_map]. rewrite app_nil_r. split.
    + intros [[p [Hp E]]|[p [Hp E]]]; exists p; (split; [apply in_app_iff; tauto|exact E]).
    + intros [p [Hp E]]. apply in_app_iff in Hp. destruct Hp as [Hp|Hp]; [right|left]; exists p; split; assumption.
Qed.

Lemma exact_empty t : exact_segments t (c_ids empty_buffer) (c_segments empty_buffer).
Proof.
  split; [intros g []|]. intros i. cbn [empty_buffer c_ids c_segments all_points flat_map].
  split; [intros []|intros [p [[] _]]].
Qed.

Section Ids.
  Variable hash : string -> Z.
  Variable capacity : nat.
  Variable sort : list point -> list point.
  Variable logging : bool.
  Hypothesis Hsort : sorts_points sort.

  Notation tag_hash := (tag_hash hash).
  Notation step := (step hash capacity sort logging).
  Notation spill := (spill capacity sort).
  Notation spilled := (spilled sort).
  Notation spilled_path := (spilled_path sort).
  Notation reserve := (reserve capacity sort).
  Notation wf := (wf hash).

  Lemma spill_ids s b :
    ids_ok s -> exact (m_ids b) (m_points b) ->
    (forall d, In d (refs s) -> d_path d <> spilled_path b) ->
    ids_ok (spill b s).
  Proof.
    intros Hi Hb Hp. destruct Hi. constructor; unfold Pipeline.spill; fields; try assumption.
    intros d f Hd Hf. unfold refs in Hd. fields. apply in_app_iff in Hd.
    destruct (path_eqb (d_path d) (spilled_path b)) eqn:E.
    - apply path_eqb_eq in E.
      assert (Hd' : d = spilled b).
      { destruct Hd as [Hd|Hd].
        - apply in_map_iff in Hd. destruct Hd as [[h d'] [Ed Hd]]. cbn [snd] in Ed. subst d'.
          apply (in_put Z.eqb) in Hd. destruct Hd as [[_ ->]|Hd]; [reflexivity|].
          exfalso. apply (Hp d); [|exact E]. apply in_app_iff. left.
          apply in_map_iff. exists (h, d). split; [reflexivity|exact Hd].
        - exfalso. apply (Hp d); [|exact E]. apply in_app_iff. right. exact Hd. }
      subst d. cbn [Pipeline.spilled d_path] in Hf. rewrite (get_put path_eqb path_eqb_eq) in Hf. injection Hf as <-.
      cbn [Pipeline.spilled d_ids Pipeline.spilled_file f_points].
      apply (exact_perm _ (m_points b)); [symmetry; apply Hsort|exact Hb].
    - assert (Hne : d_path d <> spilled_path b).
      { intros C. apply path_eqb_eq in C. congruence. }
      rewrite (get_put_other path_eqb path_eqb_eq) in Hf by exact Hne.
      apply (io_refs0 d f); [|exact Hf]. apply in_app_iff. destruct Hd as [Hd|Hd]; [left|right; exact Hd].
      apply in_map_iff in Hd. destruct Hd as [[h d'] [Ed Hd]]. cbn [snd] in Ed. subst d'.
      apply (in_put Z.eqb) in Hd. destruct Hd as [[_ ->]|Hd].
      + contradiction Hne. reflexivity.
      + apply in_map_iff. exists (h, d). split; [reflexivity|exact Hd].
  Qed.

  Lemma pop_ids s t b s1 :
    ids_ok s -> pop_buffer s = Some (t, b, s1) ->
    ids_ok s1 /\ exact_segments t (c_ids b) (c_segments b).
  Proof.
    intros Hi H. unfold pop_buffer in H. destruct (s_queue s) as [|t' q]; [discriminate H|].
    destruct (get String.eqb t' (s_buffers s)) as [b'|] eqn:E; [|discriminate H].
    injection H as -> -> <-. destruct Hi. split.
    - constructor; fields; try assumption. intros t' b' H. apply io_buffers0. apply (in_remove String.eqb t).
      exact H.
    - apply io_buffers0. apply (get_in String.eqb String.eqb_eq). exact E.
  Qed.

  Lemma finish_ids f g s : ids_ok s -> ids_ok (finish_buffers f g s).
  Proof.
    intros Hi. destruct Hi. constructor; unfold finish_buffers; fields; try assumption.
    - intros h b H. apply filter_In in H. apply (io_memory0 h b). apply H.
    - intros d x Hd. apply io_refs0. unfold refs in *. fields.
      rewrite !flat_map_app, flat_map_refs, flat_map_no_refs in Hd. cbn [app] in Hd.
      rewrite !in_app_iff in *. destruct Hd as [Hd|[Hd|Hd]]; [left|right; exact Hd|left].
      + apply in_map_iff in Hd. destruct Hd as [e [<- Hd]]. apply filter_In in Hd. apply in_map. apply Hd.
      + apply in_map_iff in Hd. destruct Hd as [e [<- Hd]]. apply filter_In in Hd. apply in_map. apply Hd.
    - intros b H. rewrite !in_app_iff in H. destruct H as [H|[H|H]].
      + apply io_channel0. exact H.
      + apply in_map_iff in H. destruct H as [[h c] [E H]]. injection E as <-. apply filter_In in H.
        apply (io_memory0 h c). apply H.
      + apply in_map_iff in H. destruct H as [[h c] [E H]]. discriminate E.
  Qed.

  Lemma save_ids t b s :
    ids_ok s -> exact_segments t (c_ids b) (c_segments b) -> ids_ok (save t b s).
  Proof.
    intros Hi Hb. destruct Hi. constructor; unfold save; fields; try assumption.
    intros k H. apply in_app_iff in H. destruct H as [H|[<-|[]]]; [apply io_table0; exact H|exact Hb].
  Qed.

  Lemma inserted_ids h full buffer b rest s :
    ids_ok s -> exact (m_ids buffer) (m_points buffer) -> ids_ok (inserted h full buffer b rest s).
  Proof.
    intros Hi Hb. destruct Hi. constructor; unfold inserted; fields; try assumption.
    intros k c H. apply (in_put Z.eqb) in H. destruct H as [[_ ->]|H]; [exact Hb|apply (io_memory0 k c H)].
  Qed.

  Ltac keep Hi := pose proof Hi as Hi'; destruct Hi'; constructor; fields; try assumption;
    try (intros; congruence).

  Lemma load_ids s h d :
    wf s -> ids_ok s -> get Z.eqb h (s_disk s) = Some d ->
    ids_ok (with_disk (remove Z.eqb h (s_disk s)) (with_files (remove path_eqb (d_path d) (s_files s)) s)).
  Proof.
    intros Hw Hi Hg. pose proof (wf_keys _ _ Hw) as Hk.
    assert (Hkd : NoDup (map fst (s_disk s))) by (rewrite !NoDup_app_iff in Hk; tauto).
    pose proof (remove_perm Z.eqb Z.eqb_eq h (s_disk s) d Hkd Hg) as Hp.
    pose proof (wf_paths _ _ Hw) as Hn. unfold refs in Hn. rewrite map_app in Hn.
    pose proof (Permutation_map d_path (Permutation_map snd Hp)) as Hp2. cbn [map snd] in Hp2.
    keep Hi. intros c f Hc Hf.
    assert (Hin : In c (refs s)).
    { unfold refs in *. fields. rewrite in_app_iff in *. destruct Hc as [Hc|Hc]; [left|right; exact Hc].
      apply in_map_iff in Hc. destruct Hc as [e [<- Hc]]. apply in_map. apply (in_remove Z.eqb h). exact Hc. }
    assert (Hne : d_path c <> d_path d).
    { rewrite (Permutation_app_tail _ Hp2) in Hn. cbn [app] in Hn. apply NoDup_cons_iff in Hn.
      destruct Hn as [Hn _]. intros E. apply Hn. rewrite <- E. rewrite <- map_app.
      apply in_map. exact Hc. }
    rewrite (get_remove_other path_eqb path_eqb_eq) in Hf by exact Hne.
    apply (io_refs0 c f Hin Hf).
  Qed.

  Lemma reserve_ids s m s1 ok :
    wf s -> below s -> collision_free hash (received s) -> distinct_times (received s) ->
    ids_ok s -> reserve true m s = Some (s1, ok) -> ids_ok s1.
  Proof.
    intros Hw Hb Hc Ht Hi H. unfold Pipeline.reserve in H.
    destruct (memory_size capacity m <=? uncompressed (s_pool s)); [injection H as <- <-; keep Hi|].
    destruct (s_uncompressed s) as [|x l] eqn:Eu; [|discriminate H].
    destruct (take_buffer s) as [[b s2]|] eqn:E; [|injection H as <- <-; exact Hi].
    injection H as <- <-. unfold take_buffer in E.
    destruct (s_memory s) as [|[h b'] rest] eqn:Em; [discriminate E|]. injection E as -> <-.
    apply spill_ids.
    - keep Hi. intros k c Hk. apply (io_memory0 k c). rewrite Em. right. exact Hk.
    - apply (io_memory _ Hi h b). rewrite Em. left. reflexivity.
    - intros d Hd. apply (fresh_path hash sort Hsort s b d); try assumption.
      left. exists h. rewrite Em. left. reflexivity.
  Qed.

  Lemma step_ids e s s' :
    wf s -> below s -> collision_free hash (received s) -> distinct_times (received s) ->
    undisturbed e s -> spills_written e -> ids_ok s -> step e s = Next s' -> ids_ok s'.
  Proof.
    intros Hw Hb Hc Ht [Hu1 [Hu2 Hu3]] Hsp Hi H. destruct e; cbn [Pipeline.step] in H.
    - destruct (s_client s) eqn:Ec; try discriminate H.
      destruct (0 <=? size); [|discriminate H]. injection H as <-. keep Hi. intros b [].
    - destruct (s_client s) eqn:Ec; try discriminate H.
      destruct (b_size b <=? ingested (s_pool s)); [|discriminate H]. injection H as <-. keep Hi. intros c [].
    - destruct (s_client s) eqn:Ec; try discriminate H. injection H as <-. keep Hi. intros c [].
    - destruct (s_client s) eqn:Ec; try discriminate H. injection H as <-. keep Hi. intros c [].
    - destruct (s_client s) eqn:Ec; try discriminate H; destruct (s_results s); try discriminate H.
      + injection H as <-. keep Hi. intros c [].
      + destruct (is_finished s); [|discriminate H]. injection H as <-. keep Hi. intros c [].
    - destruct (s_client s) eqn:Ec; try discriminate H.
      destruct (0 <=? ingested (s_limits s) + change); [|discriminate H]. injection H as <-. keep Hi.
    - destruct (s_client s) eqn:Ec; try discriminate H.
      destruct (0 <=? uncompressed (s_limits s) + change); [|discriminate H]. injection H as <-. keep Hi. intros c [].
    - destruct (s_client s) eqn:Ec; try discriminate H.
      destruct (0 <=? compressed (s_limits s) + change); [|discriminate H]. injection H as <-. keep Hi. intros c [].
    - destruct (s_client s) eqn:Ec; try discriminate H.
      + destruct (uncompressed (s_pool s) <? 0).
        * destruct (take_buffer s) as [[b s1]|] eqn:E.
          -- injection H as <-. unfold take_buffer in E.
             destruct (s_memory s) as [|[h b'] rest] eqn:Em; [discriminate E|]. injection E as -> <-.
             keep Hi.
             ++ intros k c Hk. apply (io_memory0 k c). rewrite Em. right. exact Hk.
             ++ intros c [<-|[]]. apply (io_memory0 h b). rewrite Em. left. reflexivity.
          -- injection H as <-. keep Hi. intros c [].
        * injection H as <-. keep Hi. intros c [].
      + injection H as <-.
        change (with_client (Lowering change) (spill b s)) with (spill b (with_client (Lowering change) s)).
        apply spill_ids.
        * keep Hi. intros c [].
        * apply (io_hand _ Hi). rewrite Ec. left. reflexivity.
        * intros d Hd. apply (fresh_path hash sort Hsort s b d); try assumption.
          right. rewrite Ec. left. reflexivity.
      + destruct (compressed (s_pool s) <? 0).
        * destruct (pop_buffer s) as [[[t b] s1]|] eqn:E; [|discriminate H]. injection H as <-.
          destruct (pop_ids s t b s1 Hi E) as [Hi1 Hx]. keep Hi1. intros c [].
        * injection H as <-. keep Hi. intros c [].
      + injection H as <-.
        change (with_client (Freeing change) (save table b s))
          with (save table b (with_client (Freeing change) s)).
        apply save_ids; [keep Hi; intros c []|]. apply (io_saving _ Hi change table b Ec).
    - destruct (s_client s) as [| | | | | | | | |l] eqn:Ec; try discriminate H. destruct l as [|b l].
      + injection H as <-. keep Hi. intros c [].
      + destruct (b_size b <=? ingested (s_pool s)); [|discriminate H]. injection H as <-. keep Hi. intros c [].
    - destruct (s_ingestion s) eqn:Ei; try discriminate H.
      destruct (s_ingested s) as [|m rest] eqn:Em; [discriminate H|].
      assert (Hnew : forall m, message_refs m = [] -> (forall b, m <> Data (InMemory b)) ->
        ids_ok (with_uncompressed (s_uncompressed (finish_all (with_ingested rest s)) ++ [m])
                 (finish_all (with_ingested rest s)))).
      { intros m' H1 H2.
        assert (Hi1 : ids_ok (finish_all (with_ingested rest s))) by (apply finish_ids; keep Hi).
        revert Hi1. generalize (finish_all (with_ingested rest s)). intros s1 Hi1. keep Hi1.
        - intros d f Hd. apply io_refs0. unfold refs in *. fields. rewrite flat_map_app in Hd.
          cbn [flat_map] in Hd. rewrite H1 in Hd. rewrite !app_nil_r in Hd. exact Hd.
        - intros b Hin. apply in_app_iff in Hin. destruct Hin as [Hin|[Hin|[]]]; [apply io_channel0; exact Hin|].
          contradiction (H2 b). }
      destruct m as [b| |]; injection H as <-.
      + keep Hi.
      + apply (Hnew Flush); [reflexivity|discriminate].
      + pose proof (Hnew Stop eq_refl ltac:(discriminate)) as Hi1. keep Hi1.
    - destruct (s_ingestion s) as [|b l w| | |] eqn:Ei; try discriminate H.
      destruct l as [|r l]; [discriminate H|]. destruct w; [discriminate H|].
      destruct spilled; [|contradiction Hsp; reflexivity].
      unfold insert_data_point in H. cbv zeta in H.
      set (h := tag_hash (t_name (b_meta b)) (r_tags r)) in *.
      destruct (get Z.eqb h (s_memory s)) as [buffer|] eqn:Eg.
      { injection H as <-. apply inserted_ids; [exact Hi|].
        apply exact_add. apply (io_memory _ Hi h). apply (get_in Z.eqb Z.eqb_eq). exact Eg. }
      destruct (Pipeline.reserve capacity sort true (b_meta b) s) as [[s1 ok]|] eqn:Er.
      2:{ injection H as <-. keep Hi. }
      pose proof (reserve_ids s (b_meta b) s1 ok Hw Hb Hc Ht Hi Er) as Hi1.
      destruct (reserve_ok hash capacity sort Hsort s (b_meta b) s1 ok b (r :: l) Hw Hb Hc Ht Ei Er)
        as [Hw1 _].
      destruct ok; [|injection H as <-; keep Hi1].
      destruct (get Z.eqb h (s_disk s1)) as [d|] eqn:Ed.
      + destruct (get path_eqb (d_path d) (s_files s1)) as [f|] eqn:Ef; [|injection H as <-; keep Hi1].
        injection H as <-. apply inserted_ids; [apply load_ids; assumption|].
        apply exact_add. cbn [loaded m_ids m_points]. apply (io_refs _ Hi1); [|exact Ef].
        apply in_app_iff. left. apply in_map_iff. exists (h, d). split; [reflexivity|].
        apply (get_in Z.eqb Z.eqb_eq). exact Ed.
      + injection H as <-. apply inserted_ids; [exact Hi1|].
        cbn [add_point new_buffer m_ids m_points app]. apply exact_new.
    - destruct (s_ingestion s) as [| |h b rest| |] eqn:Ei; try discriminate H.
      destruct (get Z.eqb h (s_memory s)) as [buffer|] eqn:Eg; [|discriminate H]. injection H as <-.
      keep Hi.
      + intros k c Hk. apply (io_memory0 k c). apply (in_remove Z.eqb h). exact Hk.
      + intros d f Hd. apply io_refs0. unfold refs in *. fields. rewrite flat_map_app in Hd.
        cbn [flat_map message_refs] in Hd. rewrite !app_nil_r in Hd. exact Hd.
      + intros c Hin. apply in_app_iff in Hin. destruct Hin as [Hin|[Hin|[]]]; [apply io_channel0; exact Hin|].
        injection Hin as <-. apply (io_memory0 h). apply (get_in Z.eqb Z.eqb_eq). exact Eg.
    - destruct (s_ingestion s) as [|b l w| | |] eqn:Ei; try discriminate H.
      destruct l; [|discriminate H]. injection H as <-.
      pose proof (finish_ids (fun u => is_unused u (s_index s)) (fun u => is_unused u (s_index s)) s Hi) as Hi1.
      keep Hi1.
    - destruct (s_compressor s) eqn:Ek; try discriminate H.
      destruct (s_uncompressed s) as [|m rest] eqn:Eu; [discriminate H|].
      assert (Hsub : forall d, In d (refs (with_uncompressed rest s)) -> In d (refs s)).
      { intros d Hd. unfold refs in *. fields. rewrite Eu. cbn [flat_map].
        rewrite !in_app_iff in *. tauto. }
      assert (Hi0 : ids_ok (with_uncompressed rest s)).
      { keep Hi.
        - intros d f Hd. apply io_refs0. apply Hsub. exact Hd.
        - intros b Hin. apply io_channel0. rewrite Eu. right. exact Hin. }
      destruct m as [[b|d]| |].
      + injection H as <-. keep Hi0. intros n m tags points ids E. injection E as <- <- <- <- <-.
        apply (exact_perm _ (m_points b)); [symmetry; apply Hsort|].
        apply (io_channel _ Hi). rewrite Eu. left. reflexivity.
      + assert (Hdr : In d (refs s)).
        { apply in_refs_channel. rewrite Eu. left. reflexivity. }
        destruct (get path_eqb (d_path d) (s_files s)) as [f|] eqn:Ef.
        * injection H as <-. keep Hi0.
          -- intros c x Hc0 Hx. apply io_refs0; [exact Hc0|].
             destruct (path_eqb (d_path c) (d_path d)) eqn:E.
             ++ exfalso. apply path_eqb_eq in E.
                pose proof (wf_paths _ _ Hw) as Hn. unfold refs in Hn. rewrite Eu, map_app in Hn.
                cbn [flat_map message_refs app map] in Hn. apply NoDup_remove_2 in Hn. apply Hn.
                rewrite <- map_app, <- E. apply in_map. exact Hc0.
             ++ rewrite (get_remove_other path_eqb path_eqb_eq) in Hx; [exact Hx|].
                intros C. apply path_eqb_eq in C. congruence.
          -- intros n m tags points ids E. injection E as <- <- <- <- <-.
             apply (io_refs _ Hi d f Hdr Ef).
        * injection H as <-. keep Hi0.
      + injection H as <-. keep Hi0. intros g Hg. apply in_app_iff in Hg.
        destruct Hg as [Hg|[Hg|[]]]; [apply io_segments0; exact Hg|discriminate Hg].
      + injection H as <-. keep Hi0. intros g Hg. apply in_app_iff in Hg.
        destruct Hg as [Hg|[Hg|[]]]; [apply io_segments0; exact Hg|discriminate Hg].
    - destruct (s_compressor s) as [|mem m tags points ids| |] eqn:Ek; try discriminate H.
      destruct (Nat.eqb (List.length sizes) (t_fields m) && forallb (Z.leb 0) sizes); [|discriminate H].
      injection H as <-. keep Hi. intros g Hg. apply in_app_iff in Hg.
      destruct Hg as [Hg|[Hg|[]]]; [apply io_segments0; exact Hg|]. injection Hg as <-.
      cbn [g_ids g_points]. apply (io_busy0 mem m tags points ids Ek).
    - destruct (s_writer s) eqn:Ew; try discriminate H.
      destruct (s_compressed s) as [|m rest] eqn:Em; [discriminate H|].
      assert (Hsub : forall g, In (Data g) rest -> In (Data g) (s_compressed s)).
      { intros g Hg. rewrite Em. right. exact Hg. }
      destruct m as [g| |].
      + assert (Hg : exact (g_ids g) (g_points g)).
        { apply (io_segments _ Hi). rewrite Em. left. reflexivity. }
        fields. destruct (get String.eqb (t_name (g_meta g)) (s_buffers s)) as [b|] eqn:Eg; injection H as <-.
        * keep Hi.
          -- intros x Hx. apply io_segments0. apply Hsub. exact Hx.
          -- intros t c Hin. apply (in_put String.eqb) in Hin. destruct Hin as [[-> ->]|Hin].
             ++ apply exact_append; [reflexivity|exact Hg|]. apply io_buffers0.
                apply (get_in String.eqb String.eqb_eq). exact Eg.
             ++ apply io_buffers0. exact Hin.
        * keep Hi.
          -- intros x Hx. apply io_segments0. apply Hsub. exact Hx.
          -- intros t c Hin. apply (in_put String.eqb) in Hin. destruct Hin as [[-> ->]|Hin].
             ++ apply exact_append; [reflexivity|exact Hg|]. apply exact_empty.
             ++ apply io_buffers0. exact Hin.
      + injection H as <-. keep Hi. intros x Hx. apply io_segments0. apply Hsub. exact Hx.
      + injection H as <-. keep Hi. intros x Hx. apply io_segments0. apply Hsub. exact Hx.
    - destruct (s_writer s) as [|t| | |] eqn:Ew; try discriminate H.
      assert (Hpop : forall t t' b s1, pop_buffer s = Some (t', b, s1) ->
        ids_ok (with_writer (Committing t' b t) s1)).
      { intros t0 t' b s1 E. destruct (pop_ids s t' b s1 Hi E) as [Hi1 Hx]. keep Hi1. }
      destruct t as [size| |].
      + destruct (size <=? compressed (s_pool s)); [injection H as <-; keep Hi|].
        destruct (pop_buffer s) as [[[t' b] s1]|] eqn:E; [|discriminate H]. injection H as <-.
        apply Hpop. reflexivity.
      + destruct (s_queue s); [injection H as <-; keep Hi|].
        destruct (pop_buffer s) as [[[t' b] s1]|] eqn:E; [|discriminate H]. injection H as <-.
        apply Hpop. reflexivity.
      + destruct (s_queue s); [injection H as <-; keep Hi|].
        destruct (pop_buffer s) as [[[t' b] s1]|] eqn:E; [|discriminate H]. injection H as <-.
        apply Hpop. reflexivity.
    - destruct (s_writer s) as [| |table b t| |] eqn:Ew; try discriminate H.
      destruct written.
      + injection H as <-. pose proof (save_ids table b s Hi (io_writer _ Hi table b t Ew)) as Hi1. keep Hi1.
      + destruct t; injection H as <-; keep Hi.
    - injection H as <-. unfold start. destruct Hi. constructor; fields; try (intros; contradiction);
        try (intros; discriminate); try assumption.
    - injection H as <-. keep Hi. intros h b Hin. apply (io_memory0 h b).
      apply (Permutation_in _ (to_front_perm n (s_memory s)) Hin).
    - injection H as <-. keep Hi. intros d f Hd. apply io_refs0. unfold refs in *. fields.
      rewrite in_app_iff in *. destruct Hd as [Hd|Hd]; [left|right; exact Hd].
      apply (Permutation_in d (Permutation_map snd (to_front_perm n (s_disk s))) Hd).
  Qed.
End Ids.
