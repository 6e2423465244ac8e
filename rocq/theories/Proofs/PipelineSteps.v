(** The steps of the pipeline of Model/Pipeline.v lose nothing and duplicate nothing. *)
From Coq Require Import ZArith List Bool String Permutation Sorted Lia.
From Verif Require Import Model.Pipeline Spec.PipelineSpec Proofs.PipelineMaps Proofs.PipelineInvariant.
Import ListNotations.
Open Scope Z_scope.

(** Reduce projections of updated states. *)
Ltac fields :=
  cbn [s_client s_ingestion s_compressor s_writer s_ingested s_uncompressed s_compressed s_results
       s_index s_memory s_disk s_files s_buffers s_queue s_pool s_limits s_log s_table
       with_client with_ingestion with_compressor with_writer with_ingested with_uncompressed
       with_compressed with_results with_index with_memory with_disk with_files with_buffers
       with_queue with_pool with_limits with_log with_table release_uncompressed
       add_ingested add_uncompressed add_compressed ingested uncompressed compressed] in *.

Lemma NoDup_app_iff {A} (l k : list A) :
  NoDup (l ++ k) <-> NoDup l /\ NoDup k /\ (forall a, In a l -> ~ In a k).
Proof.
  induction l as [|a l IH]; cbn [app].
  - split; [intros H; split; [constructor|split; [exact H|intros a []]]|intros [_ [H _]]; exact H].
  - rewrite !NoDup_cons_iff, IH, in_app_iff. split.
    + intros [Ha [Hl [Hk H]]]. split; [split; [tauto|exact Hl]|]. split; [exact Hk|].
      intros b [<-|Hb]; [tauto|apply H; exact Hb].
    + intros [[Ha Hl] [Hk H]]. split; [|split; [exact Hl|split; [exact Hk|]]].
      * intros [H2|H2]; [contradiction|]. apply (H a); [left; reflexivity|exact H2].
      * intros b Hb. apply H. right. exact Hb.
Qed.

Lemma held_wake i : held_by_ingestion (wake i) = held_by_ingestion i.
Proof. destruct i; reflexivity. Qed.

Lemma wake_full i h b rest : wake i = Full h b rest <-> i = Full h b rest.
Proof. destruct i; cbn [wake]; split; intros H; try discriminate H; exact H. Qed.

Section Steps.
  Variable hash : string -> Z.
  Variable capacity : nat.
  Variable sort : list point -> list point.
  Variable logging : bool.
  Hypothesis Hsort : sorts_points sort.

  Notation tag_hash := (tag_hash hash).
  Notation step := (step hash capacity sort logging).
  Notation spill := (spill capacity sort).
  Notation spilled := (spilled sort).
  Notation spilled_path := (spilled_path sort).
  Notation spilled_file := (spilled_file sort).
  Notation reserve := (reserve capacity sort).
  Notation wf := (wf hash).
  Notation memory_ok := (memory_ok hash).
  Notation disk_ok := (disk_ok hash).

  Lemma disk_items_put files p f d :
    d_path d <> p -> disk_items (put path_eqb p f files) d = disk_items files d.
  Proof.
    intros H. unfold disk_items. rewrite (get_put_other path_eqb path_eqb_eq); [reflexivity|exact H].
  Qed.

  Lemma disk_items_remove files p d :
    d_path d <> p -> disk_items (remove path_eqb p files) d = disk_items files d.
  Proof.
    intros H. unfold disk_items. rewrite (get_remove_other path_eqb path_eqb_eq); [reflexivity|exact H].
  Qed.

  Lemma disk_ok_put files p f d :
    d_path d <> p -> disk_ok files d -> disk_ok (put path_eqb p f files) d.
  Proof.
    intros H [g [q [qs [Hg Hr]]]]. exists g, q, qs.
    rewrite (get_put_other path_eqb path_eqb_eq); [split; assumption|exact H].
  Qed.

  Lemma disk_ok_remove files p d :
    d_path d <> p -> disk_ok files d -> disk_ok (remove path_eqb p files) d.
  Proof.
    intros H [g [q [qs [Hg Hr]]]]. exists g, q, qs.
    rewrite (get_remove_other path_eqb path_eqb_eq); [split; assumption|exact H].
  Qed.

  (** The contents of on-disk buffers are the same in other files if those of all paths are. *)
  Lemma sum_disk_ext v f1 f2 (m : list (Z * disk_buffer)) :
    (forall d, In d (map snd m) -> disk_items f1 d = disk_items f2 d) ->
    sum (fun e => sum v (disk_items f1 (snd e))) m = sum (fun e => sum v (disk_items f2 (snd e))) m.
  Proof.
    intros H. apply sum_ext_in. intros e He. rewrite H; [reflexivity|]. apply in_map. exact He.
  Qed.

  Lemma sum_channel_ext v f1 f2 c :
    (forall d, In d (flat_map message_refs c) -> disk_items f1 d = disk_items f2 d) ->
    sum (in_message (fun u => sum v (uncompressed_items f1 u))) c
    = sum (in_message (fun u => sum v (uncompressed_items f2 u))) c.
  Proof.
    intros H. apply sum_ext_in. intros [[b|d]| |] Hm; cbn [in_message uncompressed_items]; try reflexivity.
    rewrite H; [reflexivity|]. apply in_flat_map. exists (Data (OnDisk d)).
    split; [exact Hm|left; reflexivity].
  Qed.

  Lemma in_refs_disk s d : In d (map snd (s_disk s)) -> In d (refs s).
  Proof. intros H. apply in_app_iff. left. exact H. Qed.
  Lemma in_refs_channel s d : In d (flat_map message_refs (s_uncompressed s)) -> In d (refs s).
  Proof. intros H. apply in_app_iff. right. exact H. Qed.

  Lemma memory_items_spilled v b : sum v (items (m_meta b) (m_tags b) (f_points (spilled_file b)))
    = sum v (memory_items b).
  Proof. apply sum_items_perm. apply Hsort. Qed.

  Lemma spill_ok s b :
    wf s -> memory_ok (m_hash b) b ->
    ~ In (m_hash b) (map fst (s_memory s) ++ map fst (s_disk s) ++ map m_hash (hand (s_client s))) ->
    (forall d, In d (refs s) -> d_path d <> spilled_path b) ->
    wf (spill b s) /\ forall v, amount v (spill b s) = amount v s + sum v (memory_items b).
  Proof.
    intros Hw Hb Hk Hp. rewrite !in_app_iff in Hk.
    assert (Hd : get Z.eqb (m_hash b) (s_disk s) = None).
    { apply (get_none Z.eqb Z.eqb_eq). tauto. }
    pose proof (put_none Z.eqb _ _ (spilled b) Hd) as Eput.
    assert (Hrefs : Permutation (refs (spill b s)) (spilled b :: refs s)).
    { unfold refs, Pipeline.spill. fields. rewrite Eput, map_app. cbn [map snd].
      rewrite <- app_assoc. symmetry. apply Permutation_middle. }
    destruct Hb as [_ [Hh Hne]].
    destruct (sort_head sort Hsort b Hne) as [p [ps [Hf [Hin Hpath]]]].
    split.
    - constructor; unfold Pipeline.spill; fields.
      + rewrite Eput, map_app. cbn [map fst]. pose proof (wf_keys _ _ Hw) as H.
        rewrite !NoDup_app_iff in *. cbn [In]. destruct H as [H1 [[H2 [H3 H4]] H5]].
        split; [exact H1|]. split.
        * split; [|split; [exact H3|]].
          -- split; [exact H2|]. split; [constructor; [intros []|constructor]|].
             intros a Ha [<-|[]]. tauto.
          -- intros a Ha. rewrite in_app_iff in Ha. cbn [In] in Ha.
             destruct Ha as [Ha|[<-|[]]]; [apply H4; exact Ha|tauto].
        * intros a Ha H. rewrite !in_app_iff in H. cbn [In] in H.
          destruct H as [[H|[<-|[]]]|H]; [|tauto|];
            apply (H5 a Ha); rewrite in_app_iff; tauto.
      + apply (wf_memory _ _ Hw).
      + apply (wf_hand _ _ Hw).
      + intros h d H. rewrite Eput, in_app_iff in H. cbn [In] in H. destruct H as [H|[H|[]]].
        * apply (wf_disk _ _ Hw h d H).
        * injection H as <- <-. reflexivity.
      + intros d H. change (refs _) with (refs (spill b s)) in H.
        apply (Permutation_in d Hrefs) in H. destruct H as [<-|H].
        * exists (spilled_file b), p, ps.
          cbn [Pipeline.spilled d_path d_hash d_meta Pipeline.spilled_file f_tags].
          rewrite (get_put path_eqb path_eqb_eq). repeat split; assumption.
        * apply disk_ok_put; [apply Hp; exact H|apply (wf_refs _ _ Hw d H)].
      + change (NoDup (map d_path (refs (spill b s)))).
        apply (Permutation_NoDup (Permutation_sym (Permutation_map d_path Hrefs))).
        cbn [map]. constructor; [|apply (wf_paths _ _ Hw)].
        intros H. apply in_map_iff in H. destruct H as [d [E H]]. apply (Hp d H).
        rewrite E. reflexivity.
      + intros h c rest H. rewrite wake_full in H. apply (wf_full _ _ Hw h c rest H).
      + intros H h c rest E. rewrite wake_full in E. apply (wf_lowering _ _ Hw H h c rest E).
      + apply (wf_buffers _ _ Hw).
      + apply (wf_queue _ _ Hw).
    - intros v. rewrite !amount_eq. unfold Pipeline.spill. fields. rewrite held_wake, Eput, sum_app.
      cbn [sum snd].
      rewrite (sum_disk_ext v _ (s_files s)), (sum_channel_ext v _ (s_files s)).
      + replace (sum v (disk_items (put path_eqb (spilled_path b) (spilled_file b) (s_files s)) (spilled b)))
          with (sum v (memory_items b)); [lia|].
        unfold disk_items. cbn [Pipeline.spilled d_path]. rewrite (get_put path_eqb path_eqb_eq).
        cbn [Pipeline.spilled_file f_tags f_points d_meta Pipeline.spilled].
        rewrite <- memory_items_spilled. reflexivity.
      + intros d Hd2. apply disk_items_put. apply Hp. apply in_refs_channel. exact Hd2.
      + intros d Hd2. apply disk_items_put. apply Hp. apply in_refs_disk. exact Hd2.
  Qed.

  Lemma take_ok s b s1 :
    wf s -> is_lowering (s_client s) \/ (forall h c rest, s_ingestion s <> Full h c rest) ->
    take_buffer s = Some (b, s1) ->
    wf s1 /\ owned b s /\ refs s1 = refs s
    /\ ~ In (m_hash b) (map fst (s_memory s1) ++ map fst (s_disk s1) ++ map m_hash (hand (s_client s1)))
    /\ forall v, amount v s = amount v s1 + sum v (memory_items b).
  Proof.
    intros Hw Hfull H. unfold take_buffer in H.
    destruct (s_memory s) as [|[h b'] rest] eqn:E; [discriminate H|]. injection H as -> <-.
    assert (Hh : m_hash b = h).
    { apply (wf_memory _ _ Hw h b). rewrite E. left. reflexivity. }
    assert (Hnf : forall h c rest, s_ingestion s <> Full h c rest).
    { destruct Hfull as [Hl|Hl]; [apply (wf_lowering _ _ Hw Hl)|exact Hl]. }
    pose proof (wf_keys _ _ Hw) as Hk. rewrite E in Hk. cbn [map fst app] in Hk.
    apply NoDup_cons_iff in Hk. destruct Hk as [Hk1 Hk2].
    split; [|split; [|split; [|split]]].
    - constructor; fields.
      + exact Hk2.
      + intros h' c H. apply (wf_memory _ _ Hw). rewrite E. right. exact H.
      + apply (wf_hand _ _ Hw).
      + apply (wf_disk _ _ Hw).
      + apply (wf_refs _ _ Hw).
      + apply (wf_paths _ _ Hw).
      + intros h' c r H. exfalso. apply (Hnf h' c r H).
      + intros _. exact Hnf.
      + apply (wf_buffers _ _ Hw).
      + apply (wf_queue _ _ Hw).
    - left. exists h. rewrite E. left. reflexivity.
    - reflexivity.
    - fields. rewrite Hh. exact Hk1.
    - intros v. rewrite !amount_eq. fields. rewrite E. cbn [sum snd]. lia.
  Qed.

  Definition quiet (s : state) : Prop := ~ is_lowering (s_client s).

  Lemma reserve_ok s m s1 ok b l :
    wf s -> below s -> collision_free hash (received s) -> distinct_times (received s) ->
    s_ingestion s = Points b l false ->
    reserve true m s = Some (s1, ok) ->
    wf s1 /\ (forall v, amount v s1 = amount v s)
    /\ s_client s1 = s_client s /\ s_ingestion s1 = s_ingestion s /\ s_log s1 = s_log s
    /\ (forall k, In k (map fst (s_memory s1)) -> In k (map fst (s_memory s))).
  Proof.
    intros Hw Hb Hc Ht Hi H. unfold Pipeline.reserve in H.
    destruct (memory_size capacity m <=? uncompressed (s_pool s)).
    - injection H as <- <-. split; [|split; [|split; [|split; [|split]]]]; fields; try reflexivity.
      + destruct Hw. constructor; assumption.
      + intros k Hk. exact Hk.
    - destruct (s_uncompressed s); [|discriminate H].
      destruct (take_buffer s) as [[b' s']|] eqn:E.
      + injection H as <- <-.
        destruct (take_ok s b' s' Hw) as [Hw1 [Ho [Hr [Hk Ha]]]]; [|exact E|].
        { right. intros h c rest. rewrite Hi. discriminate. }
        destruct (spill_ok s' b' Hw1) as [Hw2 Ha2].
        { apply (owned_ok hash s b' Hw Ho). }
        { exact Hk. }
        { intros d Hd. rewrite Hr in Hd. apply (fresh_path hash sort Hsort s b' d); assumption. }
        split; [exact Hw2|]. split; [intros v; rewrite Ha2, Ha; reflexivity|].
        unfold take_buffer in E. destruct (s_memory s) as [|[h c] rest] eqn:Em; [discriminate E|].
        injection E as -> <-.
        split; [reflexivity|]. split; [unfold Pipeline.spill; fields; rewrite Hi; reflexivity|].
        split; [reflexivity|].
        intros k Hk2. right. exact Hk2.
      + injection H as <- <-. split; [exact Hw|]. split; [reflexivity|]. split; [reflexivity|].
        split; [reflexivity|]. split; [reflexivity|]. intros k Hk. exact Hk.
  Qed.

  Definition row_item (b : batch) (r : row) : item :=
    {| i_meta := b_meta b; i_tags := r_tags r;
       i_point := {| p_time := r_time r; p_values := r_values r; p_source := b_id b |} |}.

  Lemma row_live s b r rest w : s_ingestion s = Points b (r :: rest) w -> In (row_item b r) (live s).
  Proof.
    intros H. unfold live. rewrite !in_app_iff. right. right. left. rewrite H.
    cbn [held_by_ingestion row_items map In]. left. reflexivity.
  Qed.

  Lemma held_full h full b rest :
    held_by_ingestion (if full : bool then Full h b rest else Points b rest false)
    = row_items (b_meta b) (b_id b) rest.
  Proof. destruct full; reflexivity. Qed.

  Lemma add_point_items v index r b buffer :
    m_meta buffer = b_meta b -> m_tags buffer = r_tags r ->
    sum v (memory_items (add_point index r (b_id b) buffer))
    = sum v (memory_items buffer) + v (row_item b r).
  Proof.
    intros Hm Ht. unfold memory_items, items. cbn [add_point m_meta m_tags m_points].
    rewrite map_app, sum_app. cbn [map sum]. rewrite Hm, Ht. unfold row_item. lia.
  Qed.

  Lemma add_point_ok h index r id buffer :
    m_hash buffer = h -> h = tag_hash (t_name (m_meta buffer)) (m_tags buffer) ->
    memory_ok h (add_point index r id buffer).
  Proof.
    intros H1 H2. split; [exact H1|]. split; [exact H2|]. cbn [add_point m_points].
    intros H. apply app_eq_nil in H. destruct H as [_ H]. discriminate H.
  Qed.

  (** The first data point of a buffer is held. *)
  Lemma buffer_live s b : wf s -> owned b s ->
    exists p, In {| i_meta := m_meta b; i_tags := m_tags b; i_point := p |} (live s).
  Proof.
    intros Hw Ho. destruct (owned_ok hash s b Hw Ho) as [_ [_ Hne]].
    destruct (m_points b) as [|p ps] eqn:E; [contradiction Hne; reflexivity|].
    exists p. apply (owned_live s b _ Ho). unfold memory_items, items. rewrite E. left. reflexivity.
  Qed.

  Lemma insert_found s b r rest full buffer :
    wf s -> below s -> collision_free hash (received s) -> quiet s ->
    s_ingestion s = Points b (r :: rest) false ->
    get Z.eqb (tag_hash (t_name (b_meta b)) (r_tags r)) (s_memory s) = Some buffer ->
    let s' := inserted (tag_hash (t_name (b_meta b)) (r_tags r)) full
                (add_point (s_index s) r (b_id b) buffer) b rest s in
    wf s' /\ forall v, amount v s' = amount v s.
  Proof.
    intros Hw Hb Hc Hq Hi Hg s'.
    set (h := tag_hash (t_name (b_meta b)) (r_tags r)) in *.
    pose proof (get_in Z.eqb Z.eqb_eq _ _ _ Hg) as Hin.
    destruct (wf_memory _ _ Hw h buffer Hin) as [Hh [Hh2 _]].
    assert (Ho : owned buffer s) by (left; exists h; exact Hin).
    destruct (buffer_live s buffer Hw Ho) as [p Hp].
    destruct (same_series hash s _ _ _ _ _ _ Hb Hc (row_live s b r rest false Hi) Hp Hh2) as [Em Et].
    pose proof (keys_put Z.eqb Z.eqb_eq _ _ (add_point (s_index s) r (b_id b) buffer) _ Hg) as Hkeys.
    split.
    - constructor; subst s'; unfold inserted; fields.
      + rewrite Hkeys. apply (wf_keys _ _ Hw).
      + intros k c H. apply (in_put Z.eqb) in H. destruct H as [[-> ->]|H].
        * apply add_point_ok; assumption.
        * apply (wf_memory _ _ Hw k c H).
      + apply (wf_hand _ _ Hw).
      + apply (wf_disk _ _ Hw).
      + apply (wf_refs _ _ Hw).
      + apply (wf_paths _ _ Hw).
      + intros k c rest' H. destruct full; [|discriminate H]. injection H as <- _ _.
        rewrite Hkeys. apply in_map_iff. exists (h, buffer). split; [reflexivity|exact Hin].
      + intros H. contradiction.
      + apply (wf_buffers _ _ Hw).
      + apply (wf_queue _ _ Hw).
    - intros v. rewrite !amount_eq. subst s'. unfold inserted. fields.
      rewrite held_full, (sum_put Z.eqb Z.eqb_eq _ _ _ buffer _ Hg), Hi. cbn [snd].
      rewrite (add_point_items v _ r b) by (symmetry; assumption).
      cbn [held_by_ingestion row_items map sum]. fold (row_item b r). unfold row_items. lia.
  Qed.

  Lemma insert_absent s b r rest full buffer :
    wf s -> quiet s ->
    s_ingestion s = Points b (r :: rest) false ->
    let h := tag_hash (t_name (b_meta b)) (r_tags r) in
    ~ In h (map fst (s_memory s)) -> ~ In h (map fst (s_disk s)) -> memory_ok h buffer ->
    let s' := inserted h full buffer b rest s in
    wf s' /\ forall v, amount v s' = amount v s - v (row_item b r) + sum v (memory_items buffer).
  Proof.
    intros Hw Hq Hi h Hm Hd Hok s'.
    assert (Hg : get Z.eqb h (s_memory s) = None) by (apply (get_none Z.eqb Z.eqb_eq); exact Hm).
    pose proof (put_none Z.eqb _ _ buffer Hg) as Eput.
    assert (Hhand : hand (s_client s) = []).
    { unfold quiet in Hq. destruct (s_client s); try reflexivity. contradiction Hq. exact I. }
    split.
    - constructor; subst s'; unfold inserted; fields.
      + rewrite Eput, map_app, Hhand. cbn [map fst]. pose proof (wf_keys _ _ Hw) as H.
        rewrite Hhand in H. cbn [map] in *. rewrite app_nil_r in *.
        rewrite !NoDup_app_iff in *. destruct H as [H1 [H2 H3]].
        split; [|split; [exact H2|]].
        * split; [exact H1|]. split; [constructor; [intros []|constructor]|].
          intros a Ha [<-|[]]. contradiction.
        * intros a Ha. rewrite in_app_iff in Ha. cbn [In] in Ha.
          destruct Ha as [Ha|[<-|[]]]; [apply H3; exact Ha|exact Hd].
      + intros k c H. rewrite Eput, in_app_iff in H. cbn [In] in H. destruct H as [H|[H|[]]].
        * apply (wf_memory _ _ Hw k c H).
        * injection H as <- <-. exact Hok.
      + apply (wf_hand _ _ Hw).
      + apply (wf_disk _ _ Hw).
      + apply (wf_refs _ _ Hw).
      + apply (wf_paths _ _ Hw).
      + intros k c rest' H. destruct full; [|discriminate H]. injection H as <- _ _.
        rewrite Eput, map_app, in_app_iff. right. left. reflexivity.
      + intros H. contradiction.
      + apply (wf_buffers _ _ Hw).
      + apply (wf_queue _ _ Hw).
    - intros v. rewrite !amount_eq. subst s'. unfold inserted. fields.
      rewrite held_full, Eput, sum_app, Hi. cbn [snd sum held_by_ingestion row_items map].
      fold (row_item b r). unfold row_items. lia.
  Qed.

  Lemma load_ok s h d f :
    wf s -> get Z.eqb h (s_disk s) = Some d -> get path_eqb (d_path d) (s_files s) = Some f ->
    let s' := with_disk (remove Z.eqb h (s_disk s))
                (with_files (remove path_eqb (d_path d) (s_files s)) s) in
    wf s' /\ ~ In h (map fst (s_disk s'))
    /\ forall v, amount v s = amount v s' + sum v (items (d_meta d) (f_tags f) (f_points f)).
  Proof.
    intros Hw Hg Hf s'.
    pose proof (wf_keys _ _ Hw) as Hk.
    assert (Hkd : NoDup (map fst (s_disk s))).
    { rewrite !NoDup_app_iff in Hk. tauto. }
    pose proof (remove_perm Z.eqb Z.eqb_eq h (s_disk s) d Hkd Hg) as Hp.
    assert (Hrefs : Permutation (refs s) (d :: refs s')).
    { unfold refs. subst s'. fields. rewrite Hp at 1. reflexivity. }
    pose proof (Permutation_NoDup (Permutation_map d_path Hrefs) (wf_paths _ _ Hw)) as Hnd.
    cbn [map] in Hnd. apply NoDup_cons_iff in Hnd. destruct Hnd as [Hnd1 Hnd2].
    assert (Hother : forall c, In c (refs s') -> d_path c <> d_path d).
    { intros c Hcr E. apply Hnd1. rewrite <- E. apply in_map. exact Hcr. }
    pose proof (Permutation_NoDup (Permutation_map fst Hp) Hkd) as Hkd2.
    cbn [map fst] in Hkd2. apply NoDup_cons_iff in Hkd2. destruct Hkd2 as [Hh Hkd2].
    split; [|split].
    - constructor; subst s'; fields.
      + rewrite !NoDup_app_iff in *. destruct Hk as [H1 [[H2 [H3 H4]] H5]].
        split; [exact H1|]. split; [split; [exact Hkd2|split; [exact H3|]]|].
        * intros a Ha. apply H4. apply (Permutation_in a (Permutation_sym (Permutation_map fst Hp))).
          right. exact Ha.
        * intros a Ha Hin. apply (H5 a Ha). rewrite in_app_iff in *. destruct Hin as [Hin|Hin]; [|tauto].
          left. apply (Permutation_in a (Permutation_sym (Permutation_map fst Hp))). right. exact Hin.
      + apply (wf_memory _ _ Hw).
      + apply (wf_hand _ _ Hw).
      + intros k c H. apply (wf_disk _ _ Hw k c). apply (in_remove Z.eqb h). exact H.
      + intros c Hcr. apply disk_ok_remove; [apply Hother; exact Hcr|].
        apply (wf_refs _ _ Hw). apply (Permutation_in c (Permutation_sym Hrefs)). right. exact Hcr.
      + exact Hnd2.
      + apply (wf_full _ _ Hw).
      + apply (wf_lowering _ _ Hw).
      + apply (wf_buffers _ _ Hw).
      + apply (wf_queue _ _ Hw).
    - exact Hh.
    - intros v. rewrite !amount_eq. subst s'. fields.
      rewrite (sum_perm _ _ _ Hp). cbn [sum snd].
      rewrite (sum_disk_ext v (remove path_eqb (d_path d) (s_files s)) (s_files s)),
        (sum_channel_ext v (remove path_eqb (d_path d) (s_files s)) (s_files s)).
      + unfold disk_items at 1. rewrite Hf. lia.
      + intros c Hcr. apply disk_items_remove. apply Hother. apply in_app_iff. right. exact Hcr.
      + intros c Hcr. apply disk_items_remove. apply Hother. apply in_app_iff. left. exact Hcr.
  Qed.

  (** [amount] decreases by [dropped], which is nothing if no thread fails. *)
  Lemma insert_data_point_ok s b r rest s' :
    wf s -> below s -> collision_free hash (received s) -> distinct_times (received s) -> quiet s ->
    s_ingestion s = Points b (r :: rest) false ->
    insert_data_point hash capacity sort true b r rest s = Next s' ->
    wf s' /\ s_log s' = s_log s
    /\ exists drop, (forall v, amount v s = amount v s' + sum v drop)
                    /\ (s_ingestion s' <> Failed -> drop = []).
  Proof.
    intros Hw Hb Hc Ht Hq Hi H. unfold insert_data_point in H. cbv zeta in H.
    set (h := tag_hash (t_name (b_meta b)) (r_tags r)) in *.
    destruct (get Z.eqb h (s_memory s)) as [buffer|] eqn:Eg.
    { injection H as <-.
      destruct (insert_found s b r rest (is_full capacity (add_point (s_index s) r (b_id b) buffer)) buffer)
        as [H1 H2]; try assumption.
      split; [exact H1|]. split; [reflexivity|]. exists []. split; [|reflexivity].
      intros v. rewrite H2. cbn [sum]. lia. }
    apply (get_none Z.eqb Z.eqb_eq) in Eg.
    destruct (Pipeline.reserve capacity sort true (b_meta b) s) as [[s1 ok]|] eqn:Er.
    2:{ injection H as <-. split; [|split; [reflexivity|]].
      - destruct Hw. constructor; fields; try assumption.
        + intros k c l H. discriminate H.
        + intros _ k c l H. discriminate H.
      - exists []. split; [|reflexivity]. intros v. rewrite !amount_eq. fields. rewrite Hi.
        cbn [held_by_ingestion sum]. lia. }
    destruct (reserve_ok s (b_meta b) s1 ok b (r :: rest) Hw Hb Hc Ht Hi Er)
      as [Hw1 [Ha1 [Hcl [Hi1 [Hl1 Hm1]]]]].
    assert (Hfail : forall s2, wf s2 -> s_ingestion s2 = s_ingestion s1 ->
      wf (with_ingestion Failed s2)
      /\ forall v, amount v s2 = amount v (with_ingestion Failed s2)
             + sum v (row_items (b_meta b) (b_id b) (r :: rest))).
    { intros s2 Hw2 Hi2. split.
      - destruct Hw2. constructor; fields; try assumption.
        + intros k c l H0. discriminate H0.
        + intros _ k c l H0. discriminate H0.
      - intros v. rewrite !amount_eq. fields. rewrite Hi2, Hi1, Hi. cbn [held_by_ingestion sum]. lia. }
    destruct ok.
    2:{ injection H as <-. destruct (Hfail s1 Hw1 eq_refl) as [H1 H2].
      split; [exact H1|]. split; [exact Hl1|]. eexists. split; [intros v; rewrite <- Ha1; apply H2|].
      intros H. contradiction H. reflexivity. }
    assert (Hq1 : quiet s1) by (unfold quiet; rewrite Hcl; exact Hq).
    assert (Hi1' : s_ingestion s1 = Points b (r :: rest) false) by (rewrite Hi1; exact Hi).
    assert (Hm1' : ~ In h (map fst (s_memory s1))) by (intros C; apply Eg; apply Hm1; exact C).
    assert (Hb1 : below s1).
    { intros v Hv. rewrite Ha1. unfold received. rewrite Hl1. apply (Hb v Hv). }
    assert (Hc1 : collision_free hash (received s1)) by (unfold received; rewrite Hl1; exact Hc).
    destruct (get Z.eqb h (s_disk s1)) as [d|] eqn:Ed.
    - destruct (get path_eqb (d_path d) (s_files s1)) as [f|] eqn:Ef.
      + destruct (load_ok s1 h d f Hw1 Ed Ef) as [Hw2 [Hd2 Ha2]].
        set (s2 := with_disk (remove Z.eqb h (s_disk s1))
                (with_files (remove path_eqb (d_path d) (s_files s1)) s1)) in *.
        pose proof (get_in Z.eqb Z.eqb_eq _ _ _ Ed) as Hind.
        assert (Hdr : In d (refs s1)).
        { apply in_refs_disk. apply in_map_iff. exists (h, d). split; [reflexivity|exact Hind]. }
        pose proof (wf_disk _ _ Hw1 h d Hind) as Hdh.
        destruct (wf_refs _ _ Hw1 d Hdr) as [f' [p [ps [Hf' [Hps [Hdh2 _]]]]]].
        assert (f' = f) by congruence. subst f'.
        destruct (same_series hash s1 (b_meta b) (r_tags r) (i_point (row_item b r)) (d_meta d) (f_tags f) p
          Hb1 Hc1 (row_live s1 b r rest false Hi1')) as [Em Et].
        { apply (ref_live s1 d _ Hdr). unfold disk_items. rewrite Ef, Hps. left. reflexivity. }
        { fold h. congruence. }
        set (buffer := add_point (s_index s2) r (b_id b) (loaded (s_index s2) d f)) in *.
        destruct (insert_absent s2 b r rest (is_full capacity buffer) buffer Hw2 Hq1 Hi1' Hm1' Hd2)
          as [Hw3 Ha3].
        { apply add_point_ok; cbn [loaded m_hash m_meta m_tags]; [exact Hdh|]. fold h. congruence. }
        injection H as <-. split; [exact Hw3|]. split; [exact Hl1|].
        exists []. split; [|reflexivity]. intros v.
        change (s_index s1) with (s_index s2). fold buffer. fold h in Ha3.
        rewrite (Ha3 v). subst buffer.
        rewrite (add_point_items v _ r b) by (cbn [loaded m_meta m_tags]; congruence).
        rewrite <- (Ha1 v), (Ha2 v). unfold memory_items. cbn [loaded m_meta m_tags m_points sum]. lia.
      + injection H as <-. destruct (Hfail s1 Hw1 eq_refl) as [H1 H2].
        split; [exact H1|]. split; [exact Hl1|]. eexists. split; [intros v; rewrite <- Ha1; apply H2|].
        intros H. contradiction H. reflexivity.
    - apply (get_none Z.eqb Z.eqb_eq) in Ed.
      set (buffer := add_point (s_index s1) r (b_id b) (new_buffer h (s_index s1) r (b_meta b) (b_id b))) in *.
      destruct (insert_absent s1 b r rest false buffer Hw1 Hq1 Hi1' Hm1' Ed) as [Hw3 Ha3].
      { apply add_point_ok; reflexivity. }
      injection H as <-. split; [exact Hw3|]. split; [exact Hl1|].
      exists []. split; [|reflexivity]. intros v. fold h in Ha3. rewrite (Ha3 v). subst buffer.
      rewrite (add_point_items v _ r b) by reflexivity.
      rewrite <- (Ha1 v). unfold memory_items. cbn [new_buffer m_meta m_tags m_points items map sum]. lia.
  Qed.

  Lemma pop_ok s t b s1 :
    wf s -> pop_buffer s = Some (t, b, s1) ->
    wf s1 /\ (forall v, amount v s = amount v s1 + sum v (buffer_items b))
    /\ s1 = with_queue (tl (s_queue s)) (with_buffers (remove String.eqb t (s_buffers s)) s).
  Proof.
    intros Hw H. unfold pop_buffer in H.
    destruct (s_queue s) as [|t' queue] eqn:Eq; [discriminate H|].
    destruct (get String.eqb t' (s_buffers s)) as [b'|] eqn:Eg; [|discriminate H].
    injection H as -> -> <-.
    pose proof (wf_buffers _ _ Hw) as Hb. pose proof (wf_queue _ _ Hw) as Hn.
    assert (Hn2 : NoDup (map fst (s_buffers s))) by (rewrite Hb; exact Hn).
    pose proof (remove_perm String.eqb String.eqb_eq t (s_buffers s) b Hn2 Eg) as Hp.
    rewrite Eq in Hb, Hn. apply NoDup_cons_iff in Hn. destruct Hn as [Ht Hn].
    split; [|split].
    - pose proof Hw as Hw'. destruct Hw'. constructor; fields; try assumption.
      destruct (s_buffers s) as [|[t' b'] buffers]; [discriminate Hb|]. cbn [map fst] in Hb.
      injection Hb as -> Hb. unfold remove. cbn [filter fst]. rewrite String.eqb_refl. cbn [negb].
      fold (remove String.eqb t buffers). rewrite (remove_absent String.eqb String.eqb_eq); [exact Hb|].
      rewrite Hb. exact Ht.
    - intros v. rewrite !amount_eq. fields. rewrite (sum_perm _ _ _ Hp). cbn [sum snd]. lia.
    - reflexivity.
  Qed.

  Lemma pop_some s : wf s -> s_queue s <> [] -> exists t b s1, pop_buffer s = Some (t, b, s1).
  Proof.
    intros Hw H. unfold pop_buffer. destruct (s_queue s) as [|t queue] eqn:E; [contradiction H; reflexivity|].
    destruct (get_key String.eqb String.eqb_eq t (s_buffers s)) as [b Hb].
    { rewrite (wf_buffers _ _ Hw), E. left. reflexivity. }
    rewrite Hb. exists t, b. eexists. reflexivity.
  Qed.

  Lemma flat_map_refs (f : Z * disk_buffer -> bool) m :
    flat_map message_refs (map (fun e => Data (OnDisk (snd e))) (filter f m))
    = map snd (filter f m).
  Proof.
    induction (filter f m) as [|e l IH]; cbn [map flat_map message_refs app]; [reflexivity|].
    rewrite IH. reflexivity.
  Qed.

  Lemma flat_map_no_refs (f : Z * memory_buffer -> bool) m :
    flat_map message_refs (map (fun e => Data (InMemory (snd e))) (filter f m)) = [].
  Proof. induction (filter f m) as [|e l IH]; cbn [map flat_map message_refs app]; [reflexivity|exact IH]. Qed.

  Lemma filter_perm {A} (f : A -> bool) l :
    Permutation l (filter (fun a => negb (f a)) l ++ filter f l).
  Proof.
    induction l as [|a l IH]; cbn [filter app]; [reflexivity|].
    destruct (f a); cbn [negb].
    - rewrite <- Permutation_middle. apply perm_skip. exact IH.
    - cbn [app]. apply perm_skip. exact IH.
  Qed.

  Lemma finish_ok f g s :
    wf s -> (forall h b rest, s_ingestion s <> Full h b rest) ->
    wf (finish_buffers f g s) /\ forall v, amount v (finish_buffers f g s) = amount v s.
  Proof.
    intros Hw Hnf.
    assert (Hrefs : Permutation (refs s) (refs (finish_buffers f g s))).
    { unfold refs, finish_buffers. fields. rewrite !flat_map_app, flat_map_refs, flat_map_no_refs.
      rewrite (filter_perm (fun e => g (d_updated (snd e))) (s_disk s)) at 1.
      rewrite map_app, <- app_assoc. apply Permutation_app_head.
      cbn [app]. apply Permutation_app_comm. }
    split.
    - pose proof (wf_keys _ _ Hw) as Hk. constructor.
      + unfold finish_buffers. fields.
        assert (Hs : forall A (h : A -> bool) (k : A -> Z) l a,
          In a (map k (filter h l)) -> In a (map k l)).
        { intros A h k l a Ha. apply in_map_iff in Ha. destruct Ha as [x [<- Hx]].
          apply filter_In in Hx. apply in_map. apply Hx. }
        assert (Hd : forall A (h : A -> bool) (k : A -> Z) l, NoDup (map k l) -> NoDup (map k (filter h l))).
        { intros A h k l. induction l as [|a l IH]; cbn [map filter]; intros H; [constructor|].
          apply NoDup_cons_iff in H. destruct H as [H1 H2]. destruct (h a); cbn [map]; [|apply IH; exact H2].
          constructor; [|apply IH; exact H2]. intros H. apply H1. apply (Hs _ h k l _ H). }
        rewrite !NoDup_app_iff in *. destruct Hk as [H1 [[H2 [H3 H4]] H5]].
        split; [apply Hd; exact H1|]. split; [split; [apply Hd; exact H2|split; [exact H3|]]|].
        * intros a Ha. apply H4. apply (Hs _ _ _ _ _ Ha).
        * intros a Ha H. apply (H5 a (Hs _ _ _ _ _ Ha)). rewrite in_app_iff in *.
          destruct H as [H|H]; [left; apply (Hs _ _ _ _ _ H)|right; exact H].
      + unfold finish_buffers. fields. intros h b H. apply filter_In in H. apply (wf_memory _ _ Hw). apply H.
      + apply (wf_hand _ _ Hw).
      + unfold finish_buffers. fields. intros h d H. apply filter_In in H. apply (wf_disk _ _ Hw). apply H.
      + intros d H. apply (Permutation_in d (Permutation_sym Hrefs)) in H. apply (wf_refs _ _ Hw d H).
      + apply (Permutation_NoDup (Permutation_map d_path Hrefs)). apply (wf_paths _ _ Hw).
      + intros h b rest H. exfalso. apply (Hnf h b rest). exact H.
      + intros _. exact Hnf.
      + apply (wf_buffers _ _ Hw).
      + apply (wf_queue _ _ Hw).
    - intros v. rewrite !amount_eq. unfold finish_buffers. fields.
      rewrite !sum_app, !sum_map. cbn [in_message uncompressed_items].
      pose proof (sum_filter (fun e => sum v (memory_items (snd e))) (fun e => f (m_updated (snd e)))
        (s_memory s)) as H1.
      pose proof (sum_filter (fun e => sum v (disk_items (s_files s) (snd e)))
        (fun e => g (d_updated (snd e))) (s_disk s)) as H2.
      cbv beta in H1, H2. lia.
  Qed.

  Lemma save_amount v t b s : amount v (save t b s) = amount v s + sum v (buffer_items b).
  Proof.
    rewrite !amount_eq. unfold save. fields. rewrite sum_app.
    cbn [sum commit_items k_segments]. unfold commit_items at 2, buffer_items. cbn [k_segments]. lia.
  Qed.

  Lemma save_wf t b s : wf s -> wf (save t b s).
  Proof. intros Hw. destruct Hw. constructor; assumption. Qed.

  (** A step that does not touch what [wf] is about. *)
  Ltac same Hw := pose proof Hw as Hw'; destruct Hw'; constructor; fields; try assumption;
    try (intros; congruence).

  Lemma refs_same s l : flat_map message_refs l = flat_map message_refs (s_uncompressed s) ->
    wf s -> wf (with_uncompressed l s).
  Proof.
    intros H Hw. assert (Hr : refs (with_uncompressed l s) = refs s).
    { unfold refs. cbn [with_uncompressed s_disk s_uncompressed]. rewrite H. reflexivity. }
    destruct Hw. constructor; try assumption; rewrite Hr; assumption.
  Qed.

  Lemma sent_wf s m : message_refs m = [] -> wf s -> wf (with_uncompressed (s_uncompressed s ++ [m]) s).
  Proof.
    intros H. apply refs_same. rewrite flat_map_app. cbn [flat_map]. rewrite H. rewrite !app_nil_r. reflexivity.
  Qed.

  Lemma received_wf s m rest : s_uncompressed s = m :: rest -> message_refs m = [] -> wf s ->
    wf (with_uncompressed rest s).
  Proof. intros E H. apply refs_same. rewrite E. cbn [flat_map]. rewrite H. reflexivity. Qed.

  Definition conserves (e : event) (s s' : state) : Prop :=
    wf s' /\ exists new drop,
      received s' = received s ++ new
      /\ (forall v, amount v s' + sum v drop = amount v s + sum v new)
      /\ (commits_written e -> healthy s' -> drop = []).

  Lemma conserves_same e s s' :
    wf s' -> s_log s' = s_log s -> (forall v, amount v s' = amount v s) -> conserves e s s'.
  Proof.
    intros Hw Hl Ha. split; [exact Hw|]. exists [], []. split; [|split].
    - unfold received. rewrite Hl, app_nil_r. reflexivity.
    - intros v. rewrite Ha. reflexivity.
    - reflexivity.
  Qed.

  Lemma not_lowering_hand c : ~ is_lowering c -> hand c = [].
  Proof. destruct c; intros H; try reflexivity. contradiction H. exact I. Qed.

  Ltac amounts := intros v; rewrite !amount_eq; fields.

  Lemma step_ok e s s' :
    wf s -> below s -> collision_free hash (received s) -> distinct_times (received s) ->
    undisturbed e s -> spills_written e -> e <> Crash -> step e s = Next s' -> conserves e s s'.
  Proof.
    intros Hw Hb Hc Ht [Hu1 [Hu2 Hu3]] Hsp Hcr H. destruct e; cbn [Pipeline.step] in H.
    - (* Insert *)
      destruct (s_client s) eqn:Ec; try discriminate H.
      destruct (0 <=? size); [|discriminate H]. injection H as <-.
      split.
      + same Hw; cbn [hand is_lowering] in *; rewrite Ec in *; cbn [hand map] in *; try assumption;
        try (intros H; contradiction).
      + eexists _, []. split; [unfold received; fields; rewrite flat_map_app; reflexivity|].
        split; [|reflexivity]. intros v. rewrite !amount_eq. fields. rewrite Ec.
        cbn [held_by_client sum flat_map]. rewrite app_nil_r. lia.
    - (* Send *)
      destruct (s_client s) eqn:Ec; try discriminate H.
      destruct (b_size b <=? ingested (s_pool s)); [|discriminate H]. injection H as <-.
      apply conserves_same; [|reflexivity|].
      + same Hw; rewrite Ec in *; cbn [hand map is_lowering] in *; try assumption;
          try (intros H; contradiction).
      + amounts. rewrite Ec, sum_app. cbn [held_by_client sum in_message]. lia.
    - (* Request_flush *)
      destruct (s_client s) eqn:Ec; try discriminate H. injection H as <-.
      apply conserves_same; [|reflexivity|].
      + same Hw; rewrite Ec in *; cbn [hand map is_lowering] in *; try assumption;
          try (intros H; contradiction).
      + amounts. rewrite Ec, sum_app. cbn [held_by_client sum in_message]. lia.
    - (* Request_stop *)
      destruct (s_client s) eqn:Ec; try discriminate H. injection H as <-.
      apply conserves_same; [|reflexivity|].
      + same Hw; rewrite Ec in *; cbn [hand map is_lowering] in *; try assumption;
          try (intros H; contradiction).
      + amounts. rewrite Ec, sum_app. cbn [held_by_client sum in_message]. lia.
    - (* Return *)
      destruct (s_client s) eqn:Ec; try discriminate H; destruct (s_results s); try discriminate H.
      + injection H as <-. apply conserves_same; [|reflexivity|].
        * same Hw; rewrite Ec in *; cbn [hand map is_lowering] in *; try assumption;
          try (intros H; contradiction).
        * amounts. rewrite Ec. cbn [held_by_client sum]. lia.
      + destruct (is_finished s); [|discriminate H]. injection H as <-.
        apply conserves_same; [|reflexivity|].
        * same Hw; rewrite Ec in *; cbn [hand map is_lowering] in *; try assumption;
          try (intros H; contradiction).
        * amounts. rewrite Ec. cbn [held_by_client sum]. lia.
    - (* Adjust_ingested *)
      destruct (s_client s) eqn:Ec; try discriminate H.
      destruct (0 <=? ingested (s_limits s) + change); [|discriminate H]. injection H as <-.
      apply conserves_same; [same Hw|reflexivity|]. amounts. reflexivity.
    - (* Adjust_uncompressed *)
      destruct (s_client s) eqn:Ec; try discriminate H.
      destruct (0 <=? uncompressed (s_limits s) + change); [|discriminate H]. injection H as <-.
      apply conserves_same; [|reflexivity|].
      + same Hw; rewrite Ec in *; cbn [hand map is_lowering] in *; try assumption.
        * intros h b rest H. rewrite wake_full in H. apply (wf_full h b rest H).
        * intros _ h b rest H. rewrite wake_full in H. cbv iota beta in Hu3. rewrite H in Hu3.
          exact Hu3.
      + amounts. rewrite Ec, held_wake. cbn [held_by_client sum]. lia.
    - (* Adjust_compressed *)
      destruct (s_client s) eqn:Ec; try discriminate H.
      destruct (0 <=? compressed (s_limits s) + change); [|discriminate H]. injection H as <-.
      apply conserves_same; [|reflexivity|].
      + same Hw; rewrite Ec in *; cbn [hand map is_lowering] in *; try assumption;
          try (intros H; contradiction).
      + amounts. rewrite Ec. cbn [held_by_client sum]. lia.
    - (* Adjust *)
      destruct (s_client s) eqn:Ec; try discriminate H.
      + (* Lowering *)
        destruct (uncompressed (s_pool s) <? 0).
        * destruct (take_buffer s) as [[b s1]|] eqn:E.
          -- injection H as <-.
             destruct (take_ok s b s1 Hw) as [Hw1 [Ho [Hr [Hk Ha]]]]; [left; rewrite Ec; exact I|exact E|].
             assert (Hcl : s_client s1 = Lowering change /\ s_log s1 = s_log s).
             { unfold take_buffer in E. destruct (s_memory s) as [|[h' b'] l]; [discriminate E|].
               injection E as -> <-. fields. split; [exact Ec|reflexivity]. }
             destruct Hcl as [Hcl Hlog]. apply conserves_same.
             ++ same Hw1; rewrite Hcl in *; cbn [hand map is_lowering] in *; try assumption.
                ** rewrite app_assoc. apply NoDup_app_iff. rewrite !app_nil_r in *.
                   split; [assumption|]. split; [constructor; [intros []|constructor]|].
                   intros a Ha2 [<-|[]]. contradiction.
                ** intros c [<-|[]]. apply (owned_ok hash s b Hw Ho).
             ++ exact Hlog.
             ++ intros v. rewrite (Ha v), !amount_eq. fields. rewrite Hcl. cbn [held_by_client sum]. lia.
          -- injection H as <-. apply conserves_same; [|reflexivity|].
             ++ same Hw; rewrite Ec in *; cbn [hand map is_lowering] in *; try assumption.
                ** intros h b rest H. rewrite wake_full in H. apply (wf_full h b rest H).
                ** intros H. contradiction.
             ++ amounts. rewrite Ec, held_wake. cbn [held_by_client sum]. lia.
        * injection H as <-. apply conserves_same; [|reflexivity|].
          -- same Hw; rewrite Ec in *; cbn [hand map is_lowering] in *; try assumption;
          try (intros H; contradiction).
          -- amounts. rewrite Ec. cbn [held_by_client sum]. lia.
      + (* Spilling *)
        injection H as <-.
        assert (Ho : owned b s) by (right; rewrite Ec; left; reflexivity).
        change (with_client (Lowering change) (spill b s)) with (spill b (with_client (Lowering change) s)).
        assert (Hw1 : wf (with_client (Lowering change) s)).
        { same Hw; rewrite Ec in *; cbn [hand map is_lowering] in *; try assumption.
          rewrite app_nil_r. rewrite app_assoc in wf_keys. apply NoDup_app_iff in wf_keys. apply wf_keys.
          intros c []. }
        destruct (spill_ok (with_client (Lowering change) s) b Hw1) as [Hw2 Ha2].
        { apply (owned_ok hash s b Hw Ho). }
        { fields. cbn [hand map]. rewrite app_nil_r. pose proof (wf_keys _ _ Hw) as Hk.
          rewrite Ec, app_assoc in Hk. cbn [hand map] in Hk. apply NoDup_app_iff in Hk.
          destruct Hk as [_ [_ Hk]]. intros Hin. apply (Hk _ Hin). left. reflexivity. }
        { intros d Hd. apply (fresh_path hash sort Hsort s b d); assumption. }
        apply conserves_same; [exact Hw2|reflexivity|].
        intros v. rewrite (Ha2 v), !amount_eq. fields. rewrite Ec. cbn [held_by_client sum]. lia.
      + (* Freeing *)
        destruct (compressed (s_pool s) <? 0).
        * destruct (pop_buffer s) as [[[t b] s1]|] eqn:E; [|discriminate H]. injection H as <-.
          destruct (pop_ok s t b s1 Hw E) as [Hw1 [Ha ->]].
          apply conserves_same; [|reflexivity|].
          -- same Hw1; rewrite Ec in *; cbn [hand map is_lowering] in *; try assumption;
          try (intros H; contradiction).
          -- intros v. rewrite (Ha v), !amount_eq. fields. rewrite Ec. cbn [held_by_client sum]. lia.
        * injection H as <-. apply conserves_same; [|reflexivity|].
          -- same Hw; rewrite Ec in *; cbn [hand map is_lowering] in *; try assumption;
          try (intros H; contradiction).
          -- amounts. rewrite Ec. cbn [held_by_client sum]. lia.
      + (* Saving *)
        injection H as <-. apply conserves_same; [|reflexivity|].
        * same Hw; rewrite Ec in *; cbn [hand map is_lowering] in *; try assumption;
          try (intros H; contradiction).
        * intros v. change (with_client (Freeing change) (save table b s))
            with (save table b (with_client (Freeing change) s)).
          rewrite save_amount, !amount_eq. fields. rewrite Ec. cbn [held_by_client sum]. lia.
    - (* Replay *)
      destruct (s_client s) as [| | | | | | | | |l] eqn:Ec; try discriminate H. destruct l as [|b l].
      + injection H as <-. apply conserves_same; [|reflexivity|].
        * same Hw; rewrite Ec in *; cbn [hand map is_lowering] in *; try assumption;
          try (intros H; contradiction).
        * amounts. rewrite Ec. cbn [held_by_client sum flat_map]. lia.
      + destruct (b_size b <=? ingested (s_pool s)); [|discriminate H]. injection H as <-.
        apply conserves_same; [|reflexivity|].
        * same Hw; rewrite Ec in *; cbn [hand map is_lowering] in *; try assumption;
          try (intros H; contradiction).
        * amounts. rewrite Ec, sum_app. cbn [held_by_client sum in_message flat_map]. rewrite sum_app. lia.
    - (* Receive *)
      destruct (s_ingestion s) eqn:Ei; try discriminate H.
      destruct (s_ingested s) as [|m rest] eqn:Em; [discriminate H|].
      assert (Hnf : forall h b l, s_ingestion s <> Full h b l) by (intros h b l; rewrite Ei; discriminate).
      destruct m as [b| |]; injection H as <-.
      + apply conserves_same; [|reflexivity|].
        * same Hw.
        * amounts. rewrite Ei, Em. cbn [held_by_ingestion sum in_message].
          unfold batch_items. lia.
      + destruct (finish_ok (fun _ => true) (fun _ => true) (with_ingested rest s)) as [H1 H2]; [same Hw|exact Hnf|].
        fold finish_all in H1, H2.
        apply conserves_same; [|reflexivity|].
        * apply sent_wf; [reflexivity|exact H1].
        * intros v. transitivity (amount v (finish_all (with_ingested rest s))).
          -- rewrite !amount_eq. unfold finish_all, finish_buffers. fields. rewrite !sum_app.
             cbn [sum in_message]. lia.
          -- rewrite H2, !amount_eq. fields. rewrite Em. cbn [sum in_message]. lia.
      + destruct (finish_ok (fun _ => true) (fun _ => true) (with_ingested rest s)) as [H1 H2]; [same Hw|exact Hnf|].
        fold finish_all in H1, H2.
        apply conserves_same; [|reflexivity|].
        * pose proof (sent_wf _ Stop eq_refl H1) as H3. same H3.
        * intros v. transitivity (amount v (finish_all (with_ingested rest s))).
          -- rewrite !amount_eq. unfold finish_all, finish_buffers. fields. rewrite !sum_app, Ei.
             cbn [sum in_message held_by_ingestion]. lia.
          -- rewrite H2, !amount_eq. fields. rewrite Em. cbn [sum in_message]. lia.
    - (* Point *)
      destruct (s_ingestion s) as [|b l w| | |] eqn:Ei; try discriminate H.
      destruct l as [|r l]; [discriminate H|]. destruct w; [discriminate H|].
      destruct spilled; [|contradiction Hsp; reflexivity].
      assert (Hq : quiet s).
      { unfold quiet, is_lowering. specialize (Hu1 I). destruct (s_client s); tauto. }
      destruct (insert_data_point_ok s b r l s' Hw Hb Hc Ht Hq Ei H) as [Hw1 [Hl1 [drop [Hd1 Hd2]]]].
      split; [exact Hw1|]. exists [], drop. split; [|split].
      + unfold received. rewrite Hl1, app_nil_r. reflexivity.
      + intros v. rewrite (Hd1 v). cbn [sum]. lia.
      + intros _ [Hh _]. apply Hd2. exact Hh.
    - (* Send_full *)
      destruct (s_ingestion s) as [| |h b rest| |] eqn:Ei; try discriminate H.
      destruct (get Z.eqb h (s_memory s)) as [buffer|] eqn:Eg; [|discriminate H]. injection H as <-.
      pose proof (wf_keys _ _ Hw) as Hk.
      assert (Hkm : NoDup (map fst (s_memory s))) by (apply NoDup_app_iff in Hk; apply Hk).
      pose proof (remove_perm Z.eqb Z.eqb_eq h (s_memory s) buffer Hkm Eg) as Hp.
      apply conserves_same; [|reflexivity|].
      + pose proof (sent_wf s (Data (InMemory buffer)) eq_refl Hw) as Hw1. same Hw1.
        * pose proof (Permutation_NoDup (Permutation_map fst Hp) Hkm) as Hkm2. cbn [map fst] in Hkm2.
          apply NoDup_cons_iff in Hkm2. destruct Hkm2 as [_ Hkm2].
          rewrite (NoDup_app_iff (map fst (s_memory s))) in Hk. destruct Hk as [_ [H2 H3]].
          apply NoDup_app_iff. split; [exact Hkm2|]. split; [exact H2|].
          intros a Ha. apply H3. apply (Permutation_in a (Permutation_sym (Permutation_map fst Hp))).
          right. exact Ha.
        * intros k c Hin. apply wf_memory. apply (in_remove Z.eqb h). exact Hin.
      + amounts. rewrite Ei, sum_app, (sum_perm _ _ _ Hp).
        cbn [held_by_ingestion sum in_message uncompressed_items snd]. lia.
    - (* Finish *)
      destruct (s_ingestion s) as [|b l w| | |] eqn:Ei; try discriminate H.
      destruct l; [|discriminate H]. injection H as <-.
      destruct (finish_ok (fun u => is_unused u (s_index s)) (fun u => is_unused u (s_index s)) s) as [H1 H2];
        [exact Hw|rewrite Ei; discriminate|].
      apply conserves_same; [same H1|reflexivity|].
      intros v. rewrite <- (H2 v), !amount_eq. unfold finish_buffers. fields. rewrite Ei.
      cbn [held_by_ingestion row_items map sum]. lia.
    - (* Compress *)
      destruct (s_compressor s) eqn:Ek; try discriminate H.
      destruct (s_uncompressed s) as [|m rest] eqn:Eu; [discriminate H|].
      destruct m as [[b|d]| |].
      + injection H as <-. apply conserves_same; [|reflexivity|].
        * pose proof (received_wf s _ rest Eu eq_refl Hw) as Hw1. same Hw1.
        * amounts. rewrite Ek, Eu. cbn [sum in_message uncompressed_items held_by_compressor].
          rewrite (sum_items_perm v _ _ (sort (m_points b)) (m_points b)) by apply Hsort.
          fold (memory_items b). lia.
      + assert (Hdr : In d (refs s)).
        { apply in_refs_channel. rewrite Eu. left. reflexivity. }
        destruct (wf_refs _ _ Hw d Hdr) as [f [p [ps [Hf _]]]]. rewrite Hf in H. injection H as <-.
        set (s1 := with_compressor (Busy 0 (d_meta d) (f_tags f) (f_points f) (d_ids d))
          (with_files (remove path_eqb (d_path d) (s_files s)) (with_uncompressed rest s))) in *.
        assert (Hrefs : Permutation (refs s) (d :: refs s1)).
        { unfold refs. subst s1. fields. rewrite Eu. cbn [flat_map message_refs app].
          symmetry. apply Permutation_middle. }
        pose proof (Permutation_NoDup (Permutation_map d_path Hrefs) (wf_paths _ _ Hw)) as Hnd.
        cbn [map] in Hnd. apply NoDup_cons_iff in Hnd. destruct Hnd as [Hnd1 Hnd2].
        assert (Hother : forall c, In c (refs s1) -> d_path c <> d_path d).
        { intros c Hcd E. apply Hnd1. rewrite <- E. apply in_map. exact Hcd. }
        apply conserves_same; [|reflexivity|].
        * constructor.
          -- apply (wf_keys _ _ Hw).
          -- apply (wf_memory _ _ Hw).
          -- apply (wf_hand _ _ Hw).
          -- apply (wf_disk _ _ Hw).
          -- intros c Hcd. apply disk_ok_remove; [apply Hother; exact Hcd|].
             apply (wf_refs _ _ Hw). apply (Permutation_in c (Permutation_sym Hrefs)). right. exact Hcd.
          -- exact Hnd2.
          -- apply (wf_full _ _ Hw).
          -- apply (wf_lowering _ _ Hw).
          -- apply (wf_buffers _ _ Hw).
          -- apply (wf_queue _ _ Hw).
        * intros v. rewrite !amount_eq. subst s1. fields. rewrite Ek, Eu.
          cbn [sum in_message uncompressed_items held_by_compressor].
          rewrite (sum_disk_ext v (remove path_eqb (d_path d) (s_files s)) (s_files s)),
            (sum_channel_ext v (remove path_eqb (d_path d) (s_files s)) (s_files s)).
          -- unfold disk_items at 3. rewrite Hf. lia.
          -- intros c Hcd. apply disk_items_remove. apply Hother. apply in_app_iff. right. exact Hcd.
          -- intros c Hcd. apply disk_items_remove. apply Hother. apply in_app_iff. left. exact Hcd.
      + injection H as <-. apply conserves_same; [|reflexivity|].
        * pose proof (received_wf s _ rest Eu eq_refl Hw) as Hw1. same Hw1.
        * amounts. rewrite Eu, sum_app. cbn [sum in_message]. lia.
      + injection H as <-. apply conserves_same; [|reflexivity|].
        * pose proof (received_wf s _ rest Eu eq_refl Hw) as Hw1. same Hw1.
        * amounts. rewrite Ek, Eu, sum_app. cbn [sum in_message held_by_compressor]. lia.
    - (* Send_segments *)
      destruct (s_compressor s) as [|mem m tags points ids| |] eqn:Ek; try discriminate H.
      destruct (Nat.eqb (List.length sizes) (t_fields m) && forallb (Z.leb 0) sizes); [|discriminate H].
      injection H as <-. apply conserves_same; [|reflexivity|].
      + same Hw.
        * intros h b rest H. rewrite wake_full in H. apply (wf_full h b rest H).
        * intros H h b rest E. rewrite wake_full in E. apply (wf_lowering H h b rest E).
      + amounts. rewrite Ek, held_wake, sum_app. cbn [sum in_message held_by_compressor segment_items
          g_meta g_tags g_points]. unfold segment_items at 2. cbn [g_meta g_tags g_points]. lia.
    - (* Write *)
      destruct (s_writer s) eqn:Ew; try discriminate H.
      destruct (s_compressed s) as [|m rest] eqn:Em; [discriminate H|].
      assert (Happ : forall v g b, sum v (buffer_items (append_segments g b))
        = sum v (buffer_items b) + sum v (segment_items g)).
      { intros v g b. unfold buffer_items, append_segments. cbn [c_segments].
        rewrite flat_map_app, sum_app. cbn [flat_map]. rewrite app_nil_r. reflexivity. }
      destruct m as [g| |].
      + fields. destruct (get String.eqb (t_name (g_meta g)) (s_buffers s)) as [b|] eqn:Eg; injection H as <-.
        * apply conserves_same; [|reflexivity|].
          -- same Hw. rewrite (keys_put String.eqb String.eqb_eq _ _ _ b Eg). exact wf_buffers.
          -- amounts. rewrite Ew, Em, (sum_put String.eqb String.eqb_eq _ _ _ b _ Eg).
             cbn [snd sum in_message held_by_writer]. rewrite Happ. lia.
        * pose proof (put_none String.eqb _ _ (append_segments g empty_buffer) Eg) as Eput.
          apply (get_none String.eqb String.eqb_eq) in Eg. rewrite (wf_buffers _ _ Hw) in Eg.
          apply conserves_same; [|reflexivity|].
          -- same Hw.
             ++ rewrite Eput, map_app, wf_buffers. reflexivity.
             ++ apply NoDup_app_iff. split; [exact wf_queue|]. split; [constructor; [intros []|constructor]|].
                intros a Ha [<-|[]]. contradiction.
          -- amounts. rewrite Ew, Em, Eput, sum_app. cbn [snd sum in_message held_by_writer].
             rewrite Happ. change (buffer_items empty_buffer) with (@nil item). cbn [sum]. lia.
      + injection H as <-. apply conserves_same; [same Hw|reflexivity|].
        amounts. rewrite Ew, Em. cbn [sum in_message held_by_writer]. lia.
      + injection H as <-. apply conserves_same; [same Hw|reflexivity|].
        amounts. rewrite Ew, Em. cbn [sum in_message held_by_writer]. lia.
    - (* Work *)
      destruct (s_writer s) as [|t| | |] eqn:Ew; try discriminate H.
      assert (Hpop : forall t t' b s1, pop_buffer s = Some (t', b, s1) ->
        conserves Work s (with_writer (Committing t' b t) s1)).
      { intros t0 t' b s1 E. destruct (pop_ok s t' b s1 Hw E) as [Hw1 [Ha ->]].
        apply conserves_same; [same Hw1|reflexivity|].
        intros v. rewrite (Ha v), !amount_eq. fields. rewrite Ew. cbn [held_by_writer sum]. lia. }
      destruct t as [size| |].
      + destruct (size <=? compressed (s_pool s)).
        * injection H as <-. apply conserves_same; [same Hw|reflexivity|].
          amounts. rewrite Ew. cbn [held_by_writer sum]. lia.
        * destruct (pop_buffer s) as [[[t' b] s1]|] eqn:E; [|discriminate H]. injection H as <-.
          apply Hpop. reflexivity.
      + destruct (s_queue s).
        * injection H as <-. apply conserves_same; [same Hw|reflexivity|].
          amounts. rewrite Ew. cbn [held_by_writer sum]. lia.
        * destruct (pop_buffer s) as [[[t' b] s1]|] eqn:E; [|discriminate H]. injection H as <-.
          apply Hpop. reflexivity.
      + destruct (s_queue s).
        * injection H as <-. apply conserves_same; [same Hw|reflexivity|].
          amounts. rewrite Ew. cbn [held_by_writer sum]. lia.
        * destruct (pop_buffer s) as [[[t' b] s1]|] eqn:E; [|discriminate H]. injection H as <-.
          apply Hpop. reflexivity.
    - (* Commit *)
      destruct (s_writer s) as [| |table b t| |] eqn:Ew; try discriminate H.
      destruct written.
      + injection H as <-. apply conserves_same; [|reflexivity|].
        * pose proof (save_wf table b s Hw) as Hw1. same Hw1.
        * intros v. change (with_writer (Working t) (save table b s))
            with (save table b (with_writer (Working t) s)).
          rewrite save_amount, !amount_eq. fields. rewrite Ew. cbn [held_by_writer sum]. lia.
      + destruct t; injection H as <-.
        * split; [same Hw|]. exists [], (buffer_items b). split; [unfold received; fields; rewrite app_nil_r; reflexivity|].
          split; [|intros C; contradiction C; reflexivity].
          amounts. rewrite Ew. cbn [held_by_writer sum]. lia.
        * split; [same Hw|]. exists [], (buffer_items b). split; [unfold received; fields; rewrite app_nil_r; reflexivity|].
          split; [|intros C; contradiction C; reflexivity].
          amounts. rewrite Ew. cbn [held_by_writer sum]. lia.
        * split; [same Hw|]. exists [], (buffer_items b). split; [unfold received; fields; rewrite app_nil_r; reflexivity|].
          split; [|intros C; contradiction C; reflexivity].
          amounts. rewrite Ew. cbn [held_by_writer sum]. lia.
    - (* Crash *)
      contradiction Hcr. reflexivity.
    - (* Reorder_memory *)
      injection H as <-.
      assert (Hp : Permutation (to_front n (s_memory s)) (s_memory s)) by apply to_front_perm.
      apply conserves_same; [|reflexivity|].
      + same Hw.
        * apply (Permutation_NoDup (l := map fst (s_memory s) ++ map fst (s_disk s) ++ map m_hash (hand (s_client s)))).
          -- apply Permutation_app_tail. apply Permutation_map. symmetry. exact Hp.
          -- assumption.
        * intros h b Hin. apply wf_memory. apply (Permutation_in _ Hp Hin).
        * intros h b rest E. apply (Permutation_in h (Permutation_map fst (Permutation_sym Hp))).
          apply (wf_full h b rest E).
      + amounts. rewrite (sum_perm _ _ _ Hp). lia.
    - (* Reorder_disk *)
      injection H as <-.
      assert (Hp : Permutation (to_front n (s_disk s)) (s_disk s)) by apply to_front_perm.
      assert (Hr : Permutation (refs s) (refs (with_disk (to_front n (s_disk s)) s))).
      { unfold refs. fields. apply Permutation_app_tail. apply Permutation_map. symmetry. exact Hp. }
      apply conserves_same; [|reflexivity|].
      + same Hw.
        * apply (Permutation_NoDup (l := map fst (s_memory s) ++ map fst (s_disk s) ++ map m_hash (hand (s_client s)))).
          -- apply Permutation_app_head. apply Permutation_app_tail. apply Permutation_map. symmetry. exact Hp.
          -- assumption.
        * intros h d Hin. apply wf_disk. apply (Permutation_in _ Hp Hin).
        * intros d Hin. apply wf_refs. apply (Permutation_in d (Permutation_sym Hr) Hin).
        * apply (Permutation_NoDup (Permutation_map d_path Hr)). assumption.
      + amounts. rewrite (sum_perm _ _ _ Hp). lia.
  Qed.
End Steps.
