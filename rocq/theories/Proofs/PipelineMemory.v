(** The memory accounted for by the pipeline of Model/Pipeline.v. *)
From Coq Require Import ZArith List Bool String Permutation Sorted Lia.
From Verif Require Import Model.Pipeline Spec.PipelineSpec Proofs.PipelineMaps Proofs.PipelineInvariant
  Proofs.PipelineSteps Proofs.PipelineIds Proofs.PipelineRuns.
Import ListNotations.
Open Scope Z_scope.

Lemma total_of_sum {A} (f : A -> Z) l : total_of f l = sum f l.
Proof. induction l as [|a l IH]; cbn [total_of fold_right sum]; [reflexivity|]. unfold total_of in IH. lia. Qed.

Lemma in_data_message {A} (f : A -> Z) : in_data f = in_message f.
Proof. reflexivity. Qed.

(** What saving buffers adds to the remaining memory. *)
Definition credit (s : state) : Z :=
  sum (fun e => c_size (snd e)) (s_buffers s)
  + match s_client s with Saving _ _ b => c_size b | _ => 0 end
  + match s_writer s with Committing _ b _ => c_size b | _ => 0 end.

Section Memory.
  Variable hash : string -> Z.
  Variable capacity : nat.
  Variable sort : list point -> list point.
  Variable logging : bool.

  Notation step := (step hash capacity sort logging).
  Notation wf := (wf hash).
  Notation size b := (memory_size capacity (m_meta b)).
  Notation usize := (fun u => match u with InMemory b => memory_size capacity (m_meta b) | OnDisk _ => 0 end).

  Lemma used_uncompressed_eq s :
    used_uncompressed capacity s =
      sum (fun e => size (snd e)) (s_memory s)
      + match s_client s with Spilling _ b => size b | _ => 0 end
      + sum (in_message usize) (s_uncompressed s)
      + match s_compressor s with Busy memory _ _ _ _ => memory | _ => 0 end.
  Proof. unfold used_uncompressed. rewrite !total_of_sum. reflexivity. Qed.

  Definition ingested_ok (s : state) : Prop :=
    s_ingestion s <> Failed -> ingested (s_pool s) + used_ingested s = ingested (s_limits s).

  Lemma memory_size_nonneg m : 0 <= memory_size capacity m.
  Proof. unfold memory_size. lia. Qed.

  Ltac cases H :=
    unfold take_buffer in H;
    repeat match type of H with
      | context [match pop_buffer ?x with _ => _ end] => unfold pop_buffer in H
      | context [match ?x with _ => _ end] =>
          match x with
          | context [match _ with _ => _ end] => fail 1
          | _ => let E := fresh "E" in destruct x eqn:E
          end
      end; try discriminate H; injection H as <-;
    unfold finish_all, finish_buffers, save, start, spill; fields.

  (** Steps that do not change what ingested memory depends on. *)
  Lemma ingested_step e s s' :
    ingested_ok s -> step e s = Next s' -> ingested_ok s'.
  Proof.
    unfold ingested_ok, used_ingested. rewrite !total_of_sum. intros Hok H.
    destruct e; cbn [Pipeline.step] in H.
    12:{ destruct (s_ingestion s) as [|b l w| | |] eqn:Ei; try discriminate H. destruct l as [|r l]; [discriminate H|].
      destruct w; [discriminate H|]. specialize (Hok ltac:(discriminate)).
      unfold insert_data_point in H. cbv zeta in H.
      assert (Hres : forall s1 ok, reserve capacity sort spilled (b_meta b) s = Some (s1, ok) ->
        ingested (s_pool s1) = ingested (s_pool s) /\ s_ingested s1 = s_ingested s
        /\ s_limits s1 = s_limits s).
      { intros s1 ok. unfold reserve, take_buffer, spill, spill_failed. intros E.
        destruct (memory_size capacity (b_meta b) <=? uncompressed (s_pool s)); [injection E as <- _; tauto|].
        destruct (s_uncompressed s); [|discriminate E].
        destruct (s_memory s) as [|[h c] k]; [injection E as <- _; tauto|].
        destruct spilled; injection E as <- _; tauto. }
      destruct (get Z.eqb _ (s_memory s)) as [buffer|].
      { injection H as <-. unfold inserted. fields. intros _.
        destruct (is_full _ _); exact Hok. }
      destruct (reserve _ _ _ _ s) as [[s1 ok]|] eqn:Er.
      2:{ injection H as <-. fields. intros _. exact Hok. }
      destruct (Hres s1 ok eq_refl) as [E1 [E2 E3]].
      destruct ok; [|injection H as <-; fields; intros C; contradiction C; reflexivity].
      destruct (get Z.eqb _ (s_disk s1)) as [d|].
      - destruct (get path_eqb _ (s_files s1)); injection H as <-; unfold inserted; fields; intros C;
          [|contradiction C; reflexivity]. rewrite E1, E2, E3. destruct (is_full _ _); exact Hok.
      - injection H as <-. unfold inserted. fields. intros _. rewrite E1, E2, E3. exact Hok. }
    all: cases H; try rewrite !sum_app; cbn [sum in_data]; try lia.
    all: try (intros Hf; specialize (Hok Hf); lia).
    all: try (intros _; specialize (Hok ltac:(discriminate)); cbn [sum in_data] in *; lia).
    all: destruct (s_ingestion s); cbn [wake]; intros Hf;
      try (contradiction Hf; reflexivity); specialize (Hok ltac:(discriminate)); cbn [sum in_data] in *;
      first [lia | congruence].
  Qed.

  (** * Uncompressed data *)

  Definition slack (s : state) : Z :=
    uncompressed (s_pool s) + used_uncompressed capacity s
    - uncompressed (s_limits s) - uncompressed_change (s_client s).

  Lemma slack_eq s : slack s =
    uncompressed (s_pool s)
    + (sum (fun e => size (snd e)) (s_memory s)
       + match s_client s with Spilling _ b => size b | _ => 0 end
       + sum (in_message usize) (s_uncompressed s)
       + match s_compressor s with Busy memory _ _ _ _ => memory | _ => 0 end)
    - uncompressed (s_limits s) - uncompressed_change (s_client s).
  Proof. unfold slack. rewrite used_uncompressed_eq. reflexivity. Qed.

  Lemma finish_slack f g s : slack (finish_buffers f g s) = slack s.
  Proof.
    rewrite !slack_eq. unfold finish_buffers. fields. rewrite !sum_app, !sum_map.
    cbn [in_message].
    pose proof (sum_filter (fun e => size (snd e)) (fun e => f (m_updated (snd e))) (s_memory s)) as H1.
    rewrite (sum_zero (fun _ => 0)) by reflexivity. cbv beta in H1. lia.
  Qed.

  Lemma reserve_slack m s s1 ok :
    reserve capacity sort true m s = Some (s1, ok) ->
    if ok then slack s - memory_size capacity m <= slack s1 <= slack s
               /\ (memory_size capacity m <= uncompressed (s_pool s) ->
                   slack s1 = slack s - memory_size capacity m)
    else slack s1 = slack s.
  Proof.
    pose proof (memory_size_nonneg m) as Hm.
    unfold reserve. intros H. destruct (memory_size capacity m <=? uncompressed (s_pool s)) eqn:E.
    - injection H as <- <-. rewrite !slack_eq. fields. split; [|intros _]; lia.
    - apply Z.leb_gt in E. destruct (s_uncompressed s) as [|x q] eqn:Eu; [|discriminate H].
      unfold take_buffer in H. destruct (s_memory s) as [|[h b] rest] eqn:Em.
      + injection H as <- <-. reflexivity.
      + injection H as <- <-.
        assert (Es : slack (spill capacity sort b (with_memory rest s)) = slack s).
        { rewrite !slack_eq. unfold spill. fields. rewrite Em. cbn [sum snd]. lia. }
        split; [rewrite Es; lia|]. intros C. lia.
  Qed.

  Lemma inserted_slack h full buffer b rest s :
    slack (inserted h full buffer b rest s) =
      slack s + size buffer
      - match get Z.eqb h (s_memory s) with Some c => size c | None => 0 end.
  Proof.
    rewrite !slack_eq. unfold inserted. fields.
    destruct (get Z.eqb h (s_memory s)) as [c|] eqn:E.
    - rewrite (sum_put Z.eqb Z.eqb_eq _ _ _ c _ E). cbn [snd]. lia.
    - rewrite (put_none Z.eqb _ _ _ E), sum_app. cbn [sum snd]. lia.
  Qed.

  Hypothesis Hsort : sorts_points sort.

  Lemma uncompressed_step e s s' :
    inv hash logging s -> collision_free hash (received s) -> distinct_times (received s) ->
    good e s -> step e s = Next s' ->
    (e = Crash /\ slack s' = 0)
    \/ (slack s <= slack s' /\ (fits hash capacity e s -> slack s' = slack s)).
  Proof.
    intros Hinv Hc Ht [Hu Hs] H. pose proof (inv_wf _ _ _ Hinv) as Hw. pose proof (inv_below _ _ _ Hinv) as Hb.
    enough ((e = Crash /\ slack s' = 0) \/ slack s' = slack s
      \/ (slack s <= slack s' /\ (fits hash capacity e s -> slack s' = slack s))) as [E|[E|E]];
      [left; exact E|right; rewrite E; split; [lia|reflexivity]|right; exact E|].
    destruct e; cbn [Pipeline.step] in H.
    11:{ right. left. destruct (s_ingestion s); try discriminate H.
      destruct (s_ingested s) as [|[b| |] l]; try discriminate H; injection H as <-.
      - rewrite !slack_eq. reflexivity.
      - transitivity (slack (finish_all (with_ingested l s))).
        + rewrite !slack_eq. unfold finish_all, finish_buffers. fields. rewrite !sum_app. cbn [sum in_message]. lia.
        + unfold finish_all. rewrite finish_slack, !slack_eq. reflexivity.
      - transitivity (slack (finish_all (with_ingested l s))).
        + rewrite !slack_eq. unfold finish_all, finish_buffers. fields. rewrite !sum_app. cbn [sum in_message]. lia.
        + unfold finish_all. rewrite finish_slack, !slack_eq. reflexivity. }
    11:{ right. right. destruct spilled; [|contradiction Hs; reflexivity].
      unfold fits. destruct (s_ingestion s) as [|b l w| | |] eqn:Ei; try discriminate H.
      destruct l as [|r l]; [discriminate H|]. destruct w; [discriminate H|].
      unfold insert_data_point in H. cbv zeta in H.
      set (h := tag_hash hash (t_name (b_meta b)) (r_tags r)) in *.
      destruct (get Z.eqb h (s_memory s)) as [buffer|] eqn:Eg.
      { injection H as <-. rewrite inserted_slack, Eg. cbn [add_point m_meta]. split; intros; lia. }
      pose proof Eg as Eg'. apply (get_none Z.eqb Z.eqb_eq) in Eg'.
      destruct (reserve capacity sort true (b_meta b) s) as [[s1 ok]|] eqn:Er.
      2:{ injection H as <-. assert (E : slack (with_ingestion (Points b (r :: l) true) s) = slack s)
            by (rewrite !slack_eq; reflexivity). rewrite E. split; [lia|reflexivity]. }
      pose proof (reserve_slack (b_meta b) s s1 ok Er) as Hr.
      destruct (reserve_ok hash capacity sort Hsort s (b_meta b) s1 ok b (r :: l) Hw Hb Hc Ht Ei Er)
        as [Hw1 [_ [_ [_ [_ Hm1]]]]].
      destruct ok.
      2:{ injection H as <-. assert (E : slack (with_ingestion Failed s1) = slack s1)
            by (rewrite !slack_eq; reflexivity). rewrite E, Hr. split; [lia|reflexivity]. }
      assert (Eg1 : get Z.eqb h (s_memory s1) = None).
      { apply (get_none Z.eqb Z.eqb_eq). intros C. apply Eg'. apply Hm1. exact C. }
      destruct Hr as [Hr1 Hr2].
      assert (Hfits : forall k, In h (map fst (s_memory s)) \/ memory_size capacity (b_meta b) <= uncompressed (s_pool s)
        \/ s_uncompressed s <> [] -> slack s1 + memory_size capacity (b_meta b) = k -> k = slack s).
      { intros k [C|[C|C]] Ek; [contradiction| |].
        - rewrite (Hr2 C) in Ek. lia.
        - unfold reserve in Er. destruct (memory_size capacity (b_meta b) <=? uncompressed (s_pool s)) eqn:E.
          + apply Z.leb_le in E. rewrite (Hr2 E) in Ek. lia.
          + destruct (s_uncompressed s); [contradiction C; reflexivity|discriminate Er]. }
      pose proof (memory_size_nonneg (b_meta b)) as Hpos.
      destruct (get Z.eqb h (s_disk s1)) as [d|] eqn:Ed.
      - assert (Hdr : In d (refs s1)).
        { apply in_refs_disk. apply in_map_iff. exists (h, d). split; [reflexivity|].
          apply (get_in Z.eqb Z.eqb_eq). exact Ed. }
        destruct (wf_refs _ _ Hw1 d Hdr) as [f [p [ps [Hf [Hps [Hdh2 _]]]]]]. rewrite Hf in H.
        injection H as <-.
        (* the table of the spilled buffer is that of the row *)
        assert (Em : m_meta (add_point (s_index s1) r (b_id b) (loaded (s_index s1) d f)) = b_meta b).
        { cbn [add_point loaded m_meta].
          destruct (reserve_ok hash capacity sort Hsort s (b_meta b) s1 true b (r :: l) Hw Hb Hc Ht Ei Er)
            as [_ [Ha1 [_ [Hi1 [Hl1 _]]]]].
          assert (Hb1 : below s1).
          { intros v Hv. rewrite Ha1. unfold received. rewrite Hl1. apply (Hb v Hv). }
          assert (Hc1 : collision_free hash (received s1)) by (unfold received; rewrite Hl1; exact Hc).
          assert (Hi1' : s_ingestion s1 = Points b (r :: l) false) by (rewrite Hi1; exact Ei).
          destruct (same_series hash s1 (d_meta d) (f_tags f) p (b_meta b) (r_tags r) (i_point (row_item b r)) 
            Hb1 Hc1) as [Em _]; [| |fold h; rewrite <- (wf_disk _ _ Hw1 h d); [congruence|]|exact Em].
          - apply (ref_live s1 d _ Hdr). unfold disk_items. rewrite Hf, Hps. left. reflexivity.
          - apply (row_live s1 b r l false Hi1').
          - apply (get_in Z.eqb Z.eqb_eq). exact Ed. }
        rewrite inserted_slack. fields. rewrite Eg1, Em.
        match goal with |- context [slack ?x] => assert (E : slack x = slack s1) by (rewrite !slack_eq; reflexivity) end.
        rewrite E. split; [lia|]. intros C. apply Hfits; [exact C|]. lia.
      - injection H as <-. rewrite inserted_slack. fields. rewrite Eg1. cbn [add_point new_buffer m_meta].
        split; [lia|]. intros C. apply Hfits; [exact C|]. lia. }
    11:{ right. left. destruct (s_ingestion s) as [| |h b rest| |]; try discriminate H.
      destruct (get Z.eqb h (s_memory s)) as [buffer|] eqn:Eg; [|discriminate H]. injection H as <-.
      pose proof (wf_keys _ _ Hw) as Hk. apply NoDup_app_iff in Hk. destruct Hk as [Hk _].
      pose proof (remove_perm Z.eqb Z.eqb_eq h (s_memory s) buffer Hk Eg) as Hp.
      rewrite !slack_eq. fields. rewrite (sum_perm _ _ _ Hp), sum_app. cbn [sum snd in_message]. lia. }
    11:{ right. left. destruct (s_ingestion s) as [|b l w| | |]; try discriminate H.
      destruct l; [|discriminate H]. injection H as <-.
      rewrite <- (finish_slack (fun u => is_unused u (s_index s)) (fun u => is_unused u (s_index s)) s).
      rewrite !slack_eq. reflexivity. }
    all: try (right; left; rewrite !slack_eq; cases H;
      repeat match goal with
        | E : s_client _ = _ |- _ => rewrite E; clear E
        | E : s_compressor _ = _ |- _ => rewrite E; clear E
        | E : s_memory _ = _ |- _ => rewrite E; clear E
        | E : s_uncompressed _ = _ |- _ => rewrite E; clear E
        end; cbn [sum in_message snd uncompressed_change] in *;
      try rewrite !sum_app; cbn [sum in_message]; lia).
    - left. injection H as <-. split; [reflexivity|]. rewrite slack_eq. unfold start. fields.
      cbn [sum uncompressed_change]. lia.
    - right. left. injection H as <-. rewrite !slack_eq. fields.
      rewrite (sum_perm _ _ _ (to_front_perm n (s_memory s))). reflexivity.
  Qed.

  (** * Compressed data *)

  Definition excess (s : state) : Z :=
    compressed (s_pool s) + credit s - compressed (s_limits s) - compressed_change (s_client s)
    - being_reserved (s_writer s).

  Lemma credited_total sizes : forall so_far,
    0 <= so_far -> Forall (Z.le 0) sizes -> total sizes <= credited so_far sizes.
  Proof.
    induction sizes as [|a sizes IH]; intros so_far H0 H; cbn [total fold_right credited]; [lia|].
    apply Forall_cons_iff in H. destruct H as [Ha H]. specialize (IH (so_far + a) ltac:(lia) H).
    unfold total in IH. lia.
  Qed.

  (** What is known about the segments in the pipeline, and what saving a buffer adds. *)
  Definition buffer_ok (P : segments -> Prop) (b : compressed_buffer) : Prop :=
    c_size b = sum (fun g => credited 0 (g_sizes g)) (c_segments b) /\ Forall P (c_segments b).

  Record segments_ok (P : segments -> Prop) (s : state) : Prop := {
    so_channel : forall g, In (Data g) (s_compressed s) -> P g;
    so_buffers : forall t b, In (t, b) (s_buffers s) -> buffer_ok P b;
    so_saving : forall c t b, s_client s = Saving c t b -> buffer_ok P b;
    so_writer : forall t b k, s_writer s = Committing t b k -> buffer_ok P b }.

  Definition sent (P : segments -> Prop) (e : event) : Prop :=
    match e with
    | Send_segments sizes => Forall (Z.le 0) sizes -> forall g, g_sizes g = sizes -> P g
    | _ => True
    end.

  Lemma append_ok (P : segments -> Prop) g b : P g -> buffer_ok P b -> buffer_ok P (append_segments g b).
  Proof.
    intros Hg [H1 H2]. split.
    - cbn [append_segments c_size c_segments]. rewrite sum_app. cbn [sum]. lia.
    - cbn [append_segments c_segments]. apply Forall_app. split; [exact H2|]. constructor; [exact Hg|constructor].
  Qed.

  Lemma pop_segments (P : segments -> Prop) s t b s1 :
    segments_ok P s -> pop_buffer s = Some (t, b, s1) -> segments_ok P s1 /\ buffer_ok P b.
  Proof.
    intros Hs H. unfold pop_buffer in H. destruct (s_queue s) as [|t' q]; [discriminate H|].
    destruct (get String.eqb t' (s_buffers s)) as [b'|] eqn:E; [|discriminate H].
    injection H as -> -> <-. destruct Hs as [H1 H2 H3 H4]. split.
    - constructor; fields; try assumption. intros t' b' H. apply (H2 t'). apply (in_remove String.eqb t). exact H.
    - apply (H2 t). apply (get_in String.eqb String.eqb_eq). exact E.
  Qed.

  Lemma segments_step (P : segments -> Prop) e s s' :
    segments_ok P s -> sent P e -> step e s = Next s' -> segments_ok P s'.
  Proof.
    intros Hs Hp H.
    destruct e; cbn [Pipeline.step] in H.
    12:{ destruct (s_ingestion s) as [|b l w| | |] eqn:Ei; try discriminate H. destruct l as [|r l]; [discriminate H|].
      destruct w; [discriminate H|]. unfold insert_data_point in H. cbv zeta in H.
      assert (Hsame : forall s2, s_compressed s2 = s_compressed s -> s_buffers s2 = s_buffers s ->
        s_client s2 = s_client s -> s_writer s2 = s_writer s -> segments_ok P s2).
      { intros s2 E1 E2 E3 E4. destruct Hs as [H1 H2 H3 H4].
        constructor; [rewrite E1|rewrite E2|rewrite E3|rewrite E4]; assumption. }
      assert (Hres : forall s1 ok, reserve capacity sort spilled (b_meta b) s = Some (s1, ok) ->
        s_compressed s1 = s_compressed s /\ s_buffers s1 = s_buffers s /\ s_client s1 = s_client s
        /\ s_writer s1 = s_writer s).
      { intros s1 ok. unfold reserve, take_buffer, spill, spill_failed. intros E.
        destruct (memory_size capacity (b_meta b) <=? uncompressed (s_pool s)); [injection E as <- _; tauto|].
        destruct (s_uncompressed s); [|discriminate E].
        destruct (s_memory s) as [|[h c] k]; [injection E as <- _; tauto|].
        destruct spilled; injection E as <- _; tauto. }
      destruct (get Z.eqb _ (s_memory s)) as [buffer|].
      { injection H as <-. apply Hsame; reflexivity. }
      destruct (reserve _ _ _ _ s) as [[s1 ok]|] eqn:Er.
      2:{ injection H as <-. apply Hsame; reflexivity. }
      destruct (Hres s1 ok eq_refl) as [E1 [E2 [E3 E4]]].
      destruct ok; [|injection H as <-; apply Hsame; assumption].
      destruct (get Z.eqb _ (s_disk s1)) as [d|];
        [destruct (get path_eqb _ (s_files s1))|]; injection H as <-; apply Hsame; assumption. }
    15:{ destruct (s_compressor s) as [|mem m tags points ids| |]; try discriminate H.
      destruct (Nat.eqb (List.length sizes) (t_fields m) && forallb (Z.leb 0) sizes) eqn:E; [|discriminate H].
      injection H as <-. apply andb_true_iff in E. destruct E as [_ E].
      destruct Hs as [H1 H2 H3 H4]. constructor; fields; try assumption.
      intros g Hg. apply in_app_iff in Hg. destruct Hg as [Hg|[Hg|[]]]; [apply H1; exact Hg|].
      injection Hg as <-. apply Hp; [|reflexivity]. rewrite forallb_forall in E. apply Forall_forall.
      intros x Hx. apply Z.leb_le. apply E. exact Hx. }
    15:{ destruct (s_writer s) eqn:Ew; try discriminate H.
      destruct (s_compressed s) as [|m rest] eqn:Em; [discriminate H|].
      destruct Hs as [H1 H2 H3 H4].
      assert (Hsub : forall g, In (Data g) rest -> P g).
      { intros g Hg. apply H1. rewrite Em. right. exact Hg. }
      destruct m as [g| |]; fields.
      - assert (Hg : P g) by (apply H1; rewrite Em; left; reflexivity).
        destruct (get String.eqb (t_name (g_meta g)) (s_buffers s)) as [b|] eqn:Eg; injection H as <-.
        + constructor; fields; try assumption; [|intros; discriminate].
          intros t c Hin. apply (in_put String.eqb) in Hin. destruct Hin as [[_ ->]|Hin].
          * apply append_ok; [exact Hg|]. apply (H2 (t_name (g_meta g))).
            apply (get_in String.eqb String.eqb_eq). exact Eg.
          * apply (H2 t). exact Hin.
        + constructor; fields; try assumption; [|intros; discriminate].
          intros t c Hin. apply (in_put String.eqb) in Hin. destruct Hin as [[_ ->]|Hin].
          * apply append_ok; [exact Hg|]. split; [reflexivity|constructor].
          * apply (H2 t). exact Hin.
      - injection H as <-. constructor; fields; try assumption. intros; discriminate.
      - injection H as <-. constructor; fields; try assumption. intros; discriminate. }
    all: unfold take_buffer in H; repeat match type of H with
      | context [match pop_buffer ?x with _ => _ end] =>
          let E := fresh "E" in destruct (pop_buffer x) as [[[? ?] ?]|] eqn:E;
          [apply (pop_segments P) in E; [destruct E|exact Hs]|]
      | context [match ?x with _ => _ end] =>
          match x with
          | context [match _ with _ => _ end] => fail 1
          | _ => let E := fresh "E" in destruct x eqn:E
          end
      end; try discriminate H; injection H as <-.
    all: try (destruct Hs as [H1 H2 H3 H4]; constructor; unfold finish_all, finish_buffers, save, spill; fields;
      try assumption; try (intros; congruence); 
      try (intros g Hg; apply in_app_iff in Hg; destruct Hg as [Hg|[Hg|[]]]; [apply H1; exact Hg|discriminate Hg])).
    all: try (match goal with Hx : segments_ok _ _ |- _ => destruct Hx as [G1 G2 G3 G4]; constructor; fields;
      try assumption; intros; congruence end).
    all: try (constructor; unfold start; fields; intros; try contradiction; discriminate).
    intros g [].
  Qed.

  Definition nonnegative (g : segments) : Prop := Forall (Z.le 0) (g_sizes g).
  Definition single (g : segments) : Prop := List.length (g_sizes g) = 1%nat.

  Lemma single_credited g : single g -> credited 0 (g_sizes g) = total (g_sizes g).
  Proof.
    unfold single. destruct (g_sizes g) as [|a [|b l]]; intros H; try discriminate H.
    cbn [credited total fold_right]. lia.
  Qed.

  Lemma point_same e s s' :
    (exists w, e = Point w) -> step e s = Next s' ->
    s_client s' = s_client s /\ s_writer s' = s_writer s /\ s_buffers s' = s_buffers s
    /\ s_queue s' = s_queue s /\ s_limits s' = s_limits s
    /\ compressed (s_pool s') = compressed (s_pool s) /\ s_compressed s' = s_compressed s
    /\ s_results s' = s_results s /\ s_uncompressed s' = s_uncompressed s
    /\ s_compressor s' = s_compressor s /\ s_ingested s' = s_ingested s.
  Proof.
    intros [w ->] H. cbn [Pipeline.step] in H.
    destruct (s_ingestion s) as [|b l v| | |] eqn:Ei; try discriminate H. destruct l as [|r l]; [discriminate H|].
    destruct v; [discriminate H|]. unfold insert_data_point in H. cbv zeta in H.
    assert (Hres : forall s1 ok, reserve capacity sort w (b_meta b) s = Some (s1, ok) ->
      s_client s1 = s_client s /\ s_writer s1 = s_writer s /\ s_buffers s1 = s_buffers s
      /\ s_queue s1 = s_queue s /\ s_limits s1 = s_limits s
      /\ compressed (s_pool s1) = compressed (s_pool s) /\ s_compressed s1 = s_compressed s
      /\ s_results s1 = s_results s /\ s_uncompressed s1 = s_uncompressed s
      /\ s_compressor s1 = s_compressor s /\ s_ingested s1 = s_ingested s).
    { intros s1 ok. unfold reserve, take_buffer, spill, spill_failed. intros E.
      destruct (memory_size capacity (b_meta b) <=? uncompressed (s_pool s)); [injection E as <- _; fields; tauto|].
      destruct (s_uncompressed s) eqn:Eu; [|discriminate E].
      destruct (s_memory s) as [|[h c] k]; [injection E as <- _; tauto|].
      destruct w; injection E as <- _; fields; tauto. }
    destruct (get Z.eqb _ (s_memory s)) as [buffer|]; [injection H as <-; unfold inserted; fields; tauto|].
    destruct (reserve _ _ _ _ s) as [[s1 ok]|] eqn:Er; [|injection H as <-; fields; tauto].
    specialize (Hres s1 ok eq_refl).
    destruct ok; [|injection H as <-; exact Hres].
    destruct (get Z.eqb _ (s_disk s1)) as [d|]; [destruct (get path_eqb _ (s_files s1))|];
      injection H as <-; exact Hres.
  Qed.

  Lemma pop_credit s t b s1 :
    wf s -> pop_buffer s = Some (t, b, s1) ->
    sum (fun e => c_size (snd e)) (s_buffers s) = c_size b + sum (fun e => c_size (snd e)) (s_buffers s1)
    /\ s_client s1 = s_client s /\ s_writer s1 = s_writer s /\ s_limits s1 = s_limits s
    /\ s_pool s1 = s_pool s.
  Proof.
    intros Hw H. unfold pop_buffer in H.
    destruct (s_queue s) as [|t' queue] eqn:Eq; [discriminate H|].
    destruct (get String.eqb t' (s_buffers s)) as [b'|] eqn:Eg; [|discriminate H].
    injection H as -> -> <-. fields. split; [|tauto].
    assert (Hn2 : NoDup (map fst (s_buffers s))) by (rewrite (wf_buffers _ _ Hw); apply (wf_queue _ _ Hw)).
    rewrite (sum_perm _ _ _ (remove_perm String.eqb String.eqb_eq t (s_buffers s) b Hn2 Eg)).
    reflexivity.
  Qed.

  Lemma compressed_step e s s' :
    wf s -> segments_ok nonnegative s -> undisturbed e s -> commits_written e -> step e s = Next s' ->
    (e = Crash /\ excess s' = 0)
    \/ (excess s <= excess s' /\ (segments_ok single s -> excess s' = excess s)).
  Proof.
    intros Hw Hs [Hu1 [Hu2 Hu3]] Hcw H.
    enough ((e = Crash /\ excess s' = 0) \/ excess s' = excess s
      \/ (excess s <= excess s' /\ (segments_ok single s -> excess s' = excess s))) as [E|[E|E]];
      [left; exact E|right; rewrite E; split; [lia|reflexivity]|right; exact E|].
    destruct e; try (right; left; pose proof (point_same _ _ _ (ex_intro _ spilled eq_refl) H)
      as [E1 [E2 [E3 [E4 [E5 [E6 _]]]]]]; unfold excess, credit; rewrite E1, E2, E3, E5, E6; reflexivity);
      cbn [Pipeline.step] in H.
    9:{ right. left. destruct (s_client s) eqn:Ec; try discriminate H.
      - cases H; unfold excess, credit; fields; rewrite Ec; cbn [compressed_change]; lia.
      - cases H; unfold excess, credit; fields; rewrite Ec; cbn [compressed_change]; lia.
      - destruct (compressed (s_pool s) <? 0).
        + destruct (pop_buffer s) as [[[t b] s1]|] eqn:E; [|discriminate H]. injection H as <-.
          destruct (pop_credit s t b s1 Hw E) as [E1 [E2 [E3 [E4 E5]]]].
          unfold excess, credit. fields. rewrite E1, E3, E4, E5, Ec. cbn [compressed_change]. lia.
        + injection H as <-. unfold excess, credit. fields. rewrite Ec. cbn [compressed_change]. lia.
      - injection H as <-. unfold save, excess, credit. fields. rewrite Ec. cbn [compressed_change]. lia. }
    15:{ right. right. destruct (s_writer s) eqn:Ew; try discriminate H.
      destruct (s_compressed s) as [|m rest] eqn:Em; [discriminate H|].
      destruct m as [g| |]; fields.
      - assert (Hg : In (Data g) (s_compressed s)) by (rewrite Em; left; reflexivity).
        pose proof (so_channel _ _ Hs g Hg) as Hp. pose proof (credited_total (g_sizes g) 0 ltac:(lia) Hp) as Hct.
        assert (Hadd : excess s' = excess s + credited 0 (g_sizes g) - total (g_sizes g)).
        { destruct (get String.eqb (t_name (g_meta g)) (s_buffers s)) as [b|] eqn:Eg; injection H as <-;
            unfold excess, credit; fields; rewrite Ew; cbn [being_reserved].
          - rewrite (sum_put String.eqb String.eqb_eq _ _ _ b _ Eg). cbn [snd append_segments c_size]. lia.
          - rewrite (put_none String.eqb _ _ _ Eg), sum_app. cbn [sum snd append_segments c_size empty_buffer]. lia. }
        split; [lia|]. intros Hsg. rewrite (single_credited g (so_channel _ _ Hsg g Hg)) in Hadd. lia.
      - injection H as <-. unfold excess, credit. fields. rewrite Ew. cbn [being_reserved]. split; [|intros _]; lia.
      - injection H as <-. unfold excess, credit. fields. rewrite Ew. cbn [being_reserved]. split; [|intros _]; lia. }
    15:{ right. left. destruct (s_writer s) as [|t| | |] eqn:Ew; try discriminate H.
      assert (Hpop : forall t' b s1, pop_buffer s = Some (t', b, s1) ->
        excess (with_writer (Committing t' b t) s1) = excess s).
      { intros t' b s1 E. destruct (pop_credit s t' b s1 Hw E) as [E1 [E2 [E3 [E4 E5]]]].
        unfold excess, credit. fields. rewrite E1, E2, E4, E5, Ew. destruct t; cbn [being_reserved]; lia. }
      destruct t as [size| |].
      - destruct (size <=? compressed (s_pool s)).
        + injection H as <-. unfold excess, credit. fields. rewrite Ew. cbn [being_reserved]. lia.
        + destruct (pop_buffer s) as [[[t' b] s1]|] eqn:E; [|discriminate H]. injection H as <-.
          apply Hpop. reflexivity.
      - destruct (s_queue s).
        + injection H as <-. unfold excess, credit. fields. rewrite Ew. cbn [being_reserved]. lia.
        + destruct (pop_buffer s) as [[[t' b] s1]|] eqn:E; [|discriminate H]. injection H as <-.
          apply Hpop. reflexivity.
      - destruct (s_queue s).
        + injection H as <-. unfold excess, credit. fields. rewrite Ew. cbn [being_reserved]. lia.
        + destruct (pop_buffer s) as [[[t' b] s1]|] eqn:E; [|discriminate H]. injection H as <-.
          apply Hpop. reflexivity. }
    15:{ right. left. destruct (s_writer s) as [| |table b t| |] eqn:Ew; try discriminate H.
      destruct written; [|contradiction Hcw; reflexivity]. injection H as <-.
      unfold save, excess, credit. fields. rewrite Ew. destruct t; cbn [being_reserved]; lia. }
    15:{ left. injection H as <-. split; [reflexivity|]. unfold start, excess, credit. fields.
      cbn [sum compressed_change being_reserved]. lia. }
    all: right; left; unfold excess, credit; cases H;
      repeat match goal with
        | E : s_client _ = _ |- _ => rewrite E; clear E
        end; cbn [compressed_change]; lia.
  Qed.
End Memory.
