(** The data points of the pipeline of Model/Pipeline.v always belong to the series they were received for,
    whatever the threads and clients do, as long as no two series have the same hash. *)
From Coq Require Import ZArith List Bool String Permutation Lia.
From Verif Require Import Model.Pipeline Spec.PipelineSpec Proofs.PipelineMaps Proofs.PipelineInvariant
  Proofs.PipelineSteps Proofs.PipelineRuns.
Import ListNotations.
Open Scope Z_scope.

Section Series.
  Variable hash : string -> Z.
  Variable capacity : nat.
  Variable sort : list point -> list point.
  Variable logging : bool.
  Hypothesis Hsort : sorts_points sort.

  Notation step := (step hash capacity sort logging).
  Notation run := (run hash capacity sort logging).
  Notation start := (start logging).

  (** All data points that are ever received. *)
  Variable all : list item.
  Hypothesis Hfree : collision_free hash all.

  Definition known (h : Z) (m : metadata) (tags : list string) : Prop :=
    tag_hash hash (t_name m) tags = h /\ exists x, In x all /\ i_meta x = m /\ i_tags x = tags.

  Definition memory_from (h : Z) (b : memory_buffer) : Prop :=
    m_hash b = h /\ known h (m_meta b) (m_tags b) /\ incl (memory_items b) all.
  Definition disk_from (h : Z) (d : disk_buffer) : Prop :=
    d_hash d = h /\ (exists t, d_path d = (t_name (d_meta d), h, t)) /\ exists tags, known h (d_meta d) tags.
  Definition file_from (p : path) (f : file) : Prop :=
    exists m h t, p = (t_name m, h, t) /\ known h m (f_tags f) /\ incl (items m (f_tags f) (f_points f)) all.
  Definition uncompressed_from (u : uncompressed_buffer) : Prop :=
    match u with InMemory b => memory_from (m_hash b) b | OnDisk d => disk_from (d_hash d) d end.
  Definition client_from (c : client) : Prop :=
    match c with Spilling _ b => memory_from (m_hash b) b | _ => incl (held_by_client c) all end.

  Record labelled (s : state) : Prop := {
    lb_log : incl (flat_map batch_items (s_log s)) all;
    lb_client : client_from (s_client s);
    lb_ingested : incl (data batch_items (s_ingested s)) all;
    lb_ingestion : incl (held_by_ingestion (s_ingestion s)) all;
    lb_memory : forall h b, In (h, b) (s_memory s) -> memory_from h b;
    lb_disk : forall h d, In (h, d) (s_disk s) -> disk_from h d;
    lb_files : forall p f, In (p, f) (s_files s) -> file_from p f;
    lb_uncompressed : forall u, In (Data u) (s_uncompressed s) -> uncompressed_from u;
    lb_compressor : incl (held_by_compressor (s_compressor s)) all;
    lb_compressed : incl (data segment_items (s_compressed s)) all;
    lb_buffers : incl (flat_map (fun e => buffer_items (snd e)) (s_buffers s)) all;
    lb_writer : incl (held_by_writer (s_writer s)) all;
    lb_table : incl (saved s) all }.

  Lemma known_same h m tags m' tags' : known h m tags -> known h m' tags' -> m = m' /\ tags = tags'.
  Proof.
    intros [H1 [x [Hx [<- <-]]]] [H2 [y [Hy [<- <-]]]]. apply Hfree; try assumption.
    change (tag_hash hash (t_name (i_meta x)) (i_tags x) = tag_hash hash (t_name (i_meta y)) (i_tags y)).
    congruence.
  Qed.

  Lemma items_from d f : disk_from (d_hash d) d -> file_from (d_path d) f ->
    known (d_hash d) (d_meta d) (f_tags f) /\ incl (items (d_meta d) (f_tags f) (f_points f)) all.
  Proof.
    intros [_ [[t Hp] [tags Hk]]] [m [h [t' [Hp' [Hk' Hi]]]]].
    rewrite Hp in Hp'. injection Hp' as _ <- _. destruct (known_same _ _ _ _ _ Hk Hk') as [<- ->].
    split; assumption.
  Qed.

  Lemma incl_parts (A : Type) (l k m : list A) : incl (l ++ k) m <-> incl l m /\ incl k m.
  Proof.
    unfold incl. split.
    - intros H. split; intros a Ha; apply H, in_or_app; tauto.
    - intros [H1 H2] a Ha. apply in_app_or in Ha. destruct Ha; [apply H1|apply H2]; assumption.
  Qed.

  Lemma data_app (A : Type) (f : A -> list item) l k : data f (l ++ k) = data f l ++ data f k.
  Proof. unfold data. apply flat_map_app. Qed.

  Lemma incl_flat_map (A B : Type) (f : A -> list B) l k m : incl l k -> incl (flat_map f k) m -> incl (flat_map f l) m.
  Proof.
    intros H1 H2 b Hb. apply in_flat_map in Hb. destruct Hb as [a [Ha Hb]]. apply H2, in_flat_map.
    exists a. split; [apply H1; exact Ha|exact Hb].
  Qed.

  Lemma files_put (p : path) (f : file) l q g : In (q, g) (put path_eqb p f l) -> (q, g) = (p, f) \/ In (q, g) l.
  Proof.
    induction l as [|[k a] l IH]; cbn [put]; intros H.
    - destruct H as [H|[]]. left. symmetry. exact H.
    - destruct (path_eqb p k).
      + destruct H as [H|H]; [left; symmetry; exact H|right; right; exact H].
      + destruct H as [H|H]; [right; left; exact H|]. destruct (IH H) as [E|E]; [left; exact E|right; right; exact E].
  Qed.

  Lemma in_put_any (K A : Type) (eqb : K -> K -> bool) k (a : A) l q g :
    In (q, g) (put eqb k a l) -> (q, g) = (k, a) \/ In (q, g) l.
  Proof.
    induction l as [|[k' a'] l IH]; cbn [put]; intros H.
    - destruct H as [H|[]]. left. symmetry. exact H.
    - destruct (eqb k k').
      + destruct H as [H|H]; [left; symmetry; exact H|right; right; exact H].
      + destruct H as [H|H]; [right; left; exact H|]. destruct (IH H) as [E|E]; [left; exact E|right; right; exact E].
  Qed.

  Lemma get_in_any (K A : Type) (eqb : K -> K -> bool) k (a : A) l :
    get eqb k l = Some a -> exists k', eqb k k' = true /\ In (k', a) l.
  Proof.
    induction l as [|[k' a'] l IH]; cbn [get]; intros H; [discriminate H|].
    destruct (eqb k k') eqn:E.
    - injection H as <-. exists k'. split; [exact E|left; reflexivity].
    - destruct (IH H) as [q [H1 H2]]. exists q. split; [exact H1|right; exact H2].
  Qed.

  Ltac keep Hs := pose proof Hs as Hs'; destruct Hs'; constructor; fields; try assumption.

  Lemma spill_labelled s b : labelled s -> memory_from (m_hash b) b -> labelled (Pipeline.spill capacity sort b s).
  Proof.
    intros Hs [_ [Hk Hi]]. unfold Pipeline.spill. keep Hs.
    - rewrite held_wake. assumption.
    - intros h d H. apply in_put_any in H. destruct H as [H|H]; [|apply lb_disk0; exact H].
      injection H as -> ->. split; [reflexivity|]. split; [|exists (m_tags b); exact Hk].
      eexists. reflexivity.
    - intros p f H. apply in_put_any in H. destruct H as [H|H]; [|apply lb_files0; exact H].
      injection H as -> ->. exists (m_meta b), (m_hash b).
      eexists. split; [reflexivity|]. split; [exact Hk|].
      intros x Hx. apply Hi. unfold memory_items, items in *. apply in_map_iff in Hx. destruct Hx as [p [<- Hp]].
      apply in_map_iff. exists p. split; [reflexivity|].
      apply (Permutation_in p (proj1 (Hsort (m_points b)))). exact Hp.
  Qed.

  Lemma take_labelled s b s1 : labelled s -> take_buffer s = Some (b, s1) ->
    labelled s1 /\ memory_from (m_hash b) b /\ s_ingestion s1 = s_ingestion s /\ s_log s1 = s_log s.
  Proof.
    intros Hs. unfold take_buffer. destruct (s_memory s) as [|[h c] l] eqn:E; [discriminate|].
    intros H. injection H as <- <-. split; [|split; [|split; reflexivity]].
    - keep Hs. intros k d H. apply lb_memory0. rewrite E. right. exact H.
    - assert (Hm : memory_from h c) by (apply (lb_memory _ Hs); rewrite E; left; reflexivity).
      destruct Hm as [<- Hm]. split; [reflexivity|exact Hm].
  Qed.

  Lemma reserve_labelled w m s s1 ok : labelled s -> Pipeline.reserve capacity sort w m s = Some (s1, ok) ->
    labelled s1.
  Proof.
    intros Hs. unfold Pipeline.reserve.
    destruct (memory_size capacity m <=? uncompressed (s_pool s)).
    { intros H. injection H as <- <-. keep Hs. }
    destruct (s_uncompressed s) eqn:Eu; [|discriminate].
    destruct (take_buffer s) as [[b s2]|] eqn:E; [|intros H; injection H as <- <-; exact Hs].
    destruct (take_labelled s b s2 Hs E) as [H2 [Hb _]].
    destruct w; intros H; injection H as <- <-; [apply spill_labelled; assumption|].
    unfold spill_failed. keep H2. intros h c H. apply in_put_any in H. destruct H as [H|H]; [|apply lb_memory0; exact H].
    injection H as -> ->. destruct Hb as [_ [Hk _]]. split; [reflexivity|]. split; [exact Hk|].
    intros x [].
  Qed.

  Lemma add_point_from h index r b buffer :
    memory_from h buffer -> h = tag_hash hash (t_name (b_meta b)) (r_tags r) -> In (row_item b r) all ->
    memory_from h (add_point index r (b_id b) buffer).
  Proof.
    intros [Hh [Hk Hi]] E Hr. unfold add_point. split; [exact Hh|]. split; [exact Hk|].
    assert (Hk2 : known h (b_meta b) (r_tags r)).
    { split; [symmetry; exact E|]. exists (row_item b r). split; [exact Hr|]. split; reflexivity. }
    destruct (known_same _ _ _ _ _ Hk Hk2) as [E1 E2].
    unfold memory_items, items. cbn [m_points m_meta m_tags]. rewrite map_app. apply incl_parts. split; [exact Hi|].
    intros x [Hx|[]]. subst x. rewrite E1, E2. exact Hr.
  Qed.

  Lemma finish_labelled f g s : labelled s -> labelled (finish_buffers f g s).
  Proof.
    intros Hs. unfold finish_buffers. keep Hs.
    - intros h b H. apply filter_In in H. apply lb_memory0, H.
    - intros h b H. apply filter_In in H. apply lb_disk0, H.
    - intros u H. rewrite !in_app_iff in H. destruct H as [H|[H|H]]; [apply lb_uncompressed0; exact H| |].
      + apply in_map_iff in H. destruct H as [[h b] [H1 H2]]. injection H1 as <-. apply filter_In in H2.
        destruct (lb_memory0 h b (proj1 H2)) as [<- H3]. split; [reflexivity|exact H3].
      + apply in_map_iff in H. destruct H as [[h b] [H1 H2]]. injection H1 as <-. apply filter_In in H2.
        destruct (lb_disk0 h b (proj1 H2)) as [<- H3]. split; [reflexivity|exact H3].
  Qed.

  Lemma pop_labelled s t b s1 : labelled s -> pop_buffer s = Some (t, b, s1) ->
    labelled s1 /\ incl (buffer_items b) all.
  Proof.
    intros Hs. unfold pop_buffer. destruct (s_queue s); [discriminate|].
    destruct (get String.eqb s0 (s_buffers s)) as [c|] eqn:E; [|discriminate]. intros H. injection H as <- <- <-.
    apply get_in_any in E. destruct E as [k [_ E]]. split.
    - keep Hs. refine (incl_flat_map _ _ _ _ _ _ _ lb_buffers0). intros e He. unfold remove in He.
      apply filter_In in He. apply He.
    - intros x Hx. apply (lb_buffers _ Hs). apply in_flat_map. exists (k, c). split; [exact E|exact Hx].
  Qed.

  Lemma save_labelled t b s : labelled s -> incl (buffer_items b) all -> labelled (save t b s).
  Proof.
    intros Hs Hb. unfold save. keep Hs. unfold saved in *. fields. rewrite flat_map_app. apply incl_parts.
    split; [assumption|]. cbn [flat_map]. rewrite app_nil_r. exact Hb.
  Qed.

  Lemma point_labelled w s s' : labelled s -> step (Point w) s = Next s' -> labelled s'.
  Proof.
    intros Hs H. cbn [Pipeline.step] in H.
    destruct (s_ingestion s) as [|b l wt| | |] eqn:Ei; try discriminate H.
    destruct l as [|r l]; [discriminate H|]. destruct wt; [discriminate H|].
    unfold insert_data_point in H. cbv zeta in H.
    assert (Hrow : In (row_item b r) all /\ incl (row_items (b_meta b) (b_id b) l) all).
    { pose proof (lb_ingestion _ Hs) as Hi. rewrite Ei in Hi. cbn [held_by_ingestion row_items map] in Hi.
      split; [apply Hi; left; reflexivity|]. intros x Hx. apply Hi. right. exact Hx. }
    destruct Hrow as [Hr Hl].
    assert (Hins : forall s1 full buffer h, labelled s1 -> memory_from h buffer -> labelled (inserted h full buffer b l s1)).
    { intros s1 full buffer h H1 Hb. unfold inserted. keep H1.
      - destruct full; exact Hl.
      - intros k c Hc. apply in_put_any in Hc. destruct Hc as [Hc|Hc]; [|apply lb_memory0; exact Hc].
        injection Hc as -> ->. exact Hb. }
    destruct (get Z.eqb _ (s_memory s)) as [buffer|] eqn:Eg.
    - injection H as <-. apply get_in_any in Eg. destruct Eg as [k [Ek Eg]]. apply Z.eqb_eq in Ek. subst k.
      apply Hins; [exact Hs|]. apply add_point_from; [apply (lb_memory _ Hs); exact Eg|reflexivity|exact Hr].
    - destruct (Pipeline.reserve _ _ _ _ _) as [[s1 ok]|] eqn:Er.
      + pose proof (reserve_labelled _ _ _ _ _ Hs Er) as H1. destruct ok.
        * destruct (get Z.eqb _ (s_disk s1)) as [d|] eqn:Ed.
          -- apply get_in_any in Ed. destruct Ed as [k [Ek Ed]]. apply Z.eqb_eq in Ek. subst k.
             pose proof (lb_disk _ H1 _ _ Ed) as Hd.
             destruct (get path_eqb _ (s_files s1)) as [f|] eqn:Ef.
             ++ injection H as <-. apply get_in_any in Ef. destruct Ef as [q [Eq Ef]]. apply path_eqb_eq in Eq. subst q.
                pose proof (lb_files _ H1 _ _ Ef) as Hf.
                destruct Hd as [Eh Hd]. rewrite <- Eh in Hd.
                destruct (items_from d f (conj eq_refl Hd) Hf) as [Hk Hi].
                apply Hins.
                ** keep H1.
                   --- intros h c Hc. apply lb_disk0. unfold remove in Hc. apply filter_In in Hc. apply Hc.
                   --- intros p g Hc. apply lb_files0. unfold remove in Hc. apply filter_In in Hc. apply Hc.
                ** apply add_point_from; [|reflexivity|exact Hr]. rewrite Eh in Hk.
                   split; [exact Eh|]. split; [exact Hk|exact Hi].
             ++ injection H as <-. keep H1. intros x [].
          -- injection H as <-. apply Hins; [exact H1|]. apply add_point_from; [|reflexivity|exact Hr].
             split; [reflexivity|]. split; [|intros x []].
             split; [reflexivity|]. exists (row_item b r). split; [exact Hr|]. split; reflexivity.
        * injection H as <-. keep H1. intros x [].
      + injection H as <-. keep Hs.
        cbn [held_by_ingestion row_items map]. intros x [Hx|Hx]; [subst x; exact Hr|apply Hl; exact Hx].
  Qed.

  Lemma start_labelled limits log t : incl (flat_map batch_items log) all -> incl (flat_map commit_items t) all ->
    labelled (start limits log t).
  Proof.
    intros H1 H2. constructor; cbn [Pipeline.start]; fields; try exact H1; try exact H2; try (intros ? ? []); try (intros ? []).
    cbn [client_from held_by_client]. destruct logging; [|intros x []].
    refine (incl_flat_map _ _ _ _ _ _ _ H1). intros b Hb. unfold replayed in Hb. apply filter_In in Hb. apply Hb.
  Qed.

  Lemma in_to_front (A : Type) n (l : list A) a : In a (to_front n l) -> In a l.
  Proof. apply Permutation_in, to_front_perm. Qed.

  Lemma step_labelled e s s' : labelled s -> incl (received s') all -> step e s = Next s' -> labelled s'.
  Proof.
    intros Hs Hr H. destruct e; try (apply (point_labelled spilled s s'); assumption); cbn [Pipeline.step] in H.
    - (* Insert *)
      destruct (s_client s) eqn:Ec; try discriminate H. destruct (0 <=? size); [|discriminate H]. injection H as <-.
      unfold received in Hr. fields. keep Hs. cbn [client_from held_by_client]. rewrite flat_map_app in Hr.
      apply incl_parts in Hr. destruct Hr as [_ Hr]. cbn [flat_map] in Hr. rewrite app_nil_r in Hr. exact Hr.
    - (* Send *)
      destruct (s_client s) eqn:Ec; try discriminate H. destruct (b_size b <=? ingested (s_pool s)); [|discriminate H].
      injection H as <-. keep Hs; [intros x []|]. rewrite Ec in lb_client0. rewrite data_app. apply incl_parts.
      split; [assumption|]. cbn [data flat_map]. rewrite app_nil_r. exact lb_client0.
    - (* Request_flush *)
      destruct (s_client s) eqn:Ec; try discriminate H. injection H as <-. keep Hs; [intros x []|].
      rewrite data_app. apply incl_parts. split; [assumption|]. intros x [].
    - (* Request_stop *)
      destruct (s_client s) eqn:Ec; try discriminate H. injection H as <-. keep Hs; [intros x []|].
      rewrite data_app. apply incl_parts. split; [assumption|]. intros x [].
    - (* Return *)
      destruct (s_client s) eqn:Ec; try discriminate H; destruct (s_results s); try discriminate H.
      + injection H as <-. keep Hs. intros x [].
      + destruct (is_finished s); [|discriminate H]. injection H as <-. keep Hs. intros x [].
    - (* Adjust_ingested *)
      destruct (s_client s) eqn:Ec; try discriminate H. destruct (0 <=? _); [|discriminate H]. injection H as <-.
      keep Hs.
    - (* Adjust_uncompressed *)
      destruct (s_client s) eqn:Ec; try discriminate H. destruct (0 <=? _); [|discriminate H]. injection H as <-.
      keep Hs; [intros x []|]. rewrite held_wake. assumption.
    - (* Adjust_compressed *)
      destruct (s_client s) eqn:Ec; try discriminate H. destruct (0 <=? _); [|discriminate H]. injection H as <-.
      keep Hs; intros x [].
    - (* Adjust *)
      destruct (s_client s) eqn:Ec; try discriminate H.
      + destruct (uncompressed (s_pool s) <? 0); [|injection H as <-; keep Hs; intros x []].
        destruct (take_buffer s) as [[b s1]|] eqn:Et.
        * destruct (take_labelled s b s1 Hs Et) as [H1 [Hb _]]. injection H as <-. keep H1.
        * injection H as <-. keep Hs; [intros x []|]. rewrite held_wake. assumption.
      + injection H as <-. pose proof (lb_client _ Hs) as Hb. rewrite Ec in Hb.
        pose proof (spill_labelled s b Hs Hb) as H1. keep H1. intros x [].
      + destruct (compressed (s_pool s) <? 0); [|injection H as <-; keep Hs; intros x []].
        destruct (pop_buffer s) as [[[t b] s1]|] eqn:Et; [|discriminate H].
        destruct (pop_labelled s t b s1 Hs Et) as [H1 Hb]. injection H as <-. keep H1.
      + injection H as <-. pose proof (lb_client _ Hs) as Hb. rewrite Ec in Hb.
        pose proof (save_labelled table b s Hs Hb) as H1. keep H1. intros x [].
    - (* Replay *)
      destruct (s_client s) eqn:Ec; try discriminate H. destruct rest as [|b rest].
      + injection H as <-. keep Hs. intros x [].
      + destruct (b_size b <=? ingested (s_pool s)); [|discriminate H]. injection H as <-.
        pose proof (lb_client _ Hs) as Hc. rewrite Ec in Hc. cbn [client_from held_by_client flat_map] in Hc.
        apply incl_parts in Hc. destruct Hc as [Hc1 Hc2]. keep Hs. rewrite data_app. apply incl_parts.
        split; [assumption|]. cbn [data flat_map]. rewrite app_nil_r. exact Hc1.
    - (* Receive *)
      destruct (s_ingestion s) eqn:Ei; try discriminate H. destruct (s_ingested s) as [|m rest] eqn:Eg; [discriminate H|].
      assert (Hm : match m with Data b => incl (batch_items b) all | _ => True end
                   /\ incl (data batch_items rest) all).
      { pose proof (lb_ingested _ Hs) as Hg. rewrite Eg in Hg. destruct m; cbn [data flat_map] in Hg; [|split; [exact I|exact Hg]..].
        apply incl_parts in Hg. exact Hg. }
      destruct Hm as [Hm Hrest].
      assert (Hf : labelled (finish_all (with_ingested rest s))) by (apply finish_labelled; keep Hs).
      destruct m; injection H as <-.
      + keep Hs.
      + keep Hf. intros u Hu. rewrite in_app_iff in Hu.
        destruct Hu as [Hu|[Hu|[]]]; [apply lb_uncompressed0; exact Hu|discriminate Hu].
      + keep Hf; [intros x []|]. intros u Hu. rewrite in_app_iff in Hu.
        destruct Hu as [Hu|[Hu|[]]]; [apply lb_uncompressed0; exact Hu|discriminate Hu].
    - (* Send_full *)
      destruct (s_ingestion s) as [| |h b rest| |] eqn:Ei; try discriminate H.
      destruct (get Z.eqb h (s_memory s)) as [buffer|] eqn:Eg; [|discriminate H]. injection H as <-.
      apply get_in_any in Eg. destruct Eg as [k [Ek Eg]]. pose proof (lb_memory _ Hs _ _ Eg) as Hb.
      pose proof (lb_ingestion _ Hs) as Hi. rewrite Ei in Hi. keep Hs.
      + intros h' c Hc. apply lb_memory0. unfold remove in Hc. apply filter_In in Hc. apply Hc.
      + intros u Hu. rewrite in_app_iff in Hu. destruct Hu as [Hu|[Hu|[]]]; [apply lb_uncompressed0; exact Hu|].
        injection Hu as <-. destruct Hb as [<- Hb]. split; [reflexivity|exact Hb].
    - (* Finish *)
      destruct (s_ingestion s) as [|b rest w| | |] eqn:Ei; try discriminate H.
      destruct rest; [|discriminate H]. injection H as <-.
      pose proof (finish_labelled (fun u => is_unused u (s_index s)) (fun u => is_unused u (s_index s)) s Hs) as H1.
      keep H1. intros x [].
    - (* Compress *)
      destruct (s_compressor s) eqn:Ek; try discriminate H.
      destruct (s_uncompressed s) as [|m rest] eqn:Eu; [discriminate H|].
      assert (Hrest : forall u, In (Data u) rest -> uncompressed_from u).
      { intros u Hu. apply (lb_uncompressed _ Hs). rewrite Eu. right. exact Hu. }
      assert (Hm : match m with Data u => uncompressed_from u | _ => True end).
      { destruct m; try exact I. apply (lb_uncompressed _ Hs). rewrite Eu. left. reflexivity. }
      destruct m as [[b|d]| |].
      + injection H as <-. keep Hs. cbn [held_by_compressor]. destruct Hm as [_ [_ Hm]].
        intros x Hx. apply Hm. unfold memory_items, items in *. apply in_map_iff in Hx. destruct Hx as [p [<- Hp]].
        apply in_map_iff. exists p. split; [reflexivity|].
        apply (Permutation_in p (proj1 (Hsort (m_points b)))). exact Hp.
      + destruct (get path_eqb _ (s_files s)) as [f|] eqn:Ef.
        * injection H as <-. apply get_in_any in Ef. destruct Ef as [q [Eq Ef]]. apply path_eqb_eq in Eq. subst q.
          destruct (items_from d f Hm (lb_files _ Hs _ _ Ef)) as [_ Hi]. keep Hs.
          intros p g Hc. apply lb_files0. unfold remove in Hc. apply filter_In in Hc. apply Hc.
        * injection H as <-. keep Hs. intros x [].
      + injection H as <-. keep Hs. rewrite data_app. apply incl_parts. split; [assumption|]. intros x [].
      + injection H as <-. keep Hs; [intros x []|]. rewrite data_app. apply incl_parts. split; [assumption|]. intros x [].
    - (* Send_segments *)
      destruct (s_compressor s) eqn:Ek; try discriminate H. destruct (_ && _); [|discriminate H]. injection H as <-.
      pose proof (lb_compressor _ Hs) as Hc. rewrite Ek in Hc. keep Hs.
      + rewrite held_wake. assumption.
      + intros x [].
      + rewrite data_app. apply incl_parts. split; [assumption|]. cbn [data flat_map]. rewrite app_nil_r. exact Hc.
    - (* Write *)
      destruct (s_writer s) eqn:Ew; try discriminate H. destruct (s_compressed s) as [|m rest] eqn:Eg; [discriminate H|].
      assert (Hm : match m with Data g => incl (segment_items g) all | _ => True end
                   /\ incl (data segment_items rest) all).
      { pose proof (lb_compressed _ Hs) as Hg. rewrite Eg in Hg. destruct m; cbn [data flat_map] in Hg; [|split; [exact I|exact Hg]..].
        apply incl_parts in Hg. exact Hg. }
      destruct Hm as [Hm Hrest].
      destruct m as [g| |].
      + cbv zeta in H. fields.
        assert (Hput : forall c, incl (buffer_items c) all ->
          incl (flat_map (fun e => buffer_items (snd e))
            (put String.eqb (t_name (g_meta g)) (append_segments g c) (s_buffers s))) all).
        { intros c Hc x Hx. apply in_flat_map in Hx. destruct Hx as [[k a] [H1 H2]]. apply in_put_any in H1.
          destruct H1 as [H1|H1].
          - injection H1 as -> ->. unfold buffer_items in H2. cbn [snd append_segments c_segments] in H2.
            rewrite flat_map_app in H2. apply in_app_or in H2. destruct H2 as [H2|H2]; [apply Hc; exact H2|].
            cbn [flat_map] in H2. rewrite app_nil_r in H2. apply Hm. exact H2.
          - apply (lb_buffers _ Hs). apply in_flat_map. exists (k, a). split; assumption. }
        destruct (get String.eqb _ (s_buffers s)) as [c|] eqn:Ec; injection H as <-.
        * apply get_in_any in Ec. destruct Ec as [k [_ Ec]].
          assert (Hc : incl (buffer_items c) all).
          { intros x Hx. apply (lb_buffers _ Hs). apply in_flat_map. exists (k, c). split; assumption. }
          pose proof (Hput c Hc) as Hp. keep Hs; intros x [].
        * assert (Hc : incl (buffer_items empty_buffer) all) by (intros x []).
          pose proof (Hput empty_buffer Hc) as Hp. keep Hs; intros x [].
      + injection H as <-. keep Hs; intros x [].
      + injection H as <-. keep Hs; intros x [].
    - (* Work *)
      destruct (s_writer s) as [|t| | |] eqn:Ew; try discriminate H.
      assert (Hpop : forall t', match pop_buffer s with
               | Some (table, b, s1) => Next (with_writer (Committing table b t') s1)
               | None => Aborted
               end = Next s' -> labelled s').
      { intros t' Hp. destruct (pop_buffer s) as [[[t1 b] s1]|] eqn:Et; [|discriminate Hp].
        destruct (pop_labelled s t1 b s1 Hs Et) as [H1 Hb]. injection Hp as <-. keep H1. }
      destruct t as [size| |].
      + destruct (size <=? compressed (s_pool s)); [injection H as <-; keep Hs; intros x []|]. apply (Hpop _ H).
      + destruct (s_queue s); [injection H as <-; keep Hs; intros x []|]. apply (Hpop _ H).
      + destruct (s_queue s); [injection H as <-; keep Hs; intros x []|]. apply (Hpop _ H).
    - (* Commit *)
      destruct (s_writer s) as [| |table b t| |] eqn:Ew; try discriminate H.
      pose proof (lb_writer _ Hs) as Hb. rewrite Ew in Hb.
      destruct written.
      + injection H as <-. pose proof (save_labelled table b s Hs Hb) as H1. keep H1; intros x [].
      + destruct t; injection H as <-; keep Hs; intros x [].
    - (* Crash *)
      injection H as <-. apply start_labelled; [apply (lb_log _ Hs)|apply (lb_table _ Hs)].
    - (* Reorder_memory *)
      injection H as <-. keep Hs. intros h b Hb. apply in_to_front in Hb. apply lb_memory0. exact Hb.
    - (* Reorder_disk *)
      injection H as <-. keep Hs. intros h b Hb. apply in_to_front in Hb. apply lb_disk0. exact Hb.
  Qed.

  Lemma labelled_parts s : labelled s -> incl (saved s ++ live s) all.
  Proof.
    intros Hs. destruct Hs. apply incl_parts. split; [exact lb_table0|]. unfold live.
    assert (Hd : forall d, disk_from (d_hash d) d -> incl (disk_items (s_files s) d) all).
    { intros d Hd. unfold disk_items. destruct (get path_eqb (d_path d) (s_files s)) as [f|] eqn:E; [|intros x []].
      apply get_in_any in E. destruct E as [q [Eq E]]. apply path_eqb_eq in Eq. subst q.
      apply (items_from d f Hd (lb_files0 _ _ E)). }
    repeat (apply incl_parts; split); try assumption.
    - destruct (s_client s); try exact lb_client0. apply lb_client0.
    - intros x Hx. apply in_flat_map in Hx. destruct Hx as [[h b] [H1 H2]]. apply (lb_memory0 _ _ H1). exact H2.
    - intros x Hx. apply in_flat_map in Hx. destruct Hx as [[h d] [H1 H2]]. destruct (lb_disk0 _ _ H1) as [<- H3].
      apply (Hd d (conj eq_refl H3)). exact H2.
    - intros x Hx. apply in_flat_map in Hx. destruct Hx as [[u| |] [H1 H2]]; try contradiction H2.
      pose proof (lb_uncompressed0 _ H1) as Hu. destruct u as [b|d]; [apply Hu; exact H2|apply (Hd d Hu); exact H2].
  Qed.
End Series.

Section Runs.
  Variable hash : string -> Z.
  Variable capacity : nat.
  Variable sort : list point -> list point.
  Variable logging : bool.
  Hypothesis Hsort : sorts_points sort.

  Notation step := (step hash capacity sort logging).
  Notation run := (run hash capacity sort logging).
  Notation start := (start logging).

  Lemma run_labelled all : collision_free hash all -> forall events s s',
    labelled hash all s -> log_ok logging (s_log s) -> run events s = Next s' -> incl (received s') all ->
    labelled hash all s'.
  Proof.
    intros Hc. induction events as [|e events IH]; intros s s' Hs Hl H Hr; cbn [Pipeline.run] in H.
    - injection H as <-. exact Hs.
    - destruct (step e s) as [| |s1] eqn:E; try discriminate H.
      destruct (step_log_ok _ _ _ _ e s s1 E Hl) as [_ Hl1].
      destruct (run_received _ _ _ _ events s1 s' H Hl1) as [Hp _]. apply received_prefix in Hp.
      destruct Hp as [new Hp]. rewrite Hp in Hr.
      assert (H1 : incl (received s1) all) by (intros x Hx; apply Hr, in_or_app; left; exact Hx).
      apply (IH s1 s'); try assumption.
      + apply (step_labelled hash capacity sort logging Hsort all Hc e s s1 Hs H1 E).
      + rewrite Hp. exact Hr.
  Qed.

  (** Every data point in the pipeline and in the tables is one that was received, for the same table and
      with the same tag values. *)
  Lemma series_kept events limits s :
    run events (start limits [] []) = Next s -> collision_free hash (received s) ->
    incl (saved s ++ live s) (received s).
  Proof.
    intros H Hc. apply (labelled_parts hash (received s) Hc).
    apply (run_labelled (received s) Hc events (start limits [] []) s).
    - apply start_labelled; intros x [].
    - apply (inv_log hash logging). apply (start_inv hash). 
    - exact H.
    - apply incl_refl.
  Qed.
End Runs.
