(** If the data points of each time series are received in the order of their timestamps, then no
    buffer of a series has data points between those of another one. *)
From Coq Require Import ZArith List Bool String Permutation Sorted Lia.
From Verif Require Import Model.Pipeline Spec.PipelineSpec Proofs.PipelineMaps Proofs.PipelineInvariant
  Proofs.PipelineSteps Proofs.PipelineRuns.
From Verif Require Model.EndToEnd Spec.EndToEndSpec.
Import ListNotations.
Open Scope Z_scope.
Notation in_time_order := EndToEndSpec.in_time_order.

Definition at_ (m : metadata) (tags : list string) (p : point) : item :=
  {| i_meta := m; i_tags := tags; i_point := p |}.

(** [dn] are the data points that were put in buffers. The data points of an open buffer are the last
    ones of its series, and those of a closed one have none between them. *)
Definition open_ok (dn : list item) (m : metadata) (tags : list string) (l : list point) : Prop :=
  (forall p, In p l -> In (at_ m tags p) dn)
  /\ (forall p q, In p l -> In (at_ m tags q) dn -> p_time p < p_time q -> In q l).
Definition closed_ok (dn : list item) (m : metadata) (tags : list string) (l : list point) : Prop :=
  (forall p, In p l -> In (at_ m tags p) dn)
  /\ (forall p q r, In p l -> In r l -> In (at_ m tags q) dn -> p_time p < p_time q -> p_time q < p_time r ->
      In q l).
Definition group_ok (dn : list item) (g : segments) : Prop := closed_ok dn (g_meta g) (g_tags g) (g_points g).
Definition groups_ok (dn : list item) (l : list segments) : Prop := forall g, In g l -> group_ok dn g.

Lemma open_closed dn m tags l : open_ok dn m tags l -> closed_ok dn m tags l.
Proof. intros [H1 H2]. split; [exact H1|]. intros p q r Hp _ Hq Hpq _. exact (H2 p q Hp Hq Hpq). Qed.
Lemma open_perm dn m tags l k : Permutation l k -> open_ok dn m tags l -> open_ok dn m tags k.
Proof.
  intros P [H1 H2]. split.
  - intros p Hp. apply H1. apply (Permutation_in p (Permutation_sym P) Hp).
  - intros p q Hp Hq Hpq. apply (Permutation_in q P). apply (H2 p q); [|exact Hq|exact Hpq].
    apply (Permutation_in p (Permutation_sym P) Hp).
Qed.
Lemma closed_perm dn m tags l k : Permutation l k -> closed_ok dn m tags l -> closed_ok dn m tags k.
Proof.
  intros P [H1 H2]. split.
  - intros p Hp. apply H1. apply (Permutation_in p (Permutation_sym P) Hp).
  - intros p q r Hp Hr Hq Hpq Hqr. apply (Permutation_in q P).
    apply (H2 p q r); [apply (Permutation_in p (Permutation_sym P) Hp)|apply (Permutation_in r (Permutation_sym P) Hr)| | |]; assumption.
Qed.

Lemma ordered_last dn x : in_time_order (dn ++ [x]) -> forall y, In y dn -> i_meta y = i_meta x -> i_tags y = i_tags x ->
  p_time (i_point y) < p_time (i_point x).
Proof.
  induction dn as [|z dn IH]; intros H y Hy Em Et; [contradiction Hy|].
  cbn [app] in H. inversion H as [|a l H1 H2]; subst. destruct Hy as [->|Hy]; [|exact (IH H2 y Hy Em Et)].
  rewrite Forall_forall in H1. apply (H1 x); [|exact Em|exact Et]. apply in_app_iff. right. left. reflexivity.
Qed.
Lemma ordered_prefix l k : in_time_order (l ++ k) -> in_time_order l.
Proof.
  induction l as [|x l IH]; intros H; [constructor|]. cbn [app] in H. inversion H as [|a j H1 H2]; subst.
  constructor; [|exact (IH H2)]. apply Forall_forall. intros y Hy. rewrite Forall_forall in H1. apply H1.
  apply in_app_iff. left. exact Hy.
Qed.
Lemma in_snoc {A} (a b : A) l : In a (l ++ [b]) <-> In a l \/ a = b.
Proof. rewrite in_app_iff. cbn [In]. split; intros [H|H]; auto. destruct H as [<-|[]]; auto. Qed.

Section Grow.
  Variables (dn : list item) (x : item).
  Hypothesis Horder : in_time_order (dn ++ [x]).

  Lemma closed_grow m tags l : closed_ok dn m tags l -> closed_ok (dn ++ [x]) m tags l.
  Proof.
    intros [H1 H2]. split.
    - intros p Hp. apply in_snoc. left. exact (H1 p Hp).
    - intros p q r Hp Hr Hq Hpq Hqr. apply in_snoc in Hq. destruct Hq as [Hq|E]; [exact (H2 p q r Hp Hr Hq Hpq Hqr)|].
      exfalso. pose proof (ordered_last dn x Horder _ (H1 r Hr)) as H. rewrite <- E in H. cbn [at_ i_meta i_tags i_point] in H.
      specialize (H eq_refl eq_refl). lia.
  Qed.
  Lemma open_grow m tags l : ~ (m = i_meta x /\ tags = i_tags x) -> open_ok dn m tags l -> open_ok (dn ++ [x]) m tags l.
  Proof.
    intros Hn [H1 H2]. split.
    - intros p Hp. apply in_snoc. left. exact (H1 p Hp).
    - intros p q Hp Hq Hpq. apply in_snoc in Hq. destruct Hq as [Hq|E]; [exact (H2 p q Hp Hq Hpq)|].
      contradiction Hn. rewrite <- E. split; reflexivity.
  Qed.
  Lemma open_add l : open_ok dn (i_meta x) (i_tags x) l -> open_ok (dn ++ [x]) (i_meta x) (i_tags x) (l ++ [i_point x]).
  Proof.
    assert (Ex : x = at_ (i_meta x) (i_tags x) (i_point x)) by (destruct x; reflexivity).
    intros [H1 H2]. split.
    - intros p Hp. apply in_snoc in Hp. apply in_snoc. destruct Hp as [Hp| ->]; [left; exact (H1 p Hp)|right; symmetry; exact Ex].
    - intros p q Hp Hq Hpq. apply in_snoc in Hp. apply in_snoc in Hq. apply in_snoc.
      destruct Hq as [Hq|E]; [|right; rewrite <- E; reflexivity].
      destruct Hp as [Hp| ->]; [left; exact (H2 p q Hp Hq Hpq)|].
      exfalso. pose proof (ordered_last dn x Horder _ Hq eq_refl eq_refl) as H. cbn [at_ i_point] in H. lia.
  Qed.
  Lemma open_new : open_ok (dn ++ [x]) (i_meta x) (i_tags x) [i_point x].
  Proof. apply (open_add []). split; [intros p []|intros p q []]. Qed.
End Grow.

Record contiguous (dn : list item) (s : state) : Prop := {
  cg_memory : forall h b, In (h, b) (s_memory s) -> open_ok dn (m_meta b) (m_tags b) (m_points b);
  cg_hand : forall b, In b (hand (s_client s)) -> open_ok dn (m_meta b) (m_tags b) (m_points b);
  cg_disk : forall h d f, In (h, d) (s_disk s) -> get path_eqb (d_path d) (s_files s) = Some f ->
    open_ok dn (d_meta d) (f_tags f) (f_points f);
  cg_waiting : forall b, In (Data (InMemory b)) (s_uncompressed s) -> closed_ok dn (m_meta b) (m_tags b) (m_points b);
  cg_spilled : forall d f, In (Data (OnDisk d)) (s_uncompressed s) -> get path_eqb (d_path d) (s_files s) = Some f ->
    closed_ok dn (d_meta d) (f_tags f) (f_points f);
  cg_busy : forall n m tags points ids, s_compressor s = Busy n m tags points ids -> closed_ok dn m tags points;
  cg_channel : forall g, In (Data g) (s_compressed s) -> group_ok dn g;
  cg_buffers : forall t b, In (t, b) (s_buffers s) -> groups_ok dn (c_segments b);
  cg_saving : forall c t b, s_client s = Saving c t b -> groups_ok dn (c_segments b);
  cg_writer : forall t b k, s_writer s = Committing t b k -> groups_ok dn (c_segments b);
  cg_table : forall k, In k (s_table s) -> groups_ok dn (k_segments k) }.

Definition client_pending (c : client) : list item :=
  match c with Inserting b => batch_items b | Replaying l => flat_map batch_items l | _ => [] end.
Definition pending (s : state) : list item :=
  held_by_ingestion (s_ingestion s) ++ data batch_items (s_ingested s) ++ client_pending (s_client s).

(** Everything that is not in a buffer yet follows what is. *)
Definition follows (dn : list item) (s : state) : Prop :=
  exists rest, received s = dn ++ rest /\ (s_ingestion s = Failed \/ rest = pending s).

Section Contiguous.
  Variable hash : string -> Z.
  Variable capacity : nat.
  Variable sort : list point -> list point.
  Variable logging : bool.
  Hypothesis Hsort : sorts_points sort.

  Notation step := (step hash capacity sort logging).
  Notation run := (run hash capacity sort logging).
  Notation start := (start logging).
  Notation wf := (wf hash).
  Notation tag_hash := (tag_hash hash).
  Notation spill := (spill capacity sort).
  Notation reserve := (reserve capacity sort).

  Lemma get_removed p (files : list (path * file)) q f : get path_eqb q (remove path_eqb p files) = Some f -> get path_eqb q files = Some f.
  Proof.
    intros H. destruct (path_eqb p q) eqn:E.
    - apply path_eqb_eq in E. subst q. exfalso. apply (get_in path_eqb path_eqb_eq) in H.
      unfold remove in H. apply filter_In in H. destruct H as [_ H]. cbn [fst] in H.
      rewrite (proj2 (path_eqb_eq p p) eq_refl) in H. discriminate H.
    - rewrite (get_remove_other path_eqb path_eqb_eq) in H; [exact H|]. intros ->.
      rewrite (proj2 (path_eqb_eq p p) eq_refl) in E. discriminate E.
  Qed.

  Lemma append_groups dn g b : group_ok dn g -> groups_ok dn (c_segments b) ->
    groups_ok dn (c_segments (append_segments g b)).
  Proof.
    intros Hg Hb x Hx. cbn [append_segments c_segments] in Hx. apply in_app_iff in Hx.
    destruct Hx as [Hx|[<-|[]]]; [exact (Hb x Hx)|exact Hg].
  Qed.

  Lemma pop_contiguous dn s t b s1 : contiguous dn s -> pop_buffer s = Some (t, b, s1) ->
    contiguous dn s1 /\ groups_ok dn (c_segments b).
  Proof.
    intros Hs H. unfold pop_buffer in H. destruct (s_queue s) as [|t' q]; [discriminate H|].
    destruct (get String.eqb t' (s_buffers s)) as [b'|] eqn:E; [|discriminate H].
    injection H as -> -> <-. destruct Hs as [H1 H2 H3 H4 H5 H6 H7 H8 H9 H10 H11]. split.
    - constructor; fields; try assumption. intros t' b' H. apply (H8 t'). apply (in_remove String.eqb t). exact H.
    - apply (H8 t). apply (get_in String.eqb String.eqb_eq). exact E.
  Qed.

  Lemma spill_contiguous dn s b : contiguous dn s -> open_ok dn (m_meta b) (m_tags b) (m_points b) ->
    (forall d, In d (refs s) -> d_path d <> spilled_path sort b) -> contiguous dn (spill b s).
  Proof.
    intros [H1 H2 H3 H4 H5 H6 H7 H8 H9 H10 H11] Hb Hp. constructor; unfold Pipeline.spill; fields; try assumption.
    - intros h d f Hd Hf. apply (in_put Z.eqb) in Hd. destruct Hd as [[_ ->]|Hd].
      + cbn [spilled d_path d_meta] in *. rewrite (get_put path_eqb path_eqb_eq) in Hf. injection Hf as <-.
        cbn [spilled_file f_tags f_points]. refine (open_perm _ _ _ _ _ _ Hb). symmetry. apply Hsort.
      + rewrite (get_put_other path_eqb path_eqb_eq) in Hf; [exact (H3 h d f Hd Hf)|].
        apply Hp. apply in_refs_disk. apply in_map_iff. exists (h, d). split; [reflexivity|exact Hd].
    - intros d f Hd Hf. rewrite (get_put_other path_eqb path_eqb_eq) in Hf; [exact (H5 d f Hd Hf)|].
      apply Hp. apply in_refs_channel. apply in_flat_map. exists (Data (OnDisk d)). split; [exact Hd|left; reflexivity].
  Qed.

  Lemma save_contiguous dn t b s : contiguous dn s -> groups_ok dn (c_segments b) -> contiguous dn (save t b s).
  Proof.
    intros [H1 H2 H3 H4 H5 H6 H7 H8 H9 H10 H11] Hb. constructor; unfold save; fields; try assumption.
    intros k H. apply in_app_iff in H. destruct H as [H|[<-|[]]]; [exact (H11 k H)|exact Hb].
  Qed.

  Lemma finish_contiguous dn f g s : contiguous dn s -> contiguous dn (finish_buffers f g s).
  Proof.
    intros [H1 H2 H3 H4 H5 H6 H7 H8 H9 H10 H11]. constructor; unfold finish_buffers; fields; try assumption.
    - intros h b H. apply filter_In in H. exact (H1 h b (proj1 H)).
    - intros h d x H. apply filter_In in H. exact (H3 h d x (proj1 H)).
    - intros b H. rewrite !in_app_iff in H. destruct H as [H|[H|H]]; [exact (H4 b H)| |].
      + apply in_map_iff in H. destruct H as [[h c] [E H]]. injection E as ->. apply filter_In in H.
        apply open_closed. exact (H1 h b (proj1 H)).
      + apply in_map_iff in H. destruct H as [e [E _]]. discriminate E.
    - intros d x H Hx. rewrite !in_app_iff in H. destruct H as [H|[H|H]]; [exact (H5 d x H Hx)| |].
      + apply in_map_iff in H. destruct H as [e [E _]]. discriminate E.
      + apply in_map_iff in H. destruct H as [[h c] [E H]]. injection E as ->. apply filter_In in H.
        apply open_closed. exact (H3 h d x (proj1 H) Hx).
  Qed.

  Lemma reserve_contiguous dn s m s1 ok :
    wf s -> below s -> collision_free hash (received s) -> distinct_times (received s) ->
    contiguous dn s -> reserve true m s = Some (s1, ok) -> contiguous dn s1.
  Proof.
    intros Hw Hb Hc Ht Hs E. unfold Pipeline.reserve, take_buffer in E.
    destruct (memory_size capacity m <=? uncompressed (s_pool s)).
    { injection E as <- _. destruct Hs; constructor; assumption. }
    destruct (s_uncompressed s) eqn:Eu; [|discriminate E].
    destruct (s_memory s) as [|[h c] k] eqn:Em; [injection E as <- _; exact Hs|].
    injection E as <- _. destruct Hs as [H1 H2 H3 H4 H5 H6 H7 H8 H9 H10 H11]. apply spill_contiguous.
    - constructor; fields; try assumption. intros h' b H. apply (H1 h'). rewrite Em. right. exact H.
    - apply (H1 h). rewrite Em. left. reflexivity.
    - intros d Hd. apply (fresh_path hash sort Hsort s c d); try assumption.
      left. exists h. rewrite Em. left. reflexivity.
  Qed.

  (** The buffers of other hashes are those of other series. *)
  Lemma other_memory s x h b : wf s -> In (h, b) (s_memory s) -> h <> tag_hash (t_name (i_meta x)) (i_tags x) ->
    ~ (m_meta b = i_meta x /\ m_tags b = i_tags x).
  Proof.
    intros Hw Hin Hne [Em Et]. destruct (wf_memory _ _ Hw h b Hin) as [_ [Hh _]]. apply Hne. rewrite Hh, Em, Et. reflexivity.
  Qed.
  Lemma other_disk s x h d f : wf s -> In (h, d) (s_disk s) -> get path_eqb (d_path d) (s_files s) = Some f ->
    h <> tag_hash (t_name (i_meta x)) (i_tags x) -> ~ (d_meta d = i_meta x /\ f_tags f = i_tags x).
  Proof.
    intros Hw Hin Hf Hne [Em Et]. pose proof (wf_disk _ _ Hw h d Hin) as Hh.
    destruct (wf_refs _ _ Hw d) as [f' [p [ps [Hf' [_ [Hd _]]]]]].
    { apply in_refs_disk. apply in_map_iff. exists (h, d). split; [reflexivity|exact Hin]. }
    assert (f' = f) by congruence. subst f'. apply Hne. rewrite <- Hh, Hd, Em, Et. reflexivity.
  Qed.

  Lemma inserted_contiguous dn s b r rest full buffer :
    let x := row_item b r in
    let h := tag_hash (t_name (b_meta b)) (r_tags r) in
    wf s -> contiguous dn s -> hand (s_client s) = [] -> ~ In h (map fst (s_disk s)) -> in_time_order (dn ++ [x]) ->
    NoDup (map fst (s_memory s)) ->
    open_ok (dn ++ [x]) (m_meta buffer) (m_tags buffer) (m_points buffer) ->
    contiguous (dn ++ [x]) (inserted h full buffer b rest s).
  Proof.
    intros x h Hw [H1 H2 H3 H4 H5 H6 H7 H8 H9 H10 H11] Hhand Hd Ho Hnd Hb.
    assert (HG : forall l, groups_ok dn l -> groups_ok (dn ++ [x]) l).
    { intros l Hl g Hg. apply closed_grow; [exact Ho|]. exact (Hl g Hg). }
    constructor; unfold inserted; fields.
    - intros k c H. destruct (Z.eq_dec k h) as [->|Hk].
      + assert (E : get Z.eqb h (put Z.eqb h buffer (s_memory s)) = Some c).
        { apply (in_get Z.eqb Z.eqb_eq); [|exact H]. destruct (get Z.eqb h (s_memory s)) as [c'|] eqn:Eg.
          - rewrite (keys_put Z.eqb Z.eqb_eq _ _ _ _ Eg). exact Hnd.
          - rewrite (put_none Z.eqb _ _ _ Eg), map_app. cbn [map fst]. apply NoDup_app_iff.
            split; [exact Hnd|]. split; [constructor; [intros []|constructor]|].
            apply (get_none Z.eqb Z.eqb_eq) in Eg. intros a Ha [<-|[]]. contradiction. }
        rewrite (get_put Z.eqb Z.eqb_eq) in E. injection E as <-. exact Hb.
      + apply (in_put Z.eqb) in H. destruct H as [[H _]|H]; [contradiction|].
        apply open_grow; [exact (other_memory s x k c Hw H Hk)|exact (H1 k c H)].
    - intros c H. rewrite Hhand in H. contradiction H.
    - intros k d f H Hf. apply open_grow; [|exact (H3 k d f H Hf)].
      apply (other_disk s x k d f Hw H Hf). intros ->. apply Hd. apply in_map_iff. exists (h, d). split; [reflexivity|exact H].
    - intros c H. apply closed_grow; [exact Ho|exact (H4 c H)].
    - intros d f H Hf. apply closed_grow; [exact Ho|exact (H5 d f H Hf)].
    - intros n m tags points ids E. apply closed_grow; [exact Ho|exact (H6 _ _ _ _ _ E)].
    - intros g Hg. apply closed_grow; [exact Ho|exact (H7 g Hg)].
    - intros t c H. apply HG. exact (H8 t c H).
    - intros n t c H. apply HG. exact (H9 n t c H).
    - intros t c k H. apply HG. exact (H10 t c k H).
    - intros k H. apply HG. exact (H11 k H).
  Qed.

  Lemma wf_memory_keys s : wf s -> NoDup (map fst (s_memory s)).
  Proof. intros Hw. pose proof (wf_keys _ _ Hw) as H. apply NoDup_app_iff in H. tauto. Qed.

  Lemma point_contiguous dn s b r rest s' :
    wf s -> below s -> collision_free hash (received s) -> distinct_times (received s) -> quiet s ->
    in_time_order (received s) -> contiguous dn s -> follows dn s ->
    s_ingestion s = Points b (r :: rest) false ->
    insert_data_point hash capacity sort true b r rest s = Next s' ->
    exists dn', contiguous dn' s' /\ follows dn' s'.
  Proof.
    intros Hw Hb Hc Ht Hq Hord Hs Hfol Hi H. unfold insert_data_point in H. cbv zeta in H.
    set (h := tag_hash (t_name (b_meta b)) (r_tags r)) in *. set (x := row_item b r).
    destruct Hfol as [rst [Hrec Hrst]].
    destruct Hrst as [C|Hrst]; [rewrite Hi in C; discriminate C|].
    assert (Epend : pending s = x :: row_items (b_meta b) (b_id b) rest ++ data batch_items (s_ingested s) ++ client_pending (s_client s)).
    { unfold pending. rewrite Hi. reflexivity. }
    rewrite Epend in Hrst.
    assert (Hx : in_time_order (dn ++ [x])).
    { rewrite Hrec, Hrst in Hord. change (x :: ?l) with ([x] ++ l) in Hord. rewrite app_assoc in Hord.
      exact (ordered_prefix _ _ Hord). }
    assert (Hfol' : forall s2, s_log s2 = s_log s -> pending s2 = row_items (b_meta b) (b_id b) rest ++ data batch_items (s_ingested s) ++ client_pending (s_client s) ->
      follows (dn ++ [x]) s2).
    { intros s2 El Ep. exists (pending s2). split; [|right; reflexivity]. unfold received. rewrite El. fold (received s).
      rewrite Hrec, Hrst, Ep, <- app_assoc. reflexivity. }
    assert (Hfail : forall s2, s_log s2 = s_log s -> follows dn (with_ingestion Failed s2)).
    { intros s2 El. exists rst. split; [|left; reflexivity]. unfold received. fields. rewrite El. exact Hrec. }
    assert (Hhand : hand (s_client s) = []).
    { unfold quiet in Hq. destruct (s_client s); try reflexivity. contradiction Hq. exact I. }
    destruct (get Z.eqb h (s_memory s)) as [buffer|] eqn:Eg.
    { injection H as <-. exists (dn ++ [x]). pose proof (get_in Z.eqb Z.eqb_eq _ _ _ Eg) as Hin.
      destruct (wf_memory _ _ Hw h buffer Hin) as [Hh [Hh2 _]].
      assert (Hown : owned buffer s) by (left; exists h; exact Hin).
      destruct (buffer_live hash s buffer Hw Hown) as [p Hp].
      destruct (same_series hash s _ _ _ _ _ _ Hb Hc (row_live s b r rest false Hi) Hp Hh2) as [Em Et].
      split.
      - apply inserted_contiguous; try assumption.
        + pose proof (wf_keys _ _ Hw) as Hk. apply NoDup_app_iff in Hk. destruct Hk as [_ [_ Hk]].
          intros C. apply (Hk h); [|apply in_app_iff; left; exact C].
          apply in_map_iff. exists (h, buffer). split; [reflexivity|exact Hin].
        + apply wf_memory_keys. exact Hw.
        + cbn [add_point m_meta m_tags m_points]. rewrite <- Em, <- Et.
          apply (open_add dn x Hx). cbn [x row_item i_meta i_tags]. rewrite Em, Et. exact (cg_memory _ _ Hs h buffer Hin).
      - apply Hfol'; [reflexivity|]. unfold pending, inserted. fields. rewrite held_full. reflexivity. }
    apply (get_none Z.eqb Z.eqb_eq) in Eg.
    destruct (Pipeline.reserve capacity sort true (b_meta b) s) as [[s1 ok]|] eqn:Er.
    2:{ injection H as <-. exists dn. split; [destruct Hs; constructor; assumption|].
      exists rst. split; [exact Hrec|]. right. rewrite Hrst. unfold pending. fields. reflexivity. }
    destruct (reserve_ok hash capacity sort Hsort s (b_meta b) s1 ok b (r :: rest) Hw Hb Hc Ht Hi Er)
      as [Hw1 [Ha1 [Hcl [Hi1 [Hl1 Hm1]]]]].
    pose proof (reserve_contiguous dn s (b_meta b) s1 ok Hw Hb Hc Ht Hs Er) as Hs1.
    assert (Hin1 : s_ingested s1 = s_ingested s).
    { unfold Pipeline.reserve, take_buffer in Er. destruct (memory_size capacity (b_meta b) <=? uncompressed (s_pool s)); [injection Er as <- _; reflexivity|].
      destruct (s_uncompressed s); [|discriminate Er]. destruct (s_memory s) as [|[? ?] ?]; injection Er as <- _; reflexivity. }
    destruct ok.
    2:{ injection H as <-. exists dn. split; [destruct Hs1; constructor; assumption|]. apply Hfail. exact Hl1. }
    assert (Hm1' : ~ In h (map fst (s_memory s1))) by (intros C; apply Eg; apply Hm1; exact C).
    assert (Hhand1 : hand (s_client s1) = []) by (rewrite Hcl; exact Hhand).
    assert (Hb1 : below s1).
    { intros v Hv. rewrite Ha1. unfold received. rewrite Hl1. apply (Hb v Hv). }
    assert (Hc1 : collision_free hash (received s1)) by (unfold received; rewrite Hl1; exact Hc).
    assert (Hi1' : s_ingestion s1 = Points b (r :: rest) false) by (rewrite Hi1; exact Hi).
    destruct (get Z.eqb h (s_disk s1)) as [d|] eqn:Ed.
    - destruct (get path_eqb (d_path d) (s_files s1)) as [f|] eqn:Ef.
      + destruct (load_ok hash s1 h d f Hw1 Ed Ef) as [Hw2 [Hd2 Ha2]].
        pose proof (get_in Z.eqb Z.eqb_eq _ _ _ Ed) as Hind.
        assert (Hdr : In d (refs s1)).
        { apply in_refs_disk. apply in_map_iff. exists (h, d). split; [reflexivity|exact Hind]. }
        pose proof (wf_disk _ _ Hw1 h d Hind) as Hdh.
        destruct (wf_refs _ _ Hw1 d Hdr) as [f' [p [ps [Hf' [Hps [Hdh2 _]]]]]].
        assert (f' = f) by congruence. subst f'.
        destruct (same_series hash s1 (b_meta b) (r_tags r) (i_point (row_item b r)) (d_meta d) (f_tags f) p
          Hb1 Hc1 (row_live s1 b r rest false Hi1')) as [Em Et].
        { apply (ref_live s1 d _ Hdr). unfold disk_items. rewrite Ef, Hps. left. reflexivity. }
        { fold h. congruence. }
        injection H as <-. exists (dn ++ [x]). split.
        * apply inserted_contiguous; fields; try assumption.
          -- destruct Hs1 as [G1 G2 G3 G4 G5 G6 G7 G8 G9 G10 G11]. constructor; fields; try assumption.
             ++ intros k c g Hk Hg. apply (in_remove Z.eqb) in Hk. apply (G3 k c g Hk). exact (get_removed _ _ _ _ Hg).
             ++ intros c g Hk Hg. apply (G5 c g Hk). exact (get_removed _ _ _ _ Hg).
          -- apply wf_memory_keys. exact Hw1.
          -- cbn [add_point loaded m_meta m_tags m_points]. rewrite <- Em, <- Et.
             apply (open_add dn x Hx). cbn [x row_item i_meta i_tags]. rewrite Em, Et. exact (cg_disk _ _ Hs1 h d f Hind Ef).
        * apply Hfol'; [exact Hl1|]. unfold pending, inserted. fields. rewrite held_full, Hin1, Hcl. reflexivity.
      + injection H as <-. exists dn. split; [destruct Hs1; constructor; assumption|]. apply Hfail. exact Hl1.
    - injection H as <-. exists (dn ++ [x]). split.
      + apply inserted_contiguous; try assumption.
        * apply (get_none Z.eqb Z.eqb_eq). exact Ed.
        * apply wf_memory_keys. exact Hw1.
        * cbn [add_point new_buffer m_meta m_tags m_points app]. apply (open_new dn x Hx).
      + apply Hfol'; [exact Hl1|]. unfold pending, inserted. fields. rewrite Hin1, Hcl. reflexivity.
  Qed.

  Lemma pop_pending s t b s1 : pop_buffer s = Some (t, b, s1) ->
    s_client s1 = s_client s /\ s_ingestion s1 = s_ingestion s /\ s_ingested s1 = s_ingested s /\ s_log s1 = s_log s.
  Proof.
    unfold pop_buffer. destruct (s_queue s); [discriminate|].
    destruct (get String.eqb s0 (s_buffers s)); [|discriminate]. intros H. injection H as _ _ <-. repeat split.
  Qed.

  Ltac cases H :=
    unfold take_buffer in H;
    repeat match type of H with
      | context [match pop_buffer ?x with _ => _ end] =>
          let E := fresh "E" in destruct (pop_buffer x) as [[[? ?] ?]|] eqn:E;
          [apply pop_pending in E; destruct E as [? [? [? ?]]]|]
      | context [match ?x with _ => _ end] =>
          match x with
          | context [match _ with _ => _ end] => fail 1
          | _ => let E := fresh "E" in destruct x eqn:E
          end
      end; try discriminate H; injection H as <-.

  Lemma data_app {A} (f : A -> list item) l k : data f (l ++ k) = data f l ++ data f k.
  Proof. unfold data. apply flat_map_app. Qed.

  Lemma step_pending e s s' : (forall w, e <> Point w) -> e <> Crash -> step e s = Next s' ->
    (s_ingestion s = Failed -> s_ingestion s' = Failed)
    /\ exists new, received s' = received s ++ new /\ pending s' = pending s ++ new.
  Proof.
    intros Hp Hcr H. destruct e; cbn [Pipeline.step] in H; try (exfalso; apply (Hp spilled0); reflexivity);
      try (exfalso; apply Hcr; reflexivity); try (exfalso; eapply Hp; reflexivity).
    all: cases H; unfold finish_all, finish_buffers, save, Pipeline.spill; fields;
      (split; [intros C; try rewrite C in *; try congruence; try discriminate; try reflexivity|]).
    all: unfold received, pending; fields; rewrite ?held_wake, ?data_app;
      repeat match goal with
      | E : s_client ?a = _ |- context [s_client ?a] => rewrite E
      | E : s_ingestion ?a = _ |- context [s_ingestion ?a] => rewrite E
      | E : s_ingested ?a = _ |- context [s_ingested ?a] => rewrite E
      | E : s_log ?a = _ |- context [s_log ?a] => rewrite E
      end; cbn [client_pending held_by_ingestion].
    all: try (exists []; rewrite !app_nil_r; split; [reflexivity|]; cbn [data flat_map app row_items map];
      rewrite ?app_nil_r, ?app_assoc; reflexivity).
    all: try (eexists; split; [rewrite flat_map_app; reflexivity|]; cbn [flat_map app]; rewrite ?app_nil_r, ?app_assoc; reflexivity).
  Qed.

  Ltac intact Hs := destruct Hs as [H1 H2 H3 H4 H5 H6 H7 H8 H9 H10 H11]; constructor; fields; cbn [hand] in *;
    try assumption; try (intros; contradiction); try (intros; discriminate); try (intros; congruence).

  Lemma channel_snoc {A} (P : A -> Prop) l m : (forall a, In (Data a) l -> P a) -> (forall a, m = Data a -> P a) ->
    forall a, In (Data a) (l ++ [m]) -> P a.
  Proof. intros H1 H2 a Ha. apply in_snoc in Ha. destruct Ha as [Ha|Ha]; [exact (H1 a Ha)|exact (H2 a (eq_sym Ha))]. Qed.

  Lemma step_contiguous e dn s s' :
    wf s -> below s -> collision_free hash (received s) -> distinct_times (received s) ->
    (forall w, e <> Point w) -> e <> Crash -> contiguous dn s -> step e s = Next s' -> contiguous dn s'.
  Proof.
    intros Hw Hb Hc Ht Hp Hcr Hs H. destruct e; cbn [Pipeline.step] in H.
    - destruct (s_client s) eqn:Ec; try discriminate H. destruct (0 <=? size); [|discriminate H]. injection H as <-. intact Hs.
    - destruct (s_client s) eqn:Ec; try discriminate H. destruct (_ <=? _); [|discriminate H]. injection H as <-. intact Hs.
    - destruct (s_client s) eqn:Ec; try discriminate H. injection H as <-. intact Hs.
    - destruct (s_client s) eqn:Ec; try discriminate H. injection H as <-. intact Hs.
    - destruct (s_client s) eqn:Ec; try discriminate H; destruct (s_results s); try discriminate H.
      + injection H as <-. intact Hs.
      + destruct (is_finished s); [|discriminate H]. injection H as <-. intact Hs.
    - destruct (s_client s) eqn:Ec; try discriminate H. destruct (_ <=? _); [|discriminate H]. injection H as <-. intact Hs.
    - destruct (s_client s) eqn:Ec; try discriminate H. destruct (_ <=? _); [|discriminate H]. injection H as <-. intact Hs.
    - destruct (s_client s) eqn:Ec; try discriminate H. destruct (_ <=? _); [|discriminate H]. injection H as <-. intact Hs.
    - destruct (s_client s) eqn:Ec; try discriminate H.
      + destruct (_ <? 0); [|injection H as <-; intact Hs]. unfold take_buffer in H.
        destruct (s_memory s) as [|[h c] k] eqn:Em; injection H as <-; [intact Hs; rewrite Em in *; assumption|].
        intact Hs.
        * intros h' b' H'. apply (H1 h'). rewrite Em. right. exact H'.
        * intros b' [<-|[]]. apply (H1 h). rewrite Em. left. reflexivity.
      + injection H as <-.
        assert (Hx : contiguous dn (spill b s)).
        { apply spill_contiguous; [exact Hs|apply (cg_hand _ _ Hs); rewrite Ec; left; reflexivity|].
          intros d Hd. apply (fresh_path hash sort Hsort s b d); try assumption. right. rewrite Ec. left. reflexivity. }
        destruct Hx. constructor; try assumption; unfold Pipeline.spill in *; fields; cbn [hand] in *; intros; try contradiction; discriminate.
      + destruct (_ <? 0); [|injection H as <-; intact Hs].
        destruct (pop_buffer s) as [[[t b] s1]|] eqn:E; [|discriminate H]. injection H as <-.
        apply (pop_contiguous dn) in E; [|exact Hs]. destruct E as [Hs1 Hg]. clear Hs. intact Hs1.
        intros n t' b' E. injection E as _ _ <-. exact Hg.
      + injection H as <-. assert (Hx : contiguous dn (save table b s)).
        { apply save_contiguous; [exact Hs|]. exact (cg_saving _ _ Hs _ _ _ Ec). }
        destruct Hx. constructor; try assumption; unfold save in *; fields; cbn [hand] in *; intros; try contradiction; discriminate.
    - destruct (s_client s) eqn:Ec; try discriminate H. match type of H with (match ?l with _ => _ end) = _ => destruct l end; [injection H as <-; intact Hs|].
      destruct (_ <=? _); [|discriminate H]. injection H as <-. intact Hs.
    - destruct (s_ingestion s) eqn:Ei; try discriminate H. destruct (s_ingested s) as [|[b| |] rest]; try discriminate H; injection H as <-.
      + intact Hs.
      + assert (Hx : contiguous dn (with_ingested rest s)) by (intact Hs). apply (finish_contiguous dn (fun _ => true) (fun _ => true)) in Hx.
        destruct Hx. constructor; try assumption; unfold finish_all, finish_buffers in *; fields;
          [intros c Hin|intros d f Hin Hf]; (apply in_snoc in Hin; destruct Hin as [Hin|Hin]; [eauto|discriminate Hin]).
      + assert (Hx : contiguous dn (with_ingested rest s)) by (intact Hs). apply (finish_contiguous dn (fun _ => true) (fun _ => true)) in Hx.
        destruct Hx. constructor; try assumption; unfold finish_all, finish_buffers in *; fields;
          [intros c Hin|intros d f Hin Hf]; (apply in_snoc in Hin; destruct Hin as [Hin|Hin]; [eauto|discriminate Hin]).
    - exfalso. eapply Hp. reflexivity.
    - destruct (s_ingestion s) as [| |h b rest| |] eqn:Ei; try discriminate H.
      destruct (get Z.eqb h (s_memory s)) as [buffer|] eqn:Eg; [|discriminate H]. injection H as <-.
      apply (get_in Z.eqb Z.eqb_eq) in Eg. intact Hs.
      + intros h' b' H. apply (in_remove Z.eqb) in H. exact (H1 h' b' H).
      + intros b' H. apply in_snoc in H. destruct H as [H|H]; [exact (H4 b' H)|]. injection H as ->. apply open_closed. exact (H1 h _ Eg).
      + intros d f H Hf. apply in_snoc in H. destruct H as [H|H]; [exact (H5 d f H Hf)|discriminate H].
    - destruct (s_ingestion s) as [|b l w| | |] eqn:Ei; try discriminate H. destruct l; [|discriminate H]. injection H as <-.
      pose proof (finish_contiguous dn (fun u => is_unused u (s_index s)) (fun u => is_unused u (s_index s)) s Hs) as Hx.
      destruct Hx. constructor; assumption.
    - destruct (s_compressor s) as [| | |] eqn:Ek; try discriminate H.
      destruct (s_uncompressed s) as [|x rest] eqn:Eu; [discriminate H|].
      destruct Hs as [H1 H2 H3 H4 H5 H6 H7 H8 H9 H10 H11]. rewrite Eu in *.
      assert (G4 : forall b, In (Data (InMemory b)) rest -> closed_ok dn (m_meta b) (m_tags b) (m_points b)).
      { intros b Hin. apply H4. right. exact Hin. }
      assert (G5 : forall d f, In (Data (OnDisk d)) rest -> get path_eqb (d_path d) (s_files s) = Some f ->
        closed_ok dn (d_meta d) (f_tags f) (f_points f)).
      { intros d f Hin. apply H5. right. exact Hin. }
      destruct x as [[b|d]| |].
      + injection H as <-. constructor; fields; try assumption. intros n m tags points ids E.
        injection E as <- <- <- <- <-. refine (closed_perm _ _ _ _ _ _ (H4 b (or_introl eq_refl))).
        symmetry. apply Hsort.
      + destruct (get path_eqb (d_path d) (s_files s)) as [f|] eqn:Ef; injection H as <-;
          constructor; fields; try assumption; try discriminate.
        * intros k c g Hk Hg. apply (H3 k c g Hk). exact (get_removed _ _ _ _ Hg).
        * intros c g Hk Hg. apply (G5 c g Hk). exact (get_removed _ _ _ _ Hg).
        * intros n m tags points ids E. injection E as <- <- <- <- <-. exact (H5 d f (or_introl eq_refl) Ef).
      + injection H as <-. constructor; fields; try assumption. apply channel_snoc; [exact H7|discriminate].
      + injection H as <-. constructor; fields; try assumption; try discriminate. apply channel_snoc; [exact H7|discriminate].
    - destruct (s_compressor s) as [|mem m tags points ids| |] eqn:Ek; try discriminate H.
      destruct (Nat.eqb (List.length sizes) (t_fields m) && forallb (Z.leb 0) sizes) eqn:E; [|discriminate H].
      injection H as <-. intact Hs.
      apply channel_snoc; [exact H7|]. intros g Eg. injection Eg as <-. exact (H6 _ _ _ _ _ Ek).
    - destruct (s_writer s) eqn:Ew; try discriminate H.
      destruct (s_compressed s) as [|m rest] eqn:Em; [discriminate H|].
      destruct Hs as [H1 H2 H3 H4 H5 H6 H7 H8 H9 H10 H11]. rewrite Em in *.
      assert (Hsub : forall g, In (Data g) rest -> group_ok dn g).
      { intros g Hg. apply H7. right. exact Hg. }
      destruct m as [g| |]; fields.
      + assert (Hg : group_ok dn g) by (apply H7; left; reflexivity).
        destruct (get String.eqb (t_name (g_meta g)) (s_buffers s)) as [b|] eqn:Eg; injection H as <-;
          (constructor; fields; try assumption; [|intros; discriminate]);
          intros t c Hin; apply (in_put String.eqb) in Hin; (destruct Hin as [[_ ->]|Hin]; [|exact (H8 t c Hin)]);
          (apply append_groups; [exact Hg|]).
        * apply (H8 (t_name (g_meta g))). apply (get_in String.eqb String.eqb_eq). exact Eg.
        * intros x [].
      + injection H as <-. constructor; fields; try assumption. intros; discriminate.
      + injection H as <-. constructor; fields; try assumption. intros; discriminate.
    - destruct (s_writer s) as [|t|t b k| |] eqn:Ew; try discriminate H.
      assert (Hpop : forall t0, match pop_buffer s with
          | Some (table, b, s) => Next (with_writer (Committing table b t0) s) | None => Aborted end = Next s' -> contiguous dn s').
      { intros t0 E0. destruct (pop_buffer s) as [[[t' b] s1]|] eqn:E; [|discriminate E0]. injection E0 as <-.
        apply (pop_contiguous dn) in E; [|exact Hs]. destruct E as [Hs1 Hg].
        clear Hs. intact Hs1. intros t1 b1 k1 E. injection E as _ <- _. exact Hg. }
      destruct t as [size| |].
      + destruct (_ <=? _); [injection H as <-; intact Hs|]. exact (Hpop _ H).
      + destruct (s_queue s); [injection H as <-; intact Hs|]. exact (Hpop _ H).
      + destruct (s_queue s); [injection H as <-; intact Hs|]. exact (Hpop _ H).
    - destruct (s_writer s) as [|t|t b k| |] eqn:Ew; try discriminate H. destruct written.
      + injection H as <-. assert (Hx : contiguous dn (save t b s)).
        { apply save_contiguous; [exact Hs|]. exact (cg_writer _ _ Hs _ _ _ Ew). }
        destruct Hx. constructor; try assumption; unfold save in *; fields; intros; discriminate.
      + destruct k; injection H as <-; intact Hs.
    - contradiction Hcr. reflexivity.
    - injection H as <-. intact Hs. intros h b Hin. apply (H1 h).
      apply (Permutation_in _ (to_front_perm n (s_memory s))). exact Hin.
    - injection H as <-. intact Hs. intros h d f Hin. apply (H3 h).
      apply (Permutation_in _ (to_front_perm n (s_disk s))). exact Hin.
  Qed.

  Lemma step_in_order e dn s s' :
    inv hash logging s -> good e s -> e <> Crash -> contiguous dn s -> follows dn s ->
    collision_free hash (received s') -> distinct_times (received s') -> in_time_order (received s') ->
    step e s = Next s' -> exists dn', contiguous dn' s' /\ follows dn' s'.
  Proof.
    intros [Hw Hb Hi Hl] [Hu Hw'] Hcr Hs Hf Hc Ht Ho H.
    destruct (step_log_ok hash capacity sort logging e s s' H Hl) as [Hp _]. apply received_prefix in Hp. destruct Hp as [new Hp].
    rewrite Hp in Hc, Ht, Ho. apply collision_free_app in Hc. apply distinct_times_app in Ht. apply ordered_prefix in Ho.
    assert (Hev : (exists w, e = Point w) \/ forall w, e <> Point w).
    { destruct e; try (right; intros w; discriminate). left. eexists. reflexivity. }
    destruct Hev as [[w ->]|Hev].
    - destruct w; [|contradiction Hw'; reflexivity]. cbn [Pipeline.step] in H.
      destruct (s_ingestion s) as [|b l w| | |] eqn:Ei; try discriminate H. destruct l as [|r l]; [discriminate H|].
      destruct w; [discriminate H|]. apply (point_contiguous dn s b r l s'); try assumption.
      unfold quiet. intros C. destruct Hu as [Hu _]. specialize (Hu I). destruct (s_client s); contradiction.
    - exists dn. split; [exact (step_contiguous e dn s s' Hw Hb Hc Ht Hev Hcr Hs H)|].
      destruct (step_pending e s s' Hev Hcr H) as [Hfail [new' [E1 E2]]]. destruct Hf as [rest [F1 F2]].
      exists (rest ++ new'). split; [rewrite E1, F1, app_assoc; reflexivity|].
      destruct F2 as [F2|F2]; [left; exact (Hfail F2)|right; rewrite E2, F2; reflexivity].
  Qed.

  Lemma run_in_order events : forall dn s s',
    inv hash logging s -> run events s = Next s' -> along hash capacity sort logging good events s ->
    ~ In Crash events -> contiguous dn s -> follows dn s ->
    collision_free hash (received s') -> distinct_times (received s') -> in_time_order (received s') ->
    exists dn', contiguous dn' s' /\ follows dn' s'.
  Proof.
    induction events as [|e events IH]; intros dn s s' Hinv H Ha Hcr Hs Hf Hc Ht Ho; cbn [Pipeline.run] in H.
    - injection H as <-. exists dn. split; assumption.
    - cbn [PipelineSpec.along] in Ha. destruct Ha as [Hg Ha].
      destruct (step e s) as [| |s1] eqn:E; try discriminate H.
      destruct (step_log_ok hash capacity sort logging e s s1 E (inv_log _ _ s Hinv)) as [_ Hl1].
      destruct (run_received hash capacity sort logging events s1 s' H Hl1) as [Hp _]. apply received_prefix in Hp.
      destruct Hp as [new Hp].
      assert (Hc1 : collision_free hash (received s1)) by (rewrite Hp in Hc; exact (collision_free_app _ _ _ Hc)).
      assert (Ht1 : distinct_times (received s1)) by (rewrite Hp in Ht; exact (distinct_times_app _ _ Ht)).
      assert (Ho1 : in_time_order (received s1)) by (rewrite Hp in Ho; exact (ordered_prefix _ _ Ho)).
      destruct (step_in_order e dn s s1) as [dn1 [Hs1 Hf1]]; try assumption.
      { intros ->. apply Hcr. left. reflexivity. }
      apply (IH dn1 s1 s'); try assumption.
      + exact (step_inv hash capacity sort logging Hsort e s s1 Hinv Hc1 Ht1 Hg E).
      + intros C. apply Hcr. right. exact C.
  Qed.

  Lemma start_in_order limits : contiguous [] (start limits [] []) /\ follows [] (start limits [] []).
  Proof.
    split.
    - constructor; unfold Pipeline.start; fields; cbn [hand]; try contradiction; discriminate.
    - exists []. split; [reflexivity|]. right. unfold pending, Pipeline.start. fields. destruct logging; reflexivity.
  Qed.

  (** The groups of segments in the table. *)
  Lemma committed_in_order events limits s :
    run events (start limits [] []) = Next s -> along hash capacity sort logging usual events (start limits [] []) ->
    ~ In Crash events -> collision_free hash (received s) -> distinct_times (received s) -> in_time_order (received s) ->
    exists dn, forall name, groups_ok dn (EndToEnd.committed_to name s).
  Proof.
    intros Hr Ha Hcr Hc Ht Ho. destruct (start_in_order limits) as [H1 H2].
    destruct (run_in_order events [] (start limits [] []) s) as [dn [Hs _]]; try assumption.
    - apply start_inv.
    - clear - Ha. revert Ha. generalize (start limits [] []). induction events as [|e events IH]; intros s0 Ha; cbn [PipelineSpec.along] in *; [exact I|].
      destruct Ha as [[Hu [Hw _]] Ha]. split; [split; assumption|]. destruct (step e s0); try exact Ha. exact (IH _ Ha).
    - exists dn. intros name g Hg. unfold EndToEnd.committed_to in Hg. apply in_flat_map in Hg. destruct Hg as [k [Hk Hg]].
      destruct (String.eqb (k_table k) name); [|contradiction Hg]. exact (cg_table _ _ Hs k Hk g Hg).
  Qed.
End Contiguous.

(** Groups of one series that do not have data points between each other's do not overlap. *)
Lemma groups_before dn g h p q :
  group_ok dn g -> group_ok dn h -> g_meta g = g_meta h -> g_tags g = g_tags h ->
  (forall a b, In a (g_points g) -> In b (g_points h) -> p_time a <> p_time b) ->
  In p (g_points g) -> In q (g_points h) -> p_time p < p_time q -> EndToEndSpec.before g h.
Proof.
  intros [G1 G2] [K1 K2] Em Et Hne Hp Hq Hlt a b Ha Hb.
  destruct (Z_lt_le_dec (p_time a) (p_time b)) as [L|L]; [exact L|exfalso].
  pose proof (Hne a b Ha Hb). pose proof (Hne p b Hp Hb). pose proof (Hne a q Ha Hq).
  destruct (Z_lt_le_dec (p_time b) (p_time p)) as [L2|L2].
  - apply (Hne p p Hp); [|reflexivity]. apply (K2 b p q Hb Hq); [|exact L2|exact Hlt].
    rewrite <- Em, <- Et. exact (G1 p Hp).
  - apply (Hne b b); [|exact Hb|reflexivity]. apply (G2 p b a Hp Ha); [|lia|lia].
    rewrite Em, Et. exact (K1 b Hb).
Qed.

Lemma groups_apart dn l :
  groups_ok dn l -> NoDup (map (fun x => (i_meta x, i_tags x, p_time (i_point x))) (flat_map segment_items l)) ->
  (forall x y, In x (flat_map segment_items l) -> In y (flat_map segment_items l) -> i_meta x = i_meta y) ->
  EndToEndSpec.apart l.
Proof.
  induction l as [|g l IH]; intros Hok Hnd Hm; [constructor|]. cbn [flat_map] in *. rewrite map_app in Hnd.
  apply NoDup_app_iff in Hnd. destruct Hnd as [_ [Hnd Hdis]]. constructor.
  - apply Forall_forall. intros h Hh Et.
    destruct (g_points g) as [|p ps] eqn:Eg; [left; intros a b Ha; rewrite Eg in Ha; contradiction Ha|].
    destruct (g_points h) as [|q qs] eqn:Eh; [left; intros a b Ha Hb; rewrite Eh in Hb; contradiction Hb|].
    assert (Hp : In p (g_points g)) by (rewrite Eg; left; reflexivity).
    assert (Hq : In q (g_points h)) by (rewrite Eh; left; reflexivity). clear Eg Eh.
    assert (Ig : forall a, In a (g_points g) -> In (at_ (g_meta g) (g_tags g) a) (segment_items g)).
    { intros a Ha. unfold segment_items, items. apply in_map_iff. exists a. split; [reflexivity|exact Ha]. }
    assert (Ih : forall a, In a (g_points h) -> In (at_ (g_meta h) (g_tags h) a) (flat_map segment_items l)).
    { intros a Ha. apply in_flat_map. exists h. split; [exact Hh|]. unfold segment_items, items. apply in_map_iff. exists a. split; [reflexivity|exact Ha]. }
    assert (Em : g_meta g = g_meta h).
    { apply (Hm (at_ (g_meta g) (g_tags g) p) (at_ (g_meta h) (g_tags h) q)); apply in_app_iff; [left; exact (Ig p Hp)|right; exact (Ih q Hq)]. }
    assert (Hne : forall a b, In a (g_points g) -> In b (g_points h) -> p_time a <> p_time b).
    { intros a b Ha Hb E. apply (Hdis (g_meta g, g_tags g, p_time a)).
      - apply in_map_iff. exists (at_ (g_meta g) (g_tags g) a). split; [reflexivity|exact (Ig a Ha)].
      - apply in_map_iff. exists (at_ (g_meta h) (g_tags h) b). split; [cbn [at_ i_meta i_tags i_point]; rewrite Em, Et, E; reflexivity|exact (Ih b Hb)]. }
    assert (Hokg : group_ok dn g) by (apply Hok; left; reflexivity).
    assert (Hokh : group_ok dn h) by (apply Hok; right; exact Hh).
    destruct (Z_lt_le_dec (p_time p) (p_time q)) as [L|L].
    + left. exact (groups_before dn g h p q Hokg Hokh Em Et Hne Hp Hq L).
    + right. apply (groups_before dn h g q p Hokh Hokg); try assumption; try (symmetry; assumption).
      * intros a b Ha Hb E. exact (Hne b a Hb Ha (eq_sym E)).
      * pose proof (Hne p q Hp Hq). lia.
  - apply IH; [intros x Hx; apply Hok; right; exact Hx|exact Hnd|].
    intros x y Hx Hy. apply Hm; apply in_app_iff; right; assumption.
Qed.
