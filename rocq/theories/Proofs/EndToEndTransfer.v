(** From ingestion over data transfer to queries of the edge node and of the cloud node. *)
From Coq Require Import ZArith Reals Bool String List Permutation Sorted Lia.
From Verif Require Import Model.Base Model.Float Model.ErrorBound Model.Segments
  Model.Filters Model.Streams Model.Table Model.Scan Model.DataSource Model.EndToEnd
  Spec.PlatformSpec Spec.ErrorBoundSpec Spec.FiltersSpec
  Spec.SegmentsSpec Spec.GridSpec Spec.SwingSpec Spec.StreamsSpec Spec.TableSpec Spec.ScanSpec Spec.EndToEndSpec
  Spec.EndToEndTransferSpec
  Proofs.EndToEndLists Proofs.EndToEndProofs Proofs.EndToEndPipeline Proofs.EndToEndQuery
  Proofs.EndToEndResults Proofs.EndToEndOneField.
From Verif Require Import Model.Aggregates Spec.AggregateSpec.
From Verif Require Model.Pipeline Spec.PipelineSpec Model.Transfer Spec.TransferSpec Proofs.TransferProofs
  Proofs.AggregateSumProofs Proofs.AggregateRuleProofs Proofs.EndToEndAggregates Proofs.FiltersProofs.
Import ListNotations.
Open Scope nat_scope.
Open Scope list_scope.

Lemma filter_perm {A} (f : A -> bool) a b : Permutation a b -> Permutation (filter f a) (filter f b).
Proof.
  intros H. induction H as [|x a b H IH|x y a|a b c H1 IH1 H2 IH2]; cbn [filter].
  - constructor.
  - destruct (f x); [constructor|]; exact IH.
  - destruct (f x), (f y); try reflexivity. constructor.
  - rewrite IH1. exact IH2.
Qed.

Lemma reads_all files s : reads_but (fun _ => False) files s ->
  Permutation (concat (batches_of s)) (flat_map segments_in files).
Proof.
  intros (skipped & H & Hs). destruct skipped as [|x skipped]; [|contradiction (Hs x); left; reflexivity].
  rewrite app_nil_r in H. exact H.
Qed.

Section Parts.
  Variables (P : platform) (size : R) (latest interval : Z) (l : list item) (position : nat) (eb : error_bound)
    (files : list (file stored_segment)).

  Lemma parts_match read parts :
    Forall2 (stored_as P size latest interval l position eb) read parts -> incl read (flat_map segments_in files) ->
    Forall2 (matches P size latest interval l position eb files) (flat_map (grid_stored P) read) (concat parts).
  Proof.
    intros F1 Hin. induction F1 as [|x part read parts Hx F IH]; [constructor|]. cbn [flat_map concat].
    apply Forall2_app; [|apply IH; intros y Hy; apply Hin; right; exact Hy].
    destruct Hx as [_ Ht _ Hpts _]. specialize (Hin x (or_introl eq_refl)). clear - Hpts Ht Hin.
    induction Hpts as [|p i ps part (H1 & H2 & H3) F IH]; [constructor|].
    constructor; [|apply IH; intros j Hj; apply Ht; right; exact Hj].
    split; [exact H1|]. split; [exact H2|]. destruct H3 as [H3|(H3 & ts & vs & H4 & H5)]; [left; exact H3|].
    right. exists x, ts, vs. split; [exact Hin|]. split; [symmetry; apply Ht; left; reflexivity|]. repeat split; assumption.
  Qed.

  Lemma member_part xs parts : Forall2 (stored_as P size latest interval l position eb) xs parts ->
    forall read, incl read xs ->
    exists parts', incl (concat parts') (concat parts)
      /\ Forall2 (stored_as P size latest interval l position eb) read parts'.
  Proof.
    intros H read. induction read as [|x read IH]; intros Hi.
    - exists []. split; [intros y []|constructor].
    - destruct IH as (parts' & I1 & I2); [intros y Hy; apply Hi; right; exact Hy|].
      assert (Hx : exists part, In part parts /\ stored_as P size latest interval l position eb x part).
      { specialize (Hi x (or_introl eq_refl)). clear - H Hi. induction H as [|y part xs parts Hy F IH]; [contradiction Hi|].
        destruct Hi as [->|Hi]; [exists part; split; [left; reflexivity|exact Hy]|].
        destruct (IH Hi) as (q & H1 & H2). exists q. split; [right; exact H1|exact H2]. }
      destruct Hx as (part & G1 & G2). exists (part :: parts'). split; [|constructor; assumption].
      cbn [concat]. intros y Hy. apply in_app_iff in Hy. destruct Hy as [Hy|Hy]; [|exact (I1 y Hy)].
      apply in_concat. exists part. split; assumption.
  Qed.
End Parts.

Section Transferred.
  Variables (hash : string -> Z) (capacity : nat) (sort_points : list Pipeline.point -> list Pipeline.point)
    (logging : bool) (events : list Pipeline.event) (limits : Pipeline.pool) (s1 s : Pipeline.state)
    (n : nat) (batch : option Z) (moves : list Transfer.event) (after : Transfer.state)
    (P : platform) (m : metadata) (size : R) (latest interval : Z) (batch_size : nat)
    (F : functions) (set_order : list nat -> list nat) (projection : option (list nat))
    (position column : nat) (name : string) (eb : error_bound)
    (segment_of : Z -> stored_segment) (of_field : Z -> bool)
    (local remote : list (file stored_segment)) (edge cloud : nat -> stream (list stored_segment)).
  Notation sent := (sent_to (table_name m) s).
  Notation gs := (committed_to (table_name m) s).
  Notation rows_of files := (Forall2 (row_with P (fun eb => near eb (rounding size latest interval (length sent))) m files position name eb)).
  Notation returns rows streams := ((forall r, In r rows -> computable F m (columns_of m projection) r) ->
          exists p, scan set_order m projection = Ok p
            /\ answers F m rows (columns_of m projection) (fun n =>
                 consume (query_poll F (grid_stored P) None (tag_names m) p) n
                   (query_stream p None batch_size streams))).

  Hypothesis Hpoints : PipelineSpec.sorts_points sort_points.
  Hypothesis Hlimits : PipelineSpec.nonneg_limits limits.
  Hypothesis Hrun : Pipeline.run hash capacity sort_points logging events (Pipeline.start logging limits [] []) = Pipeline.Next s1.
  Hypothesis Husual : PipelineSpec.along hash capacity sort_points logging PipelineSpec.usual events (Pipeline.start logging limits [] []).
  Hypothesis Hcrash : ~ In Pipeline.Crash events.
  Hypothesis Hcollision : PipelineSpec.collision_free hash (PipelineSpec.received s1).
  Hypothesis Htimes : PipelineSpec.distinct_times (PipelineSpec.received s1).
  Hypothesis Hreturn : Pipeline.step hash capacity sort_points logging Pipeline.Return s1 = Pipeline.Next s.
  Hypothesis Hvalid : valid_table m.
  Hypothesis Htags : tags_named m.
  Hypothesis Hrows : Forall (is_row_of m) sent.
  Hypothesis Hstore : can_store P m size latest interval sent.
  Hypothesis Hf : field_at m position column name eb.
  Hypothesis Horder : enumerates_indices set_order.
  Hypothesis Hselects : selects m (columns_of m projection).
  Hypothesis Hone : reads_one_field m (columns_of m projection) name.
  Hypothesis Hbatch : 0 < batch_size.
  Hypothesis Hsaved : forall l, all_segments P m position column gs = Ok l ->
    Permutation (map segment_of (filter of_field (TransferSpec.saved (table_name m) moves))) l.
  Hypothesis Hlocal : in_folder segment_of of_field (Transfer.x_local after (table_name m)) local.
  Hypothesis Hremote : in_folder segment_of of_field (Transfer.x_remote after (table_name m)) remote.
  Hypothesis Hedge : reads_but (fun _ => False) local (edge column).
  Hypothesis Hedge_fine : fine (edge column).
  Hypothesis Hcloud : reads_but (fun _ => False) remote (cloud column).
  Hypothesis Hcloud_fine : fine (cloud column).

  Lemma stored_parts : exists xs parts, Permutation (map segment_of (filter of_field (TransferSpec.saved (table_name m) moves))) xs
    /\ Permutation (concat parts) sent /\ Forall2 (stored_as P size latest interval sent position eb) xs parts.
  Proof.
    destruct (flushed_good hash capacity sort_points logging events limits s1 s m Hpoints Hlimits Hrun Husual Hcrash
      Hcollision Htimes Hreturn) as [Hg Hp].
    destruct (all_stored P m size latest interval sent Hstore Hvalid position column name eb Hf gs Hg)
      as (xs & parts & E1 & E2 & E3).
    exists xs, parts. split; [exact (Hsaved xs E1)|]. split; [rewrite E2; exact Hp|exact E3].
  Qed.

  Lemma edge_read : Permutation (concat (batches_of (edge column)))
    (map segment_of (filter of_field (Transfer.x_local after (table_name m)))).
  Proof. rewrite (reads_all _ _ Hedge). exact Hlocal. Qed.
  Lemma cloud_read : Permutation (concat (batches_of (cloud column)))
    (map segment_of (filter of_field (Transfer.x_remote after (table_name m)))).
  Proof. rewrite (reads_all _ _ Hcloud). exact Hremote. Qed.

  Lemma both_read : incl (concat (batches_of (edge column))) (flat_map segments_in (local ++ remote))
    /\ incl (concat (batches_of (cloud column))) (flat_map segments_in (local ++ remote)).
  Proof.
    rewrite flat_map_app. split; intros x Hx; apply in_app_iff.
    - left. exact (Permutation_in x (reads_all _ _ Hedge) Hx).
    - right. exact (Permutation_in x (reads_all _ _ Hcloud) Hx).
  Qed.

  Lemma edge_returns parts : Forall2 (stored_as P size latest interval sent position eb) (concat (batches_of (edge column))) parts ->
    incl (concat parts) sent ->
    exists rows, rows_of (local ++ remote) rows (concat parts) /\ returns rows edge.
  Proof.
    intros H Hi. apply (query_selects P m size latest interval sent Hvalid Hrows position column name eb Hf (local ++ remote)
      F set_order projection edge None batch_size Htags Horder Hselects Hone Hedge_fine Hbatch ltac:(discriminate) None
      (flat_map (grid_stored P) (concat (batches_of (edge column)))) (concat parts)); [|exact Hi|reflexivity].
    apply parts_match; [exact H|apply both_read].
  Qed.
  Lemma cloud_returns parts : Forall2 (stored_as P size latest interval sent position eb) (concat (batches_of (cloud column))) parts ->
    incl (concat parts) sent ->
    exists rows, rows_of (local ++ remote) rows (concat parts) /\ returns rows cloud.
  Proof.
    intros H Hi. apply (query_selects P m size latest interval sent Hvalid Hrows position column name eb Hf (local ++ remote)
      F set_order projection cloud None batch_size Htags Horder Hselects Hone Hcloud_fine Hbatch ltac:(discriminate) None
      (flat_map (grid_stored P) (concat (batches_of (cloud column)))) (concat parts)); [|exact Hi|reflexivity].
    apply parts_match; [exact H|apply both_read].
  Qed.

  Lemma returned_once : transferred (table_name m) n batch moves after ->
    exists edge_rows edge_items cloud_rows cloud_items, Permutation sent (edge_items ++ cloud_items)
      /\ rows_of (local ++ remote) edge_rows edge_items /\ rows_of (local ++ remote) cloud_rows cloud_items
      /\ returns edge_rows edge /\ returns cloud_rows cloud.
  Proof.
    intros [T1 T2 T3 T4 T5]. destruct stored_parts as (xs & parts & E1 & E2 & E3).
    pose proof (TransferProofs.exactly_once n batch moves after (table_name m) T1 T2 T3 T4 T5) as Hx.
    assert (Hp : Permutation xs (concat (batches_of (edge column)) ++ concat (batches_of (cloud column)))).
    { rewrite <- E1, edge_read, cloud_read, <- map_app, <- filter_app. apply Permutation_map, filter_perm. exact Hx. }
    destruct (forall2_perm _ _ _ Hp _ E3) as (parts' & G1 & G2).
    apply Forall2_app_inv_l in G2. destruct G2 as (p1 & p2 & F1 & F2 & ->).
    assert (Hs : Permutation sent (concat p1 ++ concat p2)).
    { rewrite <- concat_app, <- (concat_perm _ _ G1), E2. reflexivity. }
    destruct (edge_returns p1 F1) as (r1 & A1 & A2).
    { intros x H. apply (Permutation_in x (Permutation_sym Hs)). apply in_app_iff. left. exact H. }
    destruct (cloud_returns p2 F2) as (r2 & B1 & B2).
    { intros x H. apply (Permutation_in x (Permutation_sym Hs)). apply in_app_iff. right. exact H. }
    exists r1, (concat p1), r2, (concat p2). split; [exact Hs|]. split; [exact A1|]. split; [exact B1|]. split; assumption.
  Qed.

  Lemma returned_inserted : Transfer.run moves (Transfer.start n batch) = Transfer.Went after ->
    exists edge_rows edge_items cloud_rows cloud_items, incl (edge_items ++ cloud_items) sent
      /\ rows_of (local ++ remote) edge_rows edge_items /\ rows_of (local ++ remote) cloud_rows cloud_items
      /\ returns edge_rows edge /\ returns cloud_rows cloud.
  Proof.
    intros T. destruct stored_parts as (xs & parts & E1 & E2 & E3).
    pose proof (TransferProofs.nothing_invented n batch moves after (table_name m) T) as Hx.
    assert (H : forall rows, incl rows (Transfer.x_local after (table_name m) ++ Transfer.x_remote after (table_name m)) ->
      incl (map segment_of (filter of_field rows)) xs).
    { intros rows Hi x H. apply in_map_iff in H. destruct H as (z & <- & H). apply filter_In in H. destruct H as [H1 H2].
      apply (Permutation_in _ E1). apply in_map. apply filter_In. split; [|exact H2]. apply Hx, Hi, H1. }
    assert (He : incl (concat (batches_of (edge column))) xs).
    { intros x Hy. apply (Permutation_in x edge_read) in Hy. revert x Hy. apply H. intros z Hz. apply in_app_iff. left. exact Hz. }
    assert (Hc : incl (concat (batches_of (cloud column))) xs).
    { intros x Hy. apply (Permutation_in x cloud_read) in Hy. revert x Hy. apply H. intros z Hz. apply in_app_iff. right. exact Hz. }
    destruct (member_part _ _ _ _ _ _ _ xs parts E3 _ He) as (p1 & I1 & F1).
    destruct (member_part _ _ _ _ _ _ _ xs parts E3 _ Hc) as (p2 & I2 & F2).
    assert (H1 : incl (concat p1) sent) by (intros x Hy; apply (Permutation_in x E2), I1, Hy).
    assert (H2 : incl (concat p2) sent) by (intros x Hy; apply (Permutation_in x E2), I2, Hy).
    destruct (edge_returns p1 F1 H1) as (r1 & A1 & A2). destruct (cloud_returns p2 F2 H2) as (r2 & B1 & B2).
    exists r1, (concat p1), r2, (concat p2). split; [apply incl_app; assumption|].
    split; [exact A1|]. split; [exact B1|]. split; assumption.
  Qed.
End Transferred.

Section Filtered.
  Variables (hash : string -> Z) (capacity : nat) (sort_points : list Pipeline.point -> list Pipeline.point)
    (logging : bool) (events : list Pipeline.event) (limits : Pipeline.pool) (s1 s : Pipeline.state)
    (n : nat) (batch : option Z) (moves : list Transfer.event) (after : Transfer.state)
    (P : platform) (m : metadata) (size : R) (latest interval : Z) (batch_size : nat)
    (F : functions) (set_order : list nat -> list nat) (projection : option (list nat))
    (position column : nat) (name : string) (eb : error_bound)
    (segment_of : Z -> stored_segment) (of_field : Z -> bool)
    (local remote : list (file stored_segment)) (edge cloud : nat -> stream (list stored_segment))
    (filters : list expr) (p g : option expr) (item_row : item -> row) (segment_values : stored_segment -> row)
    (point_row : Streams.point -> row) (predicate : option (Streams.point -> bool)).
  Notation sent := (sent_to (table_name m) s).
  Notation gs := (committed_to (table_name m) s).
  Notation rows_of files := (Forall2 (row_with P (fun eb => near eb (rounding size latest interval (length sent))) m files position name eb)).
  Notation returns rows streams := ((forall r, In r rows -> computable F m (columns_of m projection) r) ->
          exists p, scan set_order m projection = Ok p
            /\ answers F m rows (columns_of m projection) (fun n =>
                 consume (query_poll F (grid_stored P) predicate (tag_names m) p) n
                   (query_stream p None batch_size streams))).

  Hypothesis Hpoints : PipelineSpec.sorts_points sort_points.
  Hypothesis Hlimits : PipelineSpec.nonneg_limits limits.
  Hypothesis Hrun : Pipeline.run hash capacity sort_points logging events (Pipeline.start logging limits [] []) = Pipeline.Next s1.
  Hypothesis Husual : PipelineSpec.along hash capacity sort_points logging PipelineSpec.usual events (Pipeline.start logging limits [] []).
  Hypothesis Hcrash : ~ In Pipeline.Crash events.
  Hypothesis Hcollision : PipelineSpec.collision_free hash (PipelineSpec.received s1).
  Hypothesis Htimes : PipelineSpec.distinct_times (PipelineSpec.received s1).
  Hypothesis Hreturn : Pipeline.step hash capacity sort_points logging Pipeline.Return s1 = Pipeline.Next s.
  Hypothesis Hvalid : valid_table m.
  Hypothesis Htags : tags_named m.
  Hypothesis Hrows : Forall (is_row_of m) sent.
  Hypothesis Hstore : can_store P m size latest interval sent.
  Hypothesis Hf : field_at m position column name eb.
  Hypothesis Horder : enumerates_indices set_order.
  Hypothesis Hselects : selects m (columns_of m projection).
  Hypothesis Hone : reads_one_field m (columns_of m projection) name.
  Hypothesis Hbatch : 0 < batch_size.
  Hypothesis Hsaved : forall l, all_segments P m position column gs = Ok l ->
    Permutation (map segment_of (filter of_field (TransferSpec.saved (table_name m) moves))) l.
  Hypothesis Hlocal : in_folder segment_of of_field (Transfer.x_local after (table_name m)) local.
  Hypothesis Hremote : in_folder segment_of of_field (Transfer.x_remote after (table_name m)) remote.
  Hypothesis Hsupported : forall f, In f filters -> time_filter (filter_schema m) f = true ->
    supported (filter_schema m) f = true.
  Hypothesis Hrewrite : rewrite_and_combine_filters (filter_schema m) filters = Ok (p, g).
  Hypothesis Hseen : seen_as m item_row segment_values point_row.
  Hypothesis Hpredicate : forall q, chosen predicate q <-> passes F (point_row q) g.
  Hypothesis Hedge : reads_but (fun x => ~ passes F (segment_values x) p) local (edge column).
  Hypothesis Hedge_fine : fine (edge column).
  Hypothesis Hcloud : reads_but (fun x => ~ passes F (segment_values x) p) remote (cloud column).
  Hypothesis Hcloud_fine : fine (cloud column).

  Lemma point_filter q x : p_time q = time_of x -> (chosen predicate q <-> in_time F m item_row filters x).
  Proof.
    intros Ht. rewrite Hpredicate. unfold in_time.
    refine (proj2 (FiltersProofs.filters_sound F _ filters p g Hsupported Hrewrite (time_of x) (time_of x) (time_of x) (item_row x)
      (fun _ => Some (Time (time_of x))) (point_row q) _ (items_seen _ _ _ _ Hseen x) _ _)).
    - lia.
    - split; reflexivity.
    - rewrite <- Ht. exact (points_seen _ _ _ _ Hseen q).
  Qed.

  Lemma skipped_filter skipped parts : Forall2 (stored_as P size latest interval sent position eb) skipped parts ->
    (forall x, In x skipped -> ~ passes F (segment_values x) p) ->
    forall x, In x (concat parts) -> ~ in_time F m item_row filters x.
  Proof.
    intros H Hskip x Hx Hin.
    assert (Hs : exists s, In s skipped /\ (sg_start_time (st_segment s) <= time_of x <= sg_end_time (st_segment s))%Z).
    { clear - H Hx. induction H as [|sg part k parts Hs H IH]; [contradiction Hx|].
      cbn [concat] in Hx. apply in_app_iff in Hx. destruct Hx as [Hx|Hx].
      - exists sg. split; [left; reflexivity|]. exact (sa_span _ _ _ _ _ _ _ _ _ Hs x Hx).
      - destruct (IH Hx) as (s' & H1 & H2). exists s'. split; [right; exact H1|exact H2]. }
    destruct Hs as (sg & H1 & H2). apply (Hskip sg H1).
    exact (proj1 (FiltersProofs.filters_sound F _ filters p g Hsupported Hrewrite (time_of x) _ _ (item_row x)
      (segment_values sg) (fun _ => Some (Time (time_of x))) H2 (items_seen _ _ _ _ Hseen x)
      (segments_seen _ _ _ _ Hseen sg) eq_refl) Hin).
  Qed.

  Lemma node_filtered streams parts : fine (streams column) ->
    Forall2 (stored_as P size latest interval sent position eb) (concat (batches_of (streams column))) parts ->
    incl (concat (batches_of (streams column))) (flat_map segments_in (local ++ remote)) -> incl (concat parts) sent ->
    exists rows items others, Permutation (items ++ others) (concat parts)
      /\ (forall x, In x items -> in_time F m item_row filters x)
      /\ (forall x, In x others -> ~ in_time F m item_row filters x)
      /\ rows_of (local ++ remote) rows items /\ returns rows streams.
  Proof.
    intros Hfine H Hin Hi.
    destruct (select_matches P size latest interval sent position eb (local ++ remote) predicate _ _
      (parts_match P size latest interval sent position eb (local ++ remote) _ _ H Hin)) as (kept & others & S1 & S2 & S3 & S4).
    assert (Hk : incl kept sent).
    { intros x Hx. apply Hi, (Permutation_in x S1). apply in_app_iff. left. exact Hx. }
    destruct (query_selects P m size latest interval sent Hvalid Hrows position column name eb Hf (local ++ remote)
      F set_order projection streams None batch_size Htags Horder Hselects Hone Hfine Hbatch ltac:(discriminate) predicate
      _ kept S2 Hk eq_refl) as (rows & Q1 & Q2).
    exists rows, kept, others. split; [exact S1|]. split; [|split; [|split; [exact Q1|exact Q2]]].
    - intros x Hx. destruct (S3 x Hx) as (q & H1 & H2). exact (proj1 (point_filter q x H1) H2).
    - intros x Hx C. destruct (S4 x Hx) as (q & H1 & H2). exact (H2 (proj2 (point_filter q x H1) C)).
  Qed.

  Lemma filtered_once : transferred (table_name m) n batch moves after ->
    exists edge_rows edge_items cloud_rows cloud_items others, Permutation sent (edge_items ++ cloud_items ++ others)
      /\ (forall x, In x (edge_items ++ cloud_items) -> in_time F m item_row filters x)
      /\ (forall x, In x others -> ~ in_time F m item_row filters x)
      /\ rows_of (local ++ remote) edge_rows edge_items /\ rows_of (local ++ remote) cloud_rows cloud_items
      /\ returns edge_rows edge /\ returns cloud_rows cloud.
  Proof.
    intros [T1 T2 T3 T4 T5].
    destruct (stored_parts hash capacity sort_points logging events limits s1 s moves P m size latest interval position column name eb
      segment_of of_field Hpoints Hlimits Hrun Husual Hcrash Hcollision Htimes Hreturn Hvalid Hstore Hf Hsaved) as (xs & parts & E1 & E2 & E3).
    pose proof (TransferProofs.exactly_once n batch moves after (table_name m) T1 T2 T3 T4 T5) as Hx.
    destruct Hedge as (k1 & He & Hk1). destruct Hcloud as (k2 & Hc & Hk2).
    set (e := concat (batches_of (edge column))) in *. set (c := concat (batches_of (cloud column))) in *.
    assert (Hp : Permutation xs ((e ++ k1) ++ (c ++ k2))).
    { rewrite <- E1, He, Hc, Hlocal, Hremote, <- map_app, <- filter_app. apply Permutation_map, filter_perm. exact Hx. }
    destruct (forall2_perm _ _ _ Hp _ E3) as (parts' & G1 & G2).
    apply Forall2_app_inv_l in G2. destruct G2 as (p12 & p34 & F12 & F34 & ->).
    apply Forall2_app_inv_l in F12. destruct F12 as (p1 & p2 & F1 & F2 & ->).
    apply Forall2_app_inv_l in F34. destruct F34 as (p3 & p4 & F3 & F4 & ->).
    assert (Hs : Permutation sent ((concat p1 ++ concat p2) ++ (concat p3 ++ concat p4))).
    { rewrite <- !concat_app, <- (concat_perm _ _ G1), E2. reflexivity. }
    assert (I1 : incl (concat p1) sent).
    { intros x H. apply (Permutation_in x (Permutation_sym Hs)). rewrite !in_app_iff. tauto. }
    assert (I3 : incl (concat p3) sent).
    { intros x H. apply (Permutation_in x (Permutation_sym Hs)). rewrite !in_app_iff. tauto. }
    assert (B1 : incl e (flat_map segments_in (local ++ remote))).
    { intros x H. rewrite flat_map_app. apply in_app_iff. left. apply (Permutation_in x He). apply in_app_iff. left. exact H. }
    assert (B3 : incl c (flat_map segments_in (local ++ remote))).
    { intros x H. rewrite flat_map_app. apply in_app_iff. right. apply (Permutation_in x Hc). apply in_app_iff. left. exact H. }
    destruct (node_filtered edge p1 Hedge_fine F1 B1 I1) as (r1 & i1 & o1 & N1 & N2 & N3 & N4 & N5).
    destruct (node_filtered cloud p3 Hcloud_fine F3 B3 I3) as (r3 & i3 & o3 & M1 & M2 & M3 & M4 & M5).
    exists r1, i1, r3, i3, (o1 ++ concat p2 ++ o3 ++ concat p4).
    split; [|split; [|split; [|split; [exact N4|split; [exact M4|split; [exact N5|exact M5]]]]]].
    - rewrite Hs, <- N1, <- M1, <- !app_assoc. apply Permutation_app_head.
      rewrite (app_assoc o1), (app_assoc o1), (Permutation_app_comm (o1 ++ concat p2) (i3 ++ o3 ++ concat p4)), <- !app_assoc.
      apply Permutation_app_head. rewrite (app_assoc o3), (Permutation_app_comm (o3 ++ concat p4)), <- !app_assoc. reflexivity.
    - intros x H. apply in_app_iff in H. destruct H as [H|H]; [exact (N2 x H)|exact (M2 x H)].
    - intros x H. rewrite !in_app_iff in H. destruct H as [H|[H|[H|H]]].
      + exact (N3 x H).
      + exact (skipped_filter _ _ F2 Hk1 x H).
      + exact (M3 x H).
      + exact (skipped_filter _ _ F4 Hk2 x H).
  Qed.
End Filtered.

Section Counted.
  Variables (hash : string -> Z) (capacity : nat) (sort_points : list Pipeline.point -> list Pipeline.point)
    (logging : bool) (events : list Pipeline.event) (limits : Pipeline.pool) (s1 s : Pipeline.state)
    (n : nat) (batch : option Z) (moves : list Transfer.event) (after : Transfer.state)
    (P : platform) (m : metadata) (size : R) (latest interval : Z)
    (position column : nat) (name : string) (eb : error_bound)
    (segment_of : Z -> stored_segment) (of_field : Z -> bool)
    (local remote : list (file stored_segment)) (edge_read cloud_read : list stored_segment).
  Notation sent := (sent_to (table_name m) s).
  Notation gs := (committed_to (table_name m) s).

  Lemma decompressed_app a b x y : decompressed P a x -> decompressed P b y -> decompressed P (a ++ b) (x ++ y).
  Proof.
    intros (p & H1 & H2) (q & H3 & H4). exists (p ++ q). split; [apply Forall2_app; assumption|].
    rewrite concat_app, H2, H4. reflexivity.
  Qed.

  Lemma counted_once :
    PipelineSpec.sorts_points sort_points -> PipelineSpec.nonneg_limits limits ->
    Pipeline.run hash capacity sort_points logging events (Pipeline.start logging limits [] []) = Pipeline.Next s1 ->
    PipelineSpec.along hash capacity sort_points logging PipelineSpec.usual events (Pipeline.start logging limits [] []) ->
    ~ In Pipeline.Crash events ->
    PipelineSpec.collision_free hash (PipelineSpec.received s1) ->
    PipelineSpec.distinct_times (PipelineSpec.received s1) ->
    Pipeline.step hash capacity sort_points logging Pipeline.Return s1 = Pipeline.Next s ->
    valid_table m -> can_store P m size latest interval sent -> field_at m position column name eb ->
    (forall l, all_segments P m position column gs = Ok l ->
       Permutation (map segment_of (filter of_field (TransferSpec.saved (table_name m) moves))) l) ->
    in_folder segment_of of_field (Transfer.x_local after (table_name m)) local ->
    in_folder segment_of of_field (Transfer.x_remote after (table_name m)) remote ->
    Permutation edge_read (flat_map segments_in local) -> Permutation cloud_read (flat_map segments_in remote) ->
    transferred (table_name m) n batch moves after ->
    (Z.of_nat (length sent) < 2 ^ 63)%Z ->
    exists a b, model_count 0 (map st_segment edge_read) = Ok a
      /\ model_count 0 (map st_segment cloud_read) = Ok b /\ (a + b = Z.of_nat (length sent))%Z.
  Proof.
    intros Hpoints Hlimits Hrun Husual Hcrash Hcollision Htimes Hreturn Hvalid Hstore Hf Hsaved Hlocal Hremote Hedge Hcloud
      [T1 T2 T3 T4 T5] Hmax.
    destruct (EndToEndOneField.flushed_good hash capacity sort_points logging events limits s1 s m Hpoints Hlimits Hrun Husual Hcrash
      Hcollision Htimes Hreturn) as [Hg Hp].
    pose proof (TransferProofs.exactly_once n batch moves after (table_name m) T1 T2 T3 T4 T5) as Hx.
    assert (Hall : Permutation (edge_read ++ cloud_read) (map segment_of (filter of_field (TransferSpec.saved (table_name m) moves)))).
    { rewrite Hedge, Hcloud, Hlocal, Hremote, <- map_app, <- filter_app. apply Permutation_map, filter_perm. symmetry. exact Hx. }
    destruct (all_segments P m position column gs) as [xs| |] eqn:E.
    2,3: destruct (all_stored P m size latest interval sent Hstore Hvalid position column name eb Hf gs Hg) as (xs & parts & E1 & _);
      rewrite E in E1; discriminate E1.
    assert (Hh : forall l, all_segments P m position column gs = Ok l -> hold [File 0%Z xs] l).
    { intros l El. rewrite E in El. injection El as <-. exists [File 0%Z xs]. split; [reflexivity|]. cbn. apply app_nil_r. }
    assert (Hr : Permutation (edge_read ++ cloud_read) (flat_map segments_in [File 0%Z xs])).
    { cbn [flat_map segments_in]. rewrite app_nil_r, Hall. apply Hsaved. reflexivity. }
    destruct (EndToEndAggregates.read_parts P m size latest interval sent gs position column name eb [File 0%Z xs] (edge_read ++ cloud_read)
      Hstore Hvalid Hg Hp Hf Hh Hr) as (parts & outs & R1 & R2 & R3 & R4 & _).
    apply Forall_app in R1. destruct R1 as [C1 C2].
    pose proof (log2_fine _ _ _ _ _ _ Hstore) as HL. pose proof (ties_fine _ _ _ _ _ _ Hstore) as HT.
    destruct (AggregateSumProofs.count_correct P (map st_segment edge_read) HL HT (EndToEndAggregates.segments_created _ _ C1)) as (x & D1 & K1).
    destruct (AggregateSumProofs.count_correct P (map st_segment cloud_read) HL HT (EndToEndAggregates.segments_created _ _ C2)) as (y & D2 & K2).
    assert (Hxy : x ++ y = concat outs).
    { apply (AggregateRuleProofs.decompressed_unique P (map st_segment edge_read ++ map st_segment cloud_read)).
      - apply decompressed_app; assumption.
      - exists outs. split; [rewrite <- map_app; exact R3|reflexivity]. }
    assert (Hlen : length x + length y = length sent).
    { rewrite <- app_length, Hxy, (EndToEndAggregates.lengths_concat _ _ R4). apply Permutation_length. exact R2. }
    exists (Z.of_nat (length x)), (Z.of_nat (length y)).
    split; [rewrite K1; [reflexivity|lia|lia]|]. split; [rewrite K2; [reflexivity|lia|lia]|]. lia.
  Qed.
End Counted.
