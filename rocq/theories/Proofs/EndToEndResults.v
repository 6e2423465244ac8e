(** From ingestion to queries. *)
From Coq Require Import ZArith Reals Bool String List Permutation Sorted Lia Lra.
From Verif Require Import Model.Base Model.Float Model.ErrorBound Model.Segments
  Model.Filters Model.Streams Model.Table Model.Scan Model.DataSource Model.EndToEnd
  Spec.PlatformSpec Spec.ErrorBoundSpec Spec.PmcSpec Spec.SwingSpec Spec.MacaqueVSpec Spec.FiltersSpec
  Spec.SegmentsSpec Spec.GridSpec Spec.StreamsSpec Spec.TableSpec Spec.ScanSpec Spec.EndToEndSpec
  Proofs.RestoreNearProofs Proofs.QueryProofs
  Proofs.EndToEndLists Proofs.EndToEndProofs Proofs.EndToEndPipeline Proofs.EndToEndQuery.
From Verif Require Model.Pipeline Spec.PipelineSpec Proofs.PipelineContiguous
  Proofs.PipelineRuns Proofs.PipelineCrash Proofs.PipelineSorted.
Import ListNotations.
Open Scope nat_scope.
Open Scope list_scope.

Lemma nodup_filter {A B} (k : A -> B) f l : NoDup (map k l) -> NoDup (map k (filter f l)).
Proof.
  induction l as [|a l IH]; intros H; [constructor|]. cbn [map] in H. inversion H as [|x y Hx Hl]; subst.
  cbn [filter]. destruct (f a); [|exact (IH Hl)]. cbn [map]. constructor; [|exact (IH Hl)].
  intros Hin. apply Hx. apply in_map_iff in Hin. destruct Hin as [b [E Hb]]. apply filter_In in Hb.
  rewrite <- E. apply in_map. apply Hb.
Qed.

Lemma nodup_app {A} (l k : list A) : NoDup (l ++ k) -> NoDup l /\ NoDup k.
Proof.
  induction l as [|a l IH]; intros H; [split; [constructor|exact H]|]. cbn [app] in H.
  inversion H as [|x y Hx Hl]; subst. destruct (IH Hl) as [H1 H2]. split; [|exact H2].
  constructor; [|exact H1]. intros Hin. apply Hx. apply in_app_iff. left. exact Hin.
Qed.

Lemma nodup_part {A B C} (k : B -> C) (f : A -> list B) l a : NoDup (map k (flat_map f l)) -> In a l -> NoDup (map k (f a)).
Proof.
  induction l as [|b l IH]; intros H Ha; [contradiction Ha|]. cbn [flat_map] in H. rewrite map_app in H.
  destruct Ha as [->|Ha]; [exact (proj1 (nodup_app _ _ H))|exact (IH (proj2 (nodup_app _ _ H)) Ha)].
Qed.

Lemma buffers_good gs l : Permutation (flat_map segment_items gs) l ->
  NoDup (map (fun x : item => (PipelineSpec.i_meta x, PipelineSpec.i_tags x, Pipeline.p_time (PipelineSpec.i_point x))) l) ->
  (forall g, In g gs -> StronglySorted PipelineSpec.earlier (Pipeline.g_points g)) ->
  Forall (good_buffer l) gs.
Proof.
  intros Hp Hn Ho. apply Forall_forall. intros g Hg. constructor.
  - exact (Ho g Hg).
  - intros x Hx. apply (Permutation_in x Hp). apply in_flat_map. exists g. split; assumption.
  - assert (Hn' := Permutation_NoDup (Permutation_map _ (Permutation_sym Hp)) Hn).
    apply nodup_part with (2 := Hg) in Hn'.
    unfold PipelineSpec.segment_items, PipelineSpec.items in *. rewrite map_map in *. cbn in Hn'.
    rewrite <- (map_map (fun p => Pipeline.p_time p) (fun t => (Pipeline.g_meta g, Pipeline.g_tags g, t))) in Hn'.
    exact (NoDup_map_inv _ _ Hn').
Qed.

Section Query.
  Variables (hash : string -> Z) (capacity : nat) (sort_points : list Pipeline.point -> list Pipeline.point)
    (logging : bool) (events : list Pipeline.event) (limits : Pipeline.pool) (s1 s : Pipeline.state)
    (P : platform) (m : metadata) (size : R) (latest interval : Z)
    (tags_le : list string -> list string -> Prop) (sort_segments : list stored_segment -> list stored_segment)
    (batch_size : nat) (files : nat -> list (file stored_segment)) (streams : nat -> stream (list stored_segment))
    (F : functions) (set_order : list nat -> list nat) (projection : option (list nat)).
  Notation sent := (sent_to (table_name m) s).
  Notation gs := (committed_to (table_name m) s).

  Hypothesis Hpoints : PipelineSpec.sorts_points sort_points.
  Hypothesis Hlimits : PipelineSpec.nonneg_limits limits.
  Hypothesis Hrun : Pipeline.run hash capacity sort_points logging events (Pipeline.start logging limits [] []) = Pipeline.Next s1.
  Hypothesis Husual : PipelineSpec.along hash capacity sort_points logging PipelineSpec.usual events (Pipeline.start logging limits [] []).
  Hypothesis Hcrash : ~ In Pipeline.Crash events.
  Hypothesis Hcollision : PipelineSpec.collision_free hash (PipelineSpec.received s1).
  Hypothesis Htimes : PipelineSpec.distinct_times (PipelineSpec.received s1).
  Hypothesis Hreturn : Pipeline.step hash capacity sort_points logging Pipeline.Return s1 = Pipeline.Next s.
  Hypothesis Hvalid : valid_table m.
  Hypothesis Htags : tags_named m.
  Hypothesis Hrows : Forall (is_row_of m) sent.
  Hypothesis Hstore : can_store P m size latest interval sent.
  Hypothesis Hle : total_order tags_le.
  Hypothesis Hsort : sorts_segments tags_le sort_segments.
  Hypothesis Hhold : forall position column name eb l, field_at m position column name eb ->
    all_segments P m position column gs = Ok l -> hold (files column) l.
  Hypothesis Haligned : aligned m gs files.
  Hypothesis Hread : read_from sort_segments batch_size m files streams.
  Hypothesis Hbatch : 0 < batch_size.
  Hypothesis Horder : enumerates_indices set_order.
  Hypothesis Hselects : selects m (columns_of m projection).
  Hypothesis Hreads : exists i, reads m (columns_of m projection) i.
  Hypothesis Hfield : (exists i, reads m (columns_of m projection) i /\ type_at (query_schema m) i Float32) \/ stored_field_first m.

  Lemma query_near :
    (forall position column name eb, field_at m position column name eb ->
       exists l, all_segments P m position column gs = Ok l)
    /\ exists rows items, Permutation items sent
       /\ Forall2 (row_for P (fun eb => near eb (rounding size latest interval (length sent))) m files) rows items
       /\ ((forall r, In r rows -> computable F m (columns_of m projection) r) ->
           exists p, scan set_order m projection = Ok p
             /\ answers F m rows (columns_of m projection) (fun n =>
                  consume (query_poll F (grid_stored P) None (tag_names m) p) n
                    (query_stream p None batch_size streams))).
  Proof.
    destruct (flushed hash capacity sort_points logging Hpoints events limits s1 s (table_name m) Hlimits Hrun Husual Hcrash Hcollision Htimes Hreturn)
      as (Hperm & Erec & Hord).
    assert (Hgood : Forall (good_buffer sent) gs).
    { apply buffers_good; [exact Hperm| |exact Hord]. unfold sent_to. rewrite Erec. apply nodup_filter. exact Htimes. }
    split.
    - intros position column name eb Hf.
      destruct (all_stored P m size latest interval sent Hstore Hvalid position column name eb Hf gs Hgood) as (xs & _ & E & _).
      exists xs. exact E.
    - destruct (same_order P m size latest interval sent Hstore Hvalid tags_le sort_segments Hle Hsort gs files Hgood Hperm Hhold Haligned)
        as (items & Hitems & Hra).
      exists (rows_from P m sort_segments files 0 items), items. split; [exact Hitems|]. split.
      + exact (rows_found P m size latest interval sent Hstore Hvalid tags_le sort_segments Hsort gs files Hgood Hhold items Hitems Hra Hrows).
      + intros Hc. apply query_ok; try assumption; [discriminate|].
        exact (files_found P m size latest interval sent Hstore Hvalid tags_le sort_segments Hsort gs files Hgood Hhold items Hitems Hra Hrows batch_size streams Hread).
  Qed.

  Lemma query_within :
    (forall position column name eb x, field_at m position column name eb -> In x sent ->
       finite32 (value_of position x) ->
       (rounding size latest interval (length sent) <= margin eb (R32 (value_of position x)))%R) ->
    exists rows items, Permutation items sent
       /\ Forall2 (row_for P (within_bound check_slack) m files) rows items
       /\ ((forall r, In r rows -> computable F m (columns_of m projection) r) ->
           exists p, scan set_order m projection = Ok p
             /\ answers F m rows (columns_of m projection) (fun n =>
                  consume (query_poll F (grid_stored P) None (tag_names m) p) n
                    (query_stream p None batch_size streams))).
  Proof.
    intros Hm. destruct query_near as [_ (rows & items & H1 & H2 & H3)]. exists rows, items.
    split; [exact H1|]. split; [|exact H3].
    assert (Hin : incl items sent) by (intros x Hx; apply (Permutation_in x H1 Hx)).
    clear H1 H3. induction H2 as [|r x rows items Hr F2 IH]; [constructor|].
    constructor; [|apply IH; intros y Hy; apply Hin; right; exact Hy].
    destruct Hr as [R1 R2 R3]. constructor; [exact R1|exact R2|].
    intros position column name eb Hf. destruct (R3 _ _ _ _ Hf) as [H|H]; [left|right; exact H].
    specialize (Hin x (or_introl eq_refl)).
    revert H. apply near_within.
    - pose proof (valid_bounds _ Hvalid) as Hb. rewrite Forall_forall in Hb. apply Hb.
      apply (nth_error_In _ column). exact (field_bound _ _ _ _ _ Hf).
    - apply rounding_positive.
      + apply (size_small _ _ _ _ _ _ Hstore).
      + pose proof (times_small _ _ _ _ _ _ Hstore x Hin). lia.
      + exact (interval_positive _ _ _ _ _ _ Hstore).
    - intros Hfin. exact (Hm _ _ _ _ _ Hf Hin Hfin).
  Qed.
End Query.

Lemma ordered_times l : in_time_order l -> PipelineSpec.distinct_times l.
Proof.
  unfold PipelineSpec.distinct_times. induction 1 as [|x l Hx Hl IH]; cbn [map]; constructor; [|exact IH].
  intros C. apply in_map_iff in C. destruct C as [y [E Hy]]. rewrite Forall_forall in Hx. specialize (Hx y Hy).
  injection E as E1 E2 E3. unfold tags_of, time_of in Hx. specialize (Hx (eq_sym E1) (eq_sym E2)). lia.
Qed.

Section In_order.
  Variables (hash : string -> Z) (capacity : nat) (sort_points : list Pipeline.point -> list Pipeline.point)
    (logging : bool) (events : list Pipeline.event) (limits : Pipeline.pool) (s1 s : Pipeline.state)
    (P : platform) (m : metadata) (size : R) (latest interval : Z)
    (tags_le : list string -> list string -> Prop) (sort_segments : list stored_segment -> list stored_segment)
    (batch_size : nat) (files : nat -> list (file stored_segment)) (streams : nat -> stream (list stored_segment))
    (F : functions) (set_order : list nat -> list nat) (projection : option (list nat)).
  Notation sent := (sent_to (table_name m) s).
  Notation gs := (committed_to (table_name m) s).

  Hypothesis Hpoints : PipelineSpec.sorts_points sort_points.
  Hypothesis Hlimits : PipelineSpec.nonneg_limits limits.
  Hypothesis Hrun : Pipeline.run hash capacity sort_points logging events (Pipeline.start logging limits [] []) = Pipeline.Next s1.
  Hypothesis Husual : PipelineSpec.along hash capacity sort_points logging PipelineSpec.usual events (Pipeline.start logging limits [] []).
  Hypothesis Hcrash : ~ In Pipeline.Crash events.
  Hypothesis Hcollision : PipelineSpec.collision_free hash (PipelineSpec.received s1).
  Hypothesis Hordered : in_time_order (PipelineSpec.received s1).
  Hypothesis Hreturn : Pipeline.step hash capacity sort_points logging Pipeline.Return s1 = Pipeline.Next s.
  Hypothesis Hvalid : valid_table m.
  Hypothesis Htags : tags_named m.
  Hypothesis Hrows : Forall (is_row_of m) sent.
  Hypothesis Hstore : can_store P m size latest interval sent.
  Hypothesis Hle : total_order tags_le.
  Hypothesis Hsort : sorts_segments tags_le sort_segments.
  Hypothesis Hhold : forall position column name eb l, field_at m position column name eb ->
    all_segments P m position column gs = Ok l -> hold (files column) l.
  Hypothesis Hfiles : forall j k, In j (field_column_indices m) -> In k (field_column_indices m) ->
    length (files j) = length (files k).
  Hypothesis Hread : read_from sort_segments batch_size m files streams.
  Hypothesis Hbatch : 0 < batch_size.
  Hypothesis Horder : enumerates_indices set_order.
  Hypothesis Hselects : selects m (columns_of m projection).
  Hypothesis Hreads : exists i, reads m (columns_of m projection) i.
  Hypothesis Hfield : (exists i, reads m (columns_of m projection) i /\ type_at (query_schema m) i Float32) \/ stored_field_first m.

  Lemma ordered_aligned : aligned m gs files.
  Proof.
    pose proof (ordered_times _ Hordered) as Htimes.
    destruct (flushed hash capacity sort_points logging Hpoints events limits s1 s (table_name m) Hlimits Hrun Husual Hcrash Hcollision Htimes Hreturn)
      as (Hperm & Erec & _).
    destruct (PipelineContiguous.committed_in_order hash capacity sort_points logging Hpoints events limits s1 Hrun Husual Hcrash Hcollision Htimes Hordered)
      as [dn Hdn].
    assert (Egs : gs = committed_to (table_name m) s1).
    { unfold committed_to. f_equal. revert Hreturn. cbn [Pipeline.step]. intros H.
      destruct (Pipeline.s_client s1); try discriminate H; destruct (Pipeline.s_results s1); try discriminate H.
      - injection H as <-. reflexivity.
      - destruct (Pipeline.is_finished s1); [|discriminate H]. injection H as <-. reflexivity. }
    assert (Hapart : apart gs).
    { apply (PipelineContiguous.groups_apart dn).
      - rewrite Egs. apply Hdn.
      - apply (Permutation_NoDup (Permutation_map _ (Permutation_sym Hperm))).
        unfold sent_to. rewrite Erec. apply nodup_filter. exact Htimes.
      - intros x y Hx Hy. rewrite Forall_forall in Hrows.
        rewrite (proj1 (Hrows x (Permutation_in x Hperm Hx))), (proj1 (Hrows y (Permutation_in y Hperm Hy))). reflexivity. }
    right. destruct (field_column_indices m) as [|i l] eqn:E; [left; intros k []|].
    destruct (le_lt_dec (length (files i)) 1) as [L|L].
    - left. intros k Hk. rewrite (Hfiles k i Hk (or_introl eq_refl)). exact L.
    - right. split; [exact Hapart|]. intros k Hk. rewrite (Hfiles k i Hk (or_introl eq_refl)). lia.
  Qed.

  Lemma query_in_order :
    (forall position column name eb x, field_at m position column name eb -> In x sent ->
       finite32 (value_of position x) ->
       (rounding size latest interval (length sent) <= margin eb (R32 (value_of position x)))%R) ->
    exists rows items, Permutation items sent
       /\ Forall2 (row_for P (within_bound check_slack) m files) rows items
       /\ ((forall r, In r rows -> computable F m (columns_of m projection) r) ->
           exists p, scan set_order m projection = Ok p
             /\ answers F m rows (columns_of m projection) (fun n =>
                  consume (query_poll F (grid_stored P) None (tag_names m) p) n
                    (query_stream p None batch_size streams))).
  Proof.
    apply (query_within hash capacity sort_points logging events limits s1 s P m size latest interval tags_le sort_segments
      batch_size files streams F set_order projection); try assumption.
    - exact (ordered_times _ Hordered).
    - exact ordered_aligned.
  Qed.
End In_order.

(** * Queries at any time *)

Lemma can_store_part P m size latest interval l k : incl k l -> length k <= length l ->
  can_store P m size latest interval l -> can_store P m size latest interval k.
Proof.
  intros Hi Hn [H1 H2 H3 H4 H5 H6 H7 H8 H9 H10]. constructor; try assumption.
  - apply le_INR in Hn. lra.
  - intros x Hx. exact (H7 x (Hi x Hx)).
  - intros x y Hx Hy. exact (H8 x y (Hi x Hx) (Hi y Hy)).
  - intros position column name e Hf. destruct (H9 _ _ _ _ Hf) as [H|H]; [left; exact H|right].
    destruct H as [H|H]; [left|right]; intros v Hv; apply H; apply in_map_iff in Hv; destruct Hv as [x [<- Hx]];
      apply in_map; exact (Hi x Hx).
  - intros position column name eb x Hf Hx. exact (H10 _ _ _ _ x Hf (Hi x Hx)).
Qed.

Lemma stored_good hash capacity sort_points logging events limits s P m size latest interval :
  PipelineSpec.sorts_points sort_points ->
  Pipeline.run hash capacity sort_points logging events (Pipeline.start logging limits [] []) = Pipeline.Next s ->
  PipelineSpec.along hash capacity sort_points logging
    (fun e s => PipelineSpec.undisturbed e s /\ PipelineSpec.spills_written e) events (Pipeline.start logging limits [] []) ->
  PipelineSpec.collision_free hash (PipelineSpec.received s) -> PipelineSpec.distinct_times (PipelineSpec.received s) ->
  can_store P m size latest interval (sent_to (table_name m) s) ->
  exists rest, Permutation (sent_to (table_name m) s) (saved_in (table_name m) s ++ rest)
    /\ length (saved_in (table_name m) s) <= length (sent_to (table_name m) s)
    /\ can_store P m size latest interval (saved_in (table_name m) s)
    /\ Permutation (flat_map segment_items (committed_to (table_name m) s)) (saved_in (table_name m) s)
    /\ Forall (good_buffer (saved_in (table_name m) s)) (committed_to (table_name m) s).
Proof.
  intros Hpoints Hrun Hgood Hcollision Htimes Hstore.
  destruct (PipelineCrash.nothing_twice hash capacity sort_points Hpoints logging events limits s Hrun Hgood Hcollision Htimes) as [missing Hm].
  pose proof (PipelineRuns.run_inv hash capacity sort_points logging Hpoints events _ s
    (PipelineRuns.start_inv hash logging limits) Hrun Hgood Hcollision Htimes) as Hinv.
  pose proof (committed_items (table_name m) s (PipelineRuns.inv_ids _ _ _ Hinv)) as Eitems.
  assert (Hperm : Permutation (flat_map segment_items (committed_to (table_name m) s)) (saved_in (table_name m) s)) by (rewrite <- Eitems; reflexivity).
  assert (Hall : exists rest, Permutation (sent_to (table_name m) s) ((saved_in (table_name m) s) ++ rest)).
  { unfold sent_to, saved_in. apply (filter_permutation (fun x : item => String.eqb (Pipeline.t_name (PipelineSpec.i_meta x)) (table_name m))) in Hm.
    rewrite !filter_app, <- !app_assoc in Hm. eexists. exact Hm. }
  destruct Hall as [rest Hall].
  assert (Hincl : incl (saved_in (table_name m) s) (sent_to (table_name m) s)).
  { intros x Hx. apply (Permutation_in x (Permutation_sym Hall)). apply in_app_iff. left. exact Hx. }
  assert (Hlen : length (saved_in (table_name m) s) <= length (sent_to (table_name m) s)).
  { rewrite (Permutation_length Hall), app_length. lia. }
  pose proof (can_store_part P m size latest interval (sent_to (table_name m) s) (saved_in (table_name m) s) Hincl Hlen Hstore) as Hstore'.
  assert (Hgood' : Forall (good_buffer (saved_in (table_name m) s)) (committed_to (table_name m) s)).
  { apply buffers_good; [exact Hperm| |].
    - apply (nodup_filter (fun x : item => (PipelineSpec.i_meta x, PipelineSpec.i_tags x, Pipeline.p_time (PipelineSpec.i_point x)))
        (fun x => String.eqb (Pipeline.t_name (PipelineSpec.i_meta x)) (table_name m))) in Htimes. fold (sent_to (table_name m) s) in Htimes.
      apply (Permutation_NoDup (Permutation_map _ Hall)) in Htimes. rewrite map_app in Htimes.
      exact (proj1 (nodup_app _ _ Htimes)).
    - intros g Hg. pose proof (PipelineSorted.run_order hash capacity sort_points logging Hpoints events _ s
        (PipelineSorted.start_order logging limits) Hrun) as Ho.
      unfold committed_to in Hg. apply in_flat_map in Hg. destruct Hg as [k [Hk Hg]].
      destruct (String.eqb (Pipeline.k_table k) (table_name m)); [|contradiction Hg].
      exact (PipelineSorted.so_table _ Ho k Hk g Hg). }
  exists rest. split; [exact Hall|]. split; [exact Hlen|]. split; [exact Hstore'|]. split; [exact Hperm|exact Hgood'].
Qed.

Section Any_time.
  Variables (hash : string -> Z) (capacity : nat) (sort_points : list Pipeline.point -> list Pipeline.point)
    (logging : bool) (events : list Pipeline.event) (limits : Pipeline.pool) (s : Pipeline.state)
    (P : platform) (m : metadata) (size : R) (latest interval : Z)
    (tags_le : list string -> list string -> Prop) (sort_segments : list stored_segment -> list stored_segment)
    (batch_size : nat) (files : nat -> list (file stored_segment)) (streams : nat -> stream (list stored_segment))
    (F : functions) (set_order : list nat -> list nat) (projection : option (list nat)).
  Notation sent := (sent_to (table_name m) s).
  Notation stored := (saved_in (table_name m) s).
  Notation gs := (committed_to (table_name m) s).

  Hypothesis Hpoints : PipelineSpec.sorts_points sort_points.
  Hypothesis Hrun : Pipeline.run hash capacity sort_points logging events (Pipeline.start logging limits [] []) = Pipeline.Next s.
  Hypothesis Hgood : PipelineSpec.along hash capacity sort_points logging
    (fun e s => PipelineSpec.undisturbed e s /\ PipelineSpec.spills_written e) events (Pipeline.start logging limits [] []).
  Hypothesis Hcollision : PipelineSpec.collision_free hash (PipelineSpec.received s).
  Hypothesis Htimes : PipelineSpec.distinct_times (PipelineSpec.received s).
  Hypothesis Hvalid : valid_table m.
  Hypothesis Htags : tags_named m.
  Hypothesis Hrows : Forall (is_row_of m) sent.
  Hypothesis Hstore : can_store P m size latest interval sent.
  Hypothesis Hle : total_order tags_le.
  Hypothesis Hsort : sorts_segments tags_le sort_segments.
  Hypothesis Hhold : forall position column name eb l, field_at m position column name eb ->
    all_segments P m position column gs = Ok l -> hold (files column) l.
  Hypothesis Haligned : aligned m gs files.
  Hypothesis Hread : read_from sort_segments batch_size m files streams.
  Hypothesis Hbatch : 0 < batch_size.
  Hypothesis Horder : enumerates_indices set_order.
  Hypothesis Hselects : selects m (columns_of m projection).
  Hypothesis Hreads : exists i, reads m (columns_of m projection) i.
  Hypothesis Hfield : (exists i, reads m (columns_of m projection) i /\ type_at (query_schema m) i Float32) \/ stored_field_first m.

  Lemma query_any_time :
    (forall position column name eb, field_at m position column name eb ->
       exists l, all_segments P m position column gs = Ok l)
    /\ exists rows items rest, Permutation items stored /\ Permutation sent (items ++ rest)
       /\ Forall2 (row_for P (fun eb => near eb (rounding size latest interval (length sent))) m files) rows items
       /\ ((forall r, In r rows -> computable F m (columns_of m projection) r) ->
           exists p, scan set_order m projection = Ok p
             /\ answers F m rows (columns_of m projection) (fun n =>
                  consume (query_poll F (grid_stored P) None (tag_names m) p) n
                    (query_stream p None batch_size streams))).
  Proof.
    destruct (stored_good hash capacity sort_points logging events limits s P m size latest interval
      Hpoints Hrun Hgood Hcollision Htimes Hstore) as (rest & Hall & Hlen & Hstore' & Hperm & Hgood').
    assert (Hincl : incl stored sent).
    { intros x Hx. apply (Permutation_in x (Permutation_sym Hall)). apply in_app_iff. left. exact Hx. }
    assert (Hrows' : Forall (is_row_of m) stored).
    { apply Forall_forall. intros x Hx. rewrite Forall_forall in Hrows. exact (Hrows x (Hincl x Hx)). }
    split.
    - intros position column name eb Hf.
      destruct (all_stored P m size latest interval stored Hstore' Hvalid position column name eb Hf gs Hgood') as (xs & _ & E & _).
      exists xs. exact E.
    - destruct (same_order P m size latest interval stored Hstore' Hvalid tags_le sort_segments Hle Hsort gs files Hgood' Hperm Hhold Haligned)
        as (items & Hitems & Hra).
      exists (rows_from P m sort_segments files 0 items), items, rest. split; [exact Hitems|]. split; [|split].
      + rewrite Hall, Hitems. reflexivity.
      + pose proof (rows_found P m size latest interval stored Hstore' Hvalid tags_le sort_segments Hsort gs files Hgood' Hhold items Hitems Hra Hrows') as H.
        revert H. generalize (rows_from P m sort_segments files 0 items). intros rows H.
        clear - H Hlen Hstore. induction H as [|r x rows items Hr F2 IH]; [constructor|]. constructor; [|exact IH].
        destruct Hr as [R1 R2 R3]. constructor; [exact R1|exact R2|]. intros position column name eb Hf.
        destruct (R3 _ _ _ _ Hf) as [H|H]; [left|right; exact H].
        revert H. apply near_more. apply rounding_le; [apply (size_small _ _ _ _ _ _ Hstore)|exact Hlen].
      + intros Hc. apply query_ok; try assumption; [discriminate|].
        exact (files_found P m size latest interval stored Hstore' Hvalid tags_le sort_segments Hsort gs files Hgood' Hhold items Hitems Hra Hrows' batch_size streams Hread).
  Qed.
End Any_time.
