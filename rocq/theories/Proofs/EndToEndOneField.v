(** From ingestion to queries of one field with filters and limits. *)
From Coq Require Import ZArith Reals Bool String List Permutation Sorted Lia Lra.
From Verif Require Import Model.Base Model.Float Model.ErrorBound Model.Segments
  Model.Filters Model.Streams Model.Table Model.Scan Model.DataSource Model.EndToEnd
  Spec.PlatformSpec Spec.ErrorBoundSpec Spec.PmcSpec Spec.SwingSpec Spec.MacaqueVSpec Spec.FiltersSpec
  Spec.SegmentsSpec Spec.GridSpec Spec.StreamsSpec Spec.TableSpec Spec.ScanSpec Spec.EndToEndSpec
  Proofs.RestoreNearProofs Proofs.QueryProofs Proofs.QueryOneField
  Proofs.EndToEndLists Proofs.EndToEndProofs Proofs.EndToEndPipeline Proofs.EndToEndQuery
  Proofs.EndToEndResults.
From Verif Require Model.Pipeline Spec.PipelineSpec Proofs.FiltersProofs Proofs.LimitProofs.
Import ListNotations.
Open Scope nat_scope.
Open Scope list_scope.

Section One_field.
  Variables (P : platform) (m : metadata) (size : R) (latest interval : Z) (l : list item).
  Hypothesis Hstore : can_store P m size latest interval l.
  Hypothesis Hvalid : valid_table m.
  Variable gs : list Pipeline.segments.
  Hypothesis Hgs : Forall (good_buffer l) gs.
  Hypothesis Hperm : Permutation (flat_map segment_items gs) l.
  Hypothesis Hrows : Forall (is_row_of m) l.
  Variables (position column : nat) (name : string) (eb : error_bound).
  Hypothesis Hf : field_at m position column name eb.
  Variable files : list (file stored_segment).
  Hypothesis Hhold : forall xs, all_segments P m position column gs = Ok xs -> hold files xs.

  Definition matches (p : Streams.point) (x : item) : Prop :=
    p_time p = time_of x /\ p_tags p = tags_of x
    /\ (near eb (rounding size latest interval (length l)) (value_of position x) (from_bits (p_value p))
        \/ after_line P files (tags_of x) (time_of x)).

  Lemma read_matches read skipped : Permutation (read ++ skipped) (flat_map segments_in files) ->
    exists items others, Permutation (items ++ others) l
      /\ Forall2 matches (flat_map (grid_stored P) read) items
      /\ (forall x, In x others -> exists s, In s skipped
            /\ (sg_start_time (st_segment s) <= time_of x <= sg_end_time (st_segment s))%Z)
      /\ length read <= length items.
  Proof.
    intros Hp. destruct (all_stored P m size latest interval l Hstore Hvalid position column name eb Hf gs Hgs)
      as (xs & parts & E1 & E2 & E3).
    destruct (Hhold xs E1) as (ordered & Ho & Ex).
    assert (Hx : Permutation xs (read ++ skipped)).
    { rewrite <- Ex, Hp. apply flat_map_permutation. symmetry. exact Ho. }
    destruct (forall2_perm _ _ _ Hx _ E3) as (parts' & G1 & G2).
    apply Forall2_app_inv_l in G2. destruct G2 as (p1 & p2 & F1 & F2 & ->).
    exists (concat p1), (concat p2). split; [|split; [|split]].
    - rewrite <- concat_app, <- (concat_perm _ _ G1), E2. exact Hperm.
    - assert (Hin : forall x, In x read -> In x (flat_map segments_in files)).
      { intros x H. apply (Permutation_in x Hp). apply in_app_iff. left. exact H. }
      clear - F1 Hin. induction F1 as [|x part read parts Hx F IH]; [constructor|]. cbn [flat_map concat].
      apply Forall2_app; [|apply IH; intros y Hy; apply Hin; right; exact Hy].
      destruct Hx as [_ Ht _ Hpts _]. specialize (Hin x (or_introl eq_refl)). clear - Hpts Ht Hin.
      induction Hpts as [|p i ps part (H1 & H2 & H3) F IH]; [constructor|].
      constructor; [|apply IH; intros j Hj; apply Ht; right; exact Hj].
      split; [exact H1|]. split; [exact H2|]. destruct H3 as [H3|(H3 & ts & vs & H4 & H5)]; [left; exact H3|].
      right. exists x, ts, vs. split; [exact Hin|]. split; [symmetry; apply Ht; left; reflexivity|]. repeat split; assumption.
    - clear - F2. intros x Hx. induction F2 as [|s part k parts Hs F IH]; [contradiction Hx|].
      cbn [concat] in Hx. apply in_app_iff in Hx. destruct Hx as [Hx|Hx].
      + exists s. split; [left; reflexivity|]. exact (sa_span _ _ _ _ _ _ _ _ _ Hs x Hx).
      + destruct (IH Hx) as (s' & H1 & H2). exists s'. split; [right; exact H1|exact H2].
    - clear - F1. induction F1 as [|x part read parts Hx F IH]; [apply Nat.le_refl|].
      cbn [length concat]. rewrite app_length. pose proof (sa_some _ _ _ _ _ _ _ _ _ Hx) as Hn.
      destruct part; [contradiction Hn; reflexivity|]. cbn [length]. lia.
  Qed.

  Lemma select_matches predicate ps items : Forall2 matches ps items ->
    exists kept others, Permutation (kept ++ others) items
      /\ Forall2 matches (selected predicate ps) kept
      /\ (forall x, In x kept -> exists q, p_time q = time_of x /\ chosen predicate q)
      /\ (forall x, In x others -> exists q, p_time q = time_of x /\ ~ chosen predicate q).
  Proof.
    intros H. unfold selected, chosen. destruct predicate as [f|].
    - induction H as [|p x ps items Hm F IH].
      + exists [], []. repeat split; try constructor; intros x [].
      + destruct IH as (kept & others & I1 & I2 & I3 & I4). cbn [filter]. destruct (f p) eqn:E.
        * exists (x :: kept), others. split; [cbn [app]; constructor; exact I1|].
          split; [constructor; assumption|]. split; [|exact I4].
          intros y [<-|Hy]; [|exact (I3 y Hy)]. exists p. split; [apply Hm|exact E].
        * exists kept, (x :: others). split; [rewrite <- I1; symmetry; apply Permutation_middle|].
          split; [exact I2|]. split; [exact I3|].
          intros y [<-|Hy]; [|exact (I4 y Hy)]. exists p. split; [apply Hm|congruence].
    - exists items, []. rewrite app_nil_r. split; [reflexivity|]. split; [exact H|]. split; [|intros x []].
      intros x Hx. exists (Streams.Point (time_of x) 0%Z []). split; [reflexivity|exact I].
  Qed.

  Lemma rows_match ps items : Forall2 matches ps items -> incl items l ->
    exists rows, map (point_of m column) rows = ps
      /\ Forall2 (row_with P (fun eb => near eb (rounding size latest interval (length l))) m files position name eb)
           rows items.
  Proof.
    intros H. induction H as [|p x ps items (H1 & H2 & H3) F IH]; intros Hi.
    - exists []. split; [reflexivity|constructor].
    - destruct IH as (rows & E & R); [intros y Hy; apply Hi; right; exact Hy|].
      assert (Hl : length (tags_of x) = length (tag_names m)).
      { rewrite Forall_forall in Hrows. apply Hrows. apply Hi. left. reflexivity. }
      exists (DataRow (time_of x) (fun n => nth (index_of n (tag_names m)) (tags_of x) EmptyString) (fun _ => p_value p) :: rows).
      pose proof (by_index (tag_names m) (tags_of x) (tag_names_unique m Hvalid) Hl) as Hb.
      split.
      + cbn [map]. rewrite E. f_equal. unfold point_of. cbn [r_time r_tag r_field]. rewrite Hb.
        pose proof (field_name _ _ _ _ _ Hf) as Hn.
        match goal with |- context [nth_error ?a ?b] => replace (nth_error a b) with (Some (name, Float32)) by (symmetry; exact Hn) end.
        rewrite <- H1, <- H2. destruct p; reflexivity.
      + constructor; [|exact R]. constructor; [reflexivity|exact Hb|exact H3].
  Qed.

  Variables (F : functions) (set_order : list nat -> list nat) (projection : option (list nat))
    (streams : nat -> stream (list stored_segment)) (limit : option nat) (batch_size : nat).
  Hypothesis Htags : tags_named m.
  Hypothesis Horder : enumerates_indices set_order.
  Hypothesis Hselects : selects m (columns_of m projection).
  Hypothesis Hone : reads_one_field m (columns_of m projection) name.
  Hypothesis Hfine : fine (streams column).
  Hypothesis Hbatch : 0 < batch_size.
  Hypothesis Hlimit : limit <> Some 0.

  Lemma query_selects predicate ps items : Forall2 matches ps items -> incl items l ->
    points_of (grid_stored P) predicate (streams column) = ps ->
    exists rows,
      Forall2 (row_with P (fun eb => near eb (rounding size latest interval (length l))) m files position name eb) rows items
      /\ ((forall r, In r rows -> computable F m (columns_of m projection) r) ->
          exists p, scan set_order m projection = Ok p
            /\ answers F m rows (columns_of m projection) (fun n =>
                 consume (query_poll F (grid_stored P) predicate (tag_names m) p) n
                   (query_stream p limit batch_size streams))).
  Proof.
    intros H1 H2 H3. destruct (rows_match ps items H1 H2) as (rows & E & R).
    exists rows. split; [exact R|]. intros Hc.
    apply (one_field_query (grid_stored P) predicate limit batch_size F m rows set_order projection streams column name);
      try assumption.
    - exact (field_name _ _ _ _ _ Hf).
    - rewrite H3. symmetry. exact E.
  Qed.

  Section Filter.
    Variables (filters : list expr) (p g : option expr) (item_row : item -> row)
      (segment_values : stored_segment -> row) (point_row : Streams.point -> row)
      (predicate : option (Streams.point -> bool)).
    Hypothesis Hsupported : forall f, In f filters -> time_filter (filter_schema m) f = true ->
      supported (filter_schema m) f = true.
    Hypothesis Hrewrite : rewrite_and_combine_filters (filter_schema m) filters = Ok (p, g).
    Hypothesis Hseen : seen_as m item_row segment_values point_row.
    Hypothesis Hpredicate : forall q, chosen predicate q <-> passes F (point_row q) g.
    Hypothesis Hread : reads_but (fun x => ~ passes F (segment_values x) p) files (streams column).

    Lemma filtered : exists rows items others, Permutation l (items ++ others)
      /\ (forall x, In x items -> in_time F m item_row filters x)
      /\ (forall x, In x others -> ~ in_time F m item_row filters x)
      /\ Forall2 (row_with P (fun eb => near eb (rounding size latest interval (length l))) m files position name eb) rows items
      /\ ((forall r, In r rows -> computable F m (columns_of m projection) r) ->
          exists p, scan set_order m projection = Ok p
            /\ answers F m rows (columns_of m projection) (fun n =>
                 consume (query_poll F (grid_stored P) predicate (tag_names m) p) n
                   (query_stream p limit batch_size streams))).
    Proof.
      destruct Hread as (skipped & Hs & Hskip).
      destruct (read_matches _ _ Hs) as (read & left & R1 & R2 & R3 & _).
      destruct (select_matches predicate _ _ R2) as (kept & others & S1 & S2 & S3 & S4).
      assert (Hgrid : forall q x, p_time q = time_of x -> (chosen predicate q <-> in_time F m item_row filters x)).
      { intros q x Ht. rewrite Hpredicate. unfold in_time.
        refine (proj2 (FiltersProofs.filters_sound F _ filters p g Hsupported Hrewrite (time_of x) (time_of x) (time_of x) (item_row x)
          (fun _ => Some (Time (time_of x))) (point_row q) _ (items_seen _ _ _ _ Hseen x) _ _)).
        - lia.
        - split; reflexivity.
        - rewrite <- Ht. exact (points_seen _ _ _ _ Hseen q). }
      assert (Hincl : incl kept l).
      { intros x Hx. apply (Permutation_in x R1). apply in_app_iff. left. apply (Permutation_in x S1).
        apply in_app_iff. left. exact Hx. }
      destruct (query_selects predicate _ kept S2 Hincl eq_refl) as (rows & Q1 & Q2).
      exists rows, kept, (others ++ left). split; [|split; [|split; [|split; [exact Q1|exact Q2]]]].
      - rewrite <- R1, <- S1, <- app_assoc. reflexivity.
      - intros x Hx. destruct (S3 x Hx) as (q & H1 & H2). exact (proj1 (Hgrid q x H1) H2).
      - intros x Hx Hin. apply in_app_iff in Hx. destruct Hx as [Hx|Hx].
        + destruct (S4 x Hx) as (q & H1 & H2). exact (H2 (proj2 (Hgrid q x H1) Hin)).
        + destruct (R3 x Hx) as (s & H1 & H2). apply (Hskip s H1).
          refine (proj1 (FiltersProofs.filters_sound F _ filters p g Hsupported Hrewrite (time_of x) _ _ (item_row x)
            (segment_values s) (fun _ => Some (Time (time_of x))) H2 (items_seen _ _ _ _ Hseen x)
            (segments_seen _ _ _ _ Hseen s) eq_refl) Hin).
    Qed.
  End Filter.

  Lemma limited n : reads_but (fun _ => n <= length (concat (batches_of (streams column)))) files (streams column) ->
    exists rows items others, Permutation l (items ++ others) /\ Nat.min n (length l) <= length items
      /\ Forall2 (row_with P (fun eb => near eb (rounding size latest interval (length l))) m files position name eb) rows items
      /\ ((forall r, In r rows -> computable F m (columns_of m projection) r) ->
          exists p, scan set_order m projection = Ok p
            /\ answers F m rows (columns_of m projection) (fun n =>
                 consume (query_poll F (grid_stored P) None (tag_names m) p) n
                   (query_stream p limit batch_size streams))).
  Proof.
    intros (skipped & Hs & Hskip). destruct (read_matches _ _ Hs) as (read & left & R1 & R2 & R3 & R4).
    assert (Hincl : incl read l).
    { intros x Hx. apply (Permutation_in x R1). apply in_app_iff. left. exact Hx. }
    destruct (query_selects None _ read R2 Hincl eq_refl) as (rows & Q1 & Q2).
    exists rows, read, left. split; [symmetry; exact R1|]. split; [|split; [exact Q1|exact Q2]].
    rewrite <- (Permutation_length R1), app_length.
    destruct left as [|x left]; [cbn [length]; lia|].
    destruct (R3 x (or_introl eq_refl)) as (s & H1 & _). specialize (Hskip s H1). lia.
  Qed.
End One_field.

Lemma row_with_more P m files position name eb size latest interval n n' rows items : (0 <= size)%R -> n <= n' ->
  Forall2 (row_with P (fun eb => near eb (rounding size latest interval n)) m files position name eb) rows items ->
  Forall2 (row_with P (fun eb => near eb (rounding size latest interval n')) m files position name eb) rows items.
Proof.
  intros Hs Hn H. induction H as [|r x rows items [R1 R2 R3] F IH]; [constructor|]. constructor; [|exact IH].
  constructor; [exact R1|exact R2|]. destruct R3 as [H|H]; [left|right; exact H].
  revert H. apply near_more. apply rounding_le; assumption.
Qed.

Section Flushed.
  Variables (hash : string -> Z) (capacity : nat) (sort_points : list Pipeline.point -> list Pipeline.point)
    (logging : bool) (events : list Pipeline.event) (limits : Pipeline.pool) (s1 s : Pipeline.state)
    (P : platform) (m : metadata) (size : R) (latest interval : Z) (batch_size : nat)
    (F : functions) (set_order : list nat -> list nat) (projection : option (list nat))
    (position column : nat) (name : string) (eb : error_bound)
    (files : list (file stored_segment)) (streams : nat -> stream (list stored_segment))
    (filters : list expr) (p g : option expr) (item_row : item -> row) (segment_values : stored_segment -> row)
    (point_row : Streams.point -> row) (predicate : option (Streams.point -> bool))
    (sort_segments : list stored_segment -> list stored_segment) (limit : nat).
  Notation sent := (sent_to (table_name m) s).
  Notation gs := (committed_to (table_name m) s).

  Hypothesis Hpoints : PipelineSpec.sorts_points sort_points.
  Hypothesis Hlimits : PipelineSpec.nonneg_limits limits.
  Hypothesis Hrun : Pipeline.run hash capacity sort_points logging events (Pipeline.start logging limits [] []) = Pipeline.Next s1.
  Hypothesis Husual : PipelineSpec.along hash capacity sort_points logging PipelineSpec.usual events (Pipeline.start logging limits [] []).
  Hypothesis Hcrash : ~ In Pipeline.Crash events.
  Hypothesis Hcollision : PipelineSpec.collision_free hash (PipelineSpec.received s1).
  Hypothesis Htimes : PipelineSpec.distinct_times (PipelineSpec.received s1).
  Hypothesis Hreturn : Pipeline.step hash capacity sort_points logging Pipeline.Return s1 = Pipeline.Next s.
  Hypothesis Hvalid : valid_table m.
  Hypothesis Htags : tags_named m.
  Hypothesis Hrows : Forall (is_row_of m) sent.
  Hypothesis Hstore : can_store P m size latest interval sent.
  Hypothesis Hf : field_at m position column name eb.
  Hypothesis Hhold : forall l, all_segments P m position column gs = Ok l -> hold files l.
  Hypothesis Horder : enumerates_indices set_order.
  Hypothesis Hselects : selects m (columns_of m projection).
  Hypothesis Hone : reads_one_field m (columns_of m projection) name.
  Hypothesis Hfine : fine (streams column).
  Hypothesis Hbatch : 0 < batch_size.

  Lemma flushed_good : Forall (good_buffer sent) gs /\ Permutation (flat_map segment_items gs) sent.
  Proof.
    destruct (flushed hash capacity sort_points logging Hpoints events limits s1 s (table_name m) Hlimits Hrun Husual Hcrash Hcollision Htimes Hreturn)
      as (Hperm & Erec & Hord). split; [|exact Hperm].
    apply buffers_good; [exact Hperm| |exact Hord]. unfold sent_to. rewrite Erec. apply nodup_filter. exact Htimes.
  Qed.

  Lemma filter_flushed :
    (forall f, In f filters -> time_filter (filter_schema m) f = true -> supported (filter_schema m) f = true) ->
    rewrite_and_combine_filters (filter_schema m) filters = Ok (p, g) ->
    seen_as m item_row segment_values point_row ->
    (forall q, chosen predicate q <-> passes F (point_row q) g) ->
    reads_but (fun x => ~ passes F (segment_values x) p) files (streams column) ->
    exists rows items others, Permutation sent (items ++ others)
      /\ (forall x, In x items -> in_time F m item_row filters x)
      /\ (forall x, In x others -> ~ in_time F m item_row filters x)
      /\ Forall2 (row_with P (fun eb => near eb (rounding size latest interval (length sent))) m files position name eb) rows items
      /\ ((forall r, In r rows -> computable F m (columns_of m projection) r) ->
          exists p, scan set_order m projection = Ok p
            /\ answers F m rows (columns_of m projection) (fun n =>
                 consume (query_poll F (grid_stored P) predicate (tag_names m) p) n
                   (query_stream p None batch_size streams))).
  Proof.
    intros H1 H2 H3 H4 H5. destruct flushed_good as [Hg Hp].
    apply (filtered P m size latest interval sent Hstore Hvalid gs Hg Hp Hrows position column name eb Hf files Hhold
      F set_order projection streams None batch_size Htags Horder Hselects Hone Hfine Hbatch ltac:(discriminate)
      filters p g item_row segment_values point_row predicate H1 H2 H3 H4 H5).
  Qed.

  Lemma limit_flushed : (forall l, Permutation (sort_segments l) l) -> 0 < limit ->
    concat (batches_of (streams column)) = read_segments sort_segments (Some limit) files ->
    exists rows items others, Permutation sent (items ++ others)
      /\ Nat.min limit (length sent) <= length items
      /\ Forall2 (row_with P (fun eb => near eb (rounding size latest interval (length sent))) m files position name eb) rows items
      /\ ((forall r, In r rows -> computable F m (columns_of m projection) r) ->
          exists p, scan set_order m projection = Ok p
            /\ answers F m rows (columns_of m projection) (fun n =>
                 consume (query_poll F (grid_stored P) None (tag_names m) p) n
                   (query_stream p (Some limit) batch_size streams))).
  Proof.
    intros Hsort Hl Hread. destruct flushed_good as [Hg Hp].
    apply (limited P m size latest interval sent Hstore Hvalid gs Hg Hp Hrows position column name eb Hf files Hhold
      F set_order projection streams (Some limit) batch_size Htags Horder Hselects Hone Hfine Hbatch).
    - intros C. injection C as ->. lia.
    - set (all := flat_map segments_in (sort_files files)) in *.
      exists (skipn limit all).
      assert (Hp1 : Permutation (concat (batches_of (streams column))) (firstn limit all)).
      { rewrite Hread. unfold read_segments. fold all. destruct files as [|f0 [|f1 k]]; [reflexivity|reflexivity|apply Hsort]. }
      split.
      + rewrite Hp1, firstn_skipn. unfold all. apply flat_map_permutation. apply LimitProofs.sort_files_permutation.
      + intros x Hx. rewrite (Permutation_length Hp1), firstn_length.
        destruct (le_lt_dec limit (length all)) as [L|L]; [lia|].
        rewrite skipn_all2 in Hx by lia. contradiction Hx.
  Qed.
End Flushed.

Section Any_time.
  Variables (hash : string -> Z) (capacity : nat) (sort_points : list Pipeline.point -> list Pipeline.point)
    (logging : bool) (events : list Pipeline.event) (limits : Pipeline.pool) (s : Pipeline.state)
    (P : platform) (m : metadata) (size : R) (latest interval : Z) (batch_size : nat)
    (F : functions) (set_order : list nat -> list nat) (projection : option (list nat))
    (position column : nat) (name : string) (eb : error_bound)
    (files : list (file stored_segment)) (streams : nat -> stream (list stored_segment)).
  Notation sent := (sent_to (table_name m) s).
  Notation stored := (saved_in (table_name m) s).
  Notation gs := (committed_to (table_name m) s).

  Lemma filter_any_time filters p g item_row segment_values point_row predicate :
    PipelineSpec.sorts_points sort_points ->
    Pipeline.run hash capacity sort_points logging events (Pipeline.start logging limits [] []) = Pipeline.Next s ->
    PipelineSpec.along hash capacity sort_points logging
      (fun e s => PipelineSpec.undisturbed e s /\ PipelineSpec.spills_written e) events (Pipeline.start logging limits [] []) ->
    PipelineSpec.collision_free hash (PipelineSpec.received s) ->
    PipelineSpec.distinct_times (PipelineSpec.received s) ->
    valid_table m -> tags_named m -> Forall (is_row_of m) sent -> can_store P m size latest interval sent ->
    field_at m position column name eb ->
    (forall l, all_segments P m position column gs = Ok l -> hold files l) ->
    enumerates_indices set_order -> selects m (columns_of m projection) ->
    reads_one_field m (columns_of m projection) name -> fine (streams column) -> 0 < batch_size ->
    (forall f, In f filters -> time_filter (filter_schema m) f = true -> supported (filter_schema m) f = true) ->
    rewrite_and_combine_filters (filter_schema m) filters = Ok (p, g) ->
    seen_as m item_row segment_values point_row ->
    (forall q, chosen predicate q <-> passes F (point_row q) g) ->
    reads_but (fun x => ~ passes F (segment_values x) p) files (streams column) ->
    exists rows items others, Permutation stored (items ++ others)
      /\ (forall x, In x items -> in_time F m item_row filters x)
      /\ (forall x, In x others -> ~ in_time F m item_row filters x)
      /\ Forall2 (row_with P (fun eb => near eb (rounding size latest interval (length sent))) m files position name eb) rows items
      /\ ((forall r, In r rows -> computable F m (columns_of m projection) r) ->
          exists p, scan set_order m projection = Ok p
            /\ answers F m rows (columns_of m projection) (fun n =>
                 consume (query_poll F (grid_stored P) predicate (tag_names m) p) n
                   (query_stream p None batch_size streams))).
  Proof.
    intros Hpoints Hrun Hgood Hcollision Htimes Hvalid Htags Hrows Hstore Hf Hhold Horder Hselects Hone Hfine Hbatch H1 H2 H3 H4 H5.
    destruct (stored_good hash capacity sort_points logging events limits s P m size latest interval
      Hpoints Hrun Hgood Hcollision Htimes Hstore) as (rest & Hall & Hlen & Hstore' & Hperm & Hgood').
    assert (Hrows' : Forall (is_row_of m) stored).
    { apply Forall_forall. intros x Hx. rewrite Forall_forall in Hrows. apply Hrows.
      apply (Permutation_in x (Permutation_sym Hall)). apply in_app_iff. left. exact Hx. }
    destruct (filtered P m size latest interval stored Hstore' Hvalid gs Hgood' Hperm Hrows' position column name eb Hf files Hhold
      F set_order projection streams None batch_size Htags Horder Hselects Hone Hfine Hbatch ltac:(discriminate)
      filters p g item_row segment_values point_row predicate H1 H2 H3 H4 H5) as (rows & items & others & Q1 & Q2 & Q3 & Q4 & Q5).
    exists rows, items, others. split; [exact Q1|]. split; [exact Q2|]. split; [exact Q3|]. split; [|exact Q5].
    apply (row_with_more _ _ _ _ _ _ _ _ _ (length stored)); [apply (size_small _ _ _ _ _ _ Hstore)|exact Hlen|exact Q4].
  Qed.
End Any_time.
