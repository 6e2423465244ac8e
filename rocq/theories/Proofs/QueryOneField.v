(** Queries that read one field, for any batches of segments. *)
From Coq Require Import ZArith Bool String List Lia Permutation.
From Verif Require Import Model.Base Model.Float Model.ErrorBound Model.Filters Model.Streams
  Model.Table Model.Scan Spec.FiltersSpec Spec.StreamsSpec Spec.TableSpec Spec.ScanSpec
  Proofs.GridStreamProofs Proofs.JoinStreamProofs Proofs.TableProofs Proofs.ScanProofs
  Proofs.JoinChunkProofs Proofs.QueryProofs.
From Verif Require Proofs.EndToEndLists.
Import ListNotations.
Open Scope nat_scope.
Open Scope list_scope.

Section One_input.
  Context {I : Type}.
  Variable poll_input : I -> poll (list point) * I.
  Variables (order : list column_type) (tags : list string).
  Hypothesis Hfits : order_fits order tags 1.

  Lemma join_one : forall b, sorted_join order tags (set_to_smallest [b]) = Ok (expected order tags b [b]).
  Proof.
    intros b. assert (E : set_to_smallest [b] = [b]).
    { unfold set_to_smallest. cbn [forallb]. rewrite Nat.eqb_refl. reflexivity. }
    rewrite E. unfold sorted_join. destruct Hfits as (H1 & H2 & H3).
    destruct order as [|c o] eqn:Eo; [congruence|]. rewrite <- Eo in *.
    apply join_columns_ok; [exact H2|exact H3].
  Qed.

  Lemma consume_one : forall n i bs e,
    consume (fun i => Ok (poll_input i)) n i = Ok (bs, e) ->
    consume (join_poll poll_input order tags) n (JoinStream [i] [None])
    = Ok (map (fun b => expected order tags b [b]) bs, e).
  Proof.
    induction n as [|n IH]; intros i bs e H; cbn [consume] in *.
    - injection H as <- <-. reflexivity.
    - unfold join_poll at 1. cbn [inputs batches poll_all].
      cbn [bind] in H. destruct (poll_input i) as [r i']. destruct r as [|b|k|].
      + cbn [bind]. exact (IH _ _ _ H).
      + cbn [bind all_read option_map]. rewrite join_one. cbn [bind length repeat].
        destruct (consume (fun i => Ok (poll_input i)) n i') as [(bs', e')| |] eqn:E; cbn [bind] in H; try discriminate H.
        injection H as <- <-. rewrite (IH _ _ _ E). reflexivity.
      + cbn [bind]. injection H as <- <-. reflexivity.
      + cbn [bind]. injection H as <- <-. reflexivity.
  Qed.
End One_input.

Lemma one_field_rows :
  forall (S : Type) (grid : S -> list point) predicate limit size order tags i,
  0 < size -> limit <> Some 0 -> fine i -> order_fits order tags 1 ->
  forall n, exists gs e,
    consume (join_poll (grid_poll grid predicate) order tags) n
      (join_stream_new [grid_stream_new limit i size])
    = Ok (map (fun g => expected order tags g [g]) gs, e)
    /\ (exists more, points_of grid predicate i = concat gs ++ more)
    /\ (e = Running \/ e = Done)
    /\ (e = Done -> concat gs = points_of grid predicate i)
    /\ (length i + length (points_of grid predicate i) < n -> e = Done).
Proof.
  intros S grid predicate limit size order tags i Hsize Hlimit Hf Ho n.
  destruct (grid_prefix grid predicate limit i size n Hf) as (gs & e & E & He & Hm & _ & Hd).
  exists gs, e. split; [exact (consume_one (grid_poll grid predicate) order tags Ho n _ gs e E)|].
  split; [exact Hm|]. split; [exact He|]. split; [exact Hd|]. intros Hn.
  destruct (grid_completes grid predicate limit i size n Hf Hsize Hlimit Hn) as (gs' & E' & _).
  rewrite E in E'. injection E' as _ ->. reflexivity.
Qed.

Lemma all_columns_expected : forall order tags gs,
  fields_in order <= 1 ->
  all_columns (length order) (map (fun g => expected order tags g [g]) gs)
  = expected order tags (concat gs) [concat gs].
Proof.
  assert (E0 : forall order tags fs, Forall (fun f => f = []) fs -> expected order tags [] fs = repeat [] (length order)).
  { induction order as [|c order IH]; intros tags fs H; [reflexivity|].
    destruct c as [| |name]; [| |]; [cbn; now rewrite IH| |cbn; now rewrite IH].
    destruct fs as [|f fs]; cbn [expected length repeat]; [now rewrite IH|].
    inversion H; subst. cbn [map]. now rewrite IH. }
  assert (Ea : forall order tags a b a' b', (fields_in order <= 1 -> 
      append_columns (expected order tags a [a']) (expected order tags b [b']) = expected order tags (a ++ b) [a' ++ b'])
    /\ (fields_in order = 0 -> append_columns (expected order tags a []) (expected order tags b []) = expected order tags (a ++ b) [])).
  { induction order as [|c order IH]; intros tags a b a' b'; [split; reflexivity|].
    destruct (IH tags a b a' b') as [I1 I2].
    destruct c as [| |name]; cbn [expected]; unfold fields_in in *; cbn [filter length] in *.
    - split; intros H; cbn [append_columns]; rewrite map_app; f_equal; auto.
    - split; intros H; [|lia]. cbn [append_columns]. rewrite map_app. f_equal. apply I2. lia.
    - split; intros H; cbn [append_columns]; rewrite map_app; f_equal; auto. }
  intros order tags gs H. unfold all_columns. induction gs as [|g gs IH]; cbn [map fold_right concat].
  - symmetry. apply E0. repeat constructor.
  - rewrite IH. apply Ea. exact H.
Qed.

Lemma one_field_columns :
  forall (S : Type) (grid : S -> list point) predicate limit size order tags i,
  0 < size -> limit <> Some 0 -> fine i -> order_fits order tags 1 ->
  let points := points_of grid predicate i in
  forall n, exists bs e got more,
    consume (join_poll (grid_poll grid predicate) order tags) n
      (join_stream_new [grid_stream_new limit i size]) = Ok (bs, e)
    /\ points = got ++ more
    /\ all_columns (length order) bs = expected order tags got [got]
    /\ (e = Running \/ e = Done)
    /\ (e = Done -> more = [])
    /\ (length i + length points < n -> e = Done).
Proof.
  intros S grid predicate limit size order tags i Hs Hl Hf Ho points n.
  destruct (one_field_rows S grid predicate limit size order tags i Hs Hl Hf Ho n) as (gs & e & C & (more & Hm) & He & Hd & Hn).
  exists (map (fun g => expected order tags g [g]) gs), e, (concat gs), more.
  split; [exact C|]. split; [exact Hm|]. split; [apply all_columns_expected; apply Ho|]. split; [exact He|]. split; [|exact Hn].
  intros D. specialize (Hd D). unfold points in *. rewrite Hm in Hd. rewrite <- (app_nil_r (concat gs)) in Hd at 1.
  apply app_inv_head in Hd. symmetry. exact Hd.
Qed.

Section Query.
  Context {S : Type}.
  Variables (grid : S -> list point) (predicate : option (point -> bool)) (limit : option nat) (size : nat)
    (F : functions) (m : metadata) (rows : list data_row) (set_order : list nat -> list nat)
    (projection : option (list nat)) (streams : nat -> stream (list S)) (column : nat) (name : string).
  Hypothesis Hv : valid_table m.
  Hypothesis Htag : tags_named m.
  Hypothesis Ho : enumerates_indices set_order.
  Let l := columns_of m projection.
  Hypothesis Hl : selects m l.
  Hypothesis Hcolumn : @nth_error Table.column (schema m) column = Some (name, Float32).
  Hypothesis Hone : reads_one_field m l name.
  Hypothesis Hsize : 0 < size.
  Hypothesis Hlimit : limit <> Some 0.
  Hypothesis Hfine : fine (streams column).
  Hypothesis Hpoints : points_of grid predicate (streams column) = map (point_of m column) rows.
  Hypothesis Hc : forall r, In r rows -> computable F m l r.

  Theorem one_field_query : exists p, scan set_order m projection = Ok p
    /\ answers F m rows l (fun n =>
         consume (query_poll F grid predicate (tag_names m) p) n (query_stream p limit size streams)).
  Proof.
    destruct (scan_ok m Hv set_order Ho projection Hl)
      as (p & fallback & extra & E & Ef & Efb & Ecs & Ejs & Eo & Ejf & Et).
    destruct (full_spec m Hv set_order Ho projection Hl) as (extra' & E1 & _ & _ & ND' & _ & Hreads).
    destruct (table_facts m Hv) as (L & In1 & _ & ND & _ & _ & Fi & Tg & Sf).
    set (read := read_columns m set_order projection) in *.
    assert (Hrs : forall i, In i read -> i < length (query_schema m) /\ stored_at (generated_columns m) i)
      by (intros i Hi; apply (read_stored m Hv set_order Ho projection Hl); exact Hi).
    destruct Hone as ((i & Hi & Hti) & Hall).
    apply Hreads in Hi as Hin.
    assert (Hname : forall j, In j read -> is_field m j = true -> column_at m j = (name, Float32)).
    { intros j Hj Hf. assert (Hlt := proj1 (Hrs j Hj)). pose proof (column_at_nth m j Hlt) as Hcj.
      unfold is_field in Hf. apply arrow_type_eqb_eq in Hf.
      assert (T : type_at (query_schema m) j Float32).
      { exists (fst (column_at m j)). rewrite <- Hf. destruct (column_at m j). exact Hcj. }
      pose proof (Hall j (proj1 (Hreads j) Hj) T) as H.
      change (@nth_error Table.column (query_schema m) j = Some (name, Float32)) in H. congruence. }
    assert (Hidx : forall j, In j read -> is_field m j = true -> field_index m j = column).
    { intros j Hj Hf. destruct (Hrs j Hj) as (H1 & H2). destruct (field_index_ok m Hv j H1 H2) as (_ & F2).
      rewrite (Hname j Hj Hf) in F2. rewrite NoDup_nth_error in ND. apply ND.
      - rewrite map_length. apply nth_error_Some. intros X. pose proof (eq_trans (eq_sym F2) X) as Y. discriminate Y.
      - rewrite (map_nth_error fst _ _ F2), (map_nth_error fst _ _ Hcolumn). reflexivity. }
    assert (Hfi : is_field m i = true).
    { unfold is_field. destruct Hti as [n Hti].
      change (@nth_error Table.column (query_schema m) i = Some (n, Float32)) in Hti.
      rewrite (column_at_nth m i (proj1 (Hrs i Hin))) in Hti. injection Hti as ->. reflexivity. }
    assert (Hfields : filter (is_field m) read = [i]).
    { assert (N : NoDup (filter (is_field m) read)).
      { apply NoDup_filter. unfold read, read_columns. rewrite E1. apply NoDup_filter. exact ND'. }
      assert (Q : forall j, In j (filter (is_field m) read) -> j = i).
      { intros j Hj. apply filter_In in Hj. destruct Hj as (Hj & Hf).
        destruct (Hrs j Hj) as (A1 & A2). destruct (Hrs i Hin) as (B1 & B2).
        pose proof (column_at_nth m j A1) as Cj. pose proof (column_at_nth m i B1) as Ci.
        rewrite (Hname j Hj Hf) in Cj. rewrite (Hname i Hin Hfi) in Ci.
        pose proof (unique_names _ Hv) as Nq. rewrite NoDup_nth_error in Nq. apply Nq.
        - rewrite map_length. exact A1.
        - rewrite (map_nth_error fst _ _ Cj), (map_nth_error fst _ _ Ci). reflexivity. }
      assert (Hii : In i (filter (is_field m) read)) by (apply filter_In; split; assumption).
      destruct (filter (is_field m) read) as [|a [|b r]]; [contradiction Hii| |].
      - rewrite (Q a (or_introl eq_refl)). reflexivity.
      - inversion N as [|? ? Na _]; subst. contradiction Na.
        rewrite (Q a (or_introl eq_refl)), (Q b (or_intror (or_introl eq_refl))). left. reflexivity. }
    assert (Hne : read <> []) by (intros X; rewrite X in Hin; contradiction Hin).
    assert (Ejf' : join_fields p = [column]).
    { rewrite Ejf, Hfields. cbn [map]. now rewrite (Hidx i Hin Hfi). }
    assert (Hfits : order_fits (join_order p) (tag_names m) 1).
    { rewrite Eo. apply order_fits_read; try assumption. rewrite Hfields. apply Nat.le_refl. }
    exists p. split; [exact E|].
    assert (R : forall n, exists groups more e,
      consume (query_poll F grid predicate (tag_names m) p) n (query_stream p limit size streams)
      = Ok (map (fun g => map (out m F g) l) groups, e)
      /\ rows = concat groups ++ more /\ (e = Running \/ e = Done) /\ (e = Done -> more = [])
      /\ (length (streams column) + length (points_of grid predicate (streams column)) < n -> e = Done)).
    { intros n.
      destruct (one_field_rows S grid predicate limit size (join_order p) (tag_names m) (streams column)
                  Hsize Hlimit Hfine Hfits n) as (gs & e & C & (rest & Hm) & He & Hd & Hn).
      rewrite Hpoints in Hm, Hd.
      destruct (EndToEndLists.split_map _ _ _ _ Hm) as (rs & more & Er & Eg & _).
      destruct (EndToEndLists.split_concat _ _ _ (eq_sym Eg)) as (groups & Egr & Egs).
      exists groups, more, e. split; [|split; [rewrite Er, Egr; reflexivity|split; [exact He|split; [|exact Hn]]]].
      - unfold query_stream. rewrite Ejf'. cbn [map].
        rewrite (consume_through S F grid predicate (tag_names m) p n _ _ e C). rewrite <- Egs, map_map.
        assert (Hg : forall r, In r (concat groups) -> computable F m l r).
        { intros r Hr. apply Hc. rewrite Er, <- Egr. apply in_app_iff. left. exact Hr. }
        clear - Hg Hv Ho Hl E Ef Efb Ecs Ejs Eo Et Hne Hfields Hidx Hin Hfi.
        induction groups as [|g groups IH]; [reflexivity|]. cbn [map through].
        assert (X : finish F p (expected (join_order p) (tag_names m) (map (point_of m column) g) [map (point_of m column) g])
                    = Ok (map (out m F g) l)).
        { pose proof (finish_ok m Hv set_order Ho projection Hl F p fallback extra g column [] E Ef Efb Ecs Ejs Eo Et Hne) as X.
          fold read in X. rewrite Hfields in X. cbn [map] in X. rewrite (Hidx i Hin Hfi), app_nil_r in X. apply X.
          intros r Hr. apply Hg. cbn [concat]. apply in_app_iff. left. exact Hr. }
        rewrite X, IH; [reflexivity|]. intros r Hr. apply Hg. cbn [concat]. apply in_app_iff. right. exact Hr.
      - intros Hdone. specialize (Hd Hdone). rewrite <- Eg, Er, map_app in Hd.
        rewrite <- (app_nil_r (map _ rs)) in Hd at 1. apply app_inv_head in Hd. symmetry in Hd.
        now apply map_eq_nil in Hd. }
    assert (Cols : forall groups more, rows = concat groups ++ more ->
      map (map Some) (all_columns (length l) (map (fun g => map (out m F g) l) groups)) = requested F m (concat groups) l).
    { intros groups more Er. rewrite (all_columns_groups (out m F) l); [|reflexivity|intros a b j; apply map_app].
      unfold requested. rewrite map_map. apply map_ext_in. intros j Hj. unfold out. rewrite map_map.
      apply map_ext_in. intros r Hr.
      destruct (value_typed m Hv F rows l j r) as (v & Ev & _); auto; [apply Hl| |now rewrite Ev].
      rewrite Er. apply in_app_iff. left. exact Hr. }
    split.
    - intros n. destruct (R n) as (groups & more & e & C & Er & He & Hd & _).
      eexists _, e. split; [exact C|]. rewrite (Cols groups more Er). split; [|split; [exact He|]].
      + rewrite Er. clear. unfold prefix_columns, requested. induction l as [|j k IH]; constructor; [|exact IH].
        rewrite map_app. eexists. reflexivity.
      + intros Hdone. rewrite Er, (Hd Hdone), app_nil_r. reflexivity.
    - exists (Datatypes.S (length (streams column) + length (points_of grid predicate (streams column)))).
      intros n Hn. destruct (R n) as (groups & more & e & C & _ & _ & _ & Hdn).
      rewrite C, (Hdn ltac:(lia)). eexists. reflexivity.
  Qed.
End Query.
