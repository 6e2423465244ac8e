(** Queries of time series tables. *)
From Coq Require Import ZArith Bool String List Lia Permutation Sorted.
From Verif Require Import Model.Base Model.ErrorBound Model.Filters Model.Streams Model.Table
  Model.Scan Spec.ErrorBoundSpec Spec.FiltersSpec Spec.StreamsSpec Spec.TableSpec Spec.ScanSpec
  Proofs.TableProofs Proofs.DefinitionProofs Proofs.StoredDefinitionProofs Proofs.JoinStreamProofs
  Proofs.JoinChunkProofs Proofs.ScanProofs.
Import ListNotations.
Open Scope nat_scope.
Open Scope list_scope.

Lemma todo_ok_app : forall m js extra l k todo, (forall i, In i extra -> is_stored m i = true) ->
  todo_ok m js k (l ++ extra) todo -> todo_ok m js k l todo.
Proof.
  intros m js extra. induction l as [|i l IH]; intros k todo H; cbn [app todo_ok].
  - revert k todo. induction extra as [|i extra IHe]; intros k todo; [auto|]. cbn [todo_ok].
    rewrite (H i (or_introl eq_refl)). apply IHe. intros j Hj. apply H. now right.
  - destruct (is_stored m i); [now apply IH|]. destruct todo as [|(j, p) todo]; [auto|].
    intros (H1 & H2 & H3). split; [exact H1|]. split; [exact H2|]. now apply IH.
Qed.

Lemma sources_of_In : forall m l s, In s (sources_of m l) <->
  exists i g, In i l /\ nth_error (generated_columns m) i = Some (Some g) /\ In s (source_columns g).
Proof.
  intros m l s. unfold sources_of. rewrite in_flat_map. split.
  - intros (i & Hi & Hs). destruct (nth_error (generated_columns m) i) as [[g|]|] eqn:E;
      try destruct Hs. now exists i, g.
  - intros (i & g & Hi & E & Hs). exists i. rewrite E. now split.
Qed.

Lemma first_stored_some : forall columns generated, length generated = length columns ->
  (exists i, stored_at generated i /\ type_at columns i Float32) ->
  exists k, first_stored_field columns generated = Some k
    /\ stored_at generated k /\ type_at columns k Float32
    /\ forall j, j < k -> ~ (stored_at generated j /\ type_at columns j Float32).
Proof.
  unfold stored_at, type_at.
  induction columns as [|c columns IH]; intros [|g generated] L (i & Hs & n & Hn);
    try discriminate; [destruct i; discriminate|].
  assert (Next : (snd c <> Float32 \/ g <> None) ->
            first_stored_field (c :: columns) (g :: generated)
            = option_map S (first_stored_field columns generated)).
  { destruct c as (name, t). cbn [snd].
    intros [H|H]; cbn [first_stored_field]; destruct t, g; try congruence; reflexivity. }
  assert (D : (snd c = Float32 /\ g = None) \/ (snd c <> Float32 \/ g <> None)).
  { destruct c as (name, []), g; cbn [snd]; try (left; split; congruence); right;
      try (left; congruence); right; congruence. }
  destruct D as [(Hc & ->)|D].
  - exists 0. destruct c as (name, t). cbn [snd] in Hc. subst t. cbn.
    split; [reflexivity|]. split; [reflexivity|]. split; [now exists name|]. lia.
  - rewrite (Next D). destruct i as [|i].
    + cbn in Hs, Hn. injection Hs as ->. injection Hn as ->. cbn in D. destruct D; congruence.
    + destruct (IH generated) as (k & E & Hk1 & Hk2 & Hk3);
        [now injection L|exists i; split; [exact Hs|now exists n]|].
      rewrite E. exists (S k). cbn. split; [reflexivity|]. split; [exact Hk1|].
      split; [exact Hk2|]. intros [|j] Hj (H1 & n' & H2); cbn in H1, H2.
      * injection H1 as ->. injection H2 as ->. cbn in D. destruct D; congruence.
      * apply (Hk3 j); [lia|]. split; [exact H1|now exists n'].
Qed.

Lemma stored_prefix : forall (columns : list column) generated k, length generated = length columns ->
  (forall j, j <= k -> stored_at generated j) ->
  nth_error (without_generated generated columns) k = nth_error columns k.
Proof.
  unfold stored_at.
  induction columns as [|c columns IH]; intros [|g generated] k L H; try discriminate; [reflexivity|].
  assert (H0 := H 0 (Nat.le_0_l k)). cbn in H0. injection H0 as ->. cbn [without_generated].
  destruct k as [|k]; [reflexivity|]. cbn [nth_error]. apply IH; [now injection L|].
  intros j Hj. apply (H (S j)). lia.
Qed.

Lemma In_firstn : forall A n (l : list A) a, In a (firstn n l) -> In a l.
Proof. intros A n l a H. rewrite <- (firstn_skipn n l). apply in_or_app. now left. Qed.
Lemma In_skipn : forall A n (l : list A) a, In a (skipn n l) -> In a l.
Proof. intros A n l a H. rewrite <- (firstn_skipn n l). apply in_or_app. now right. Qed.
Lemma Forall2_map_same : forall A B C (P : B -> C -> Prop) (f : A -> B) (g : A -> C) l,
  (forall a, P (f a) (g a)) -> Forall2 P (map f l) (map g l).
Proof. intros A B C P f g l H. induction l; constructor; auto. Qed.

Section Query.
  Variable m : metadata.
  Hypothesis Hvalid : valid_table m.
  Variable set_order : list nat -> list nat.
  Hypothesis Horder : enumerates_indices set_order.
  Variable projection : option (list nat).
  Let l := columns_of m projection.
  Hypothesis Hl : selects m l.

  Definition full_projection : list nat :=
    extend l (set_order (nodup Nat.eq_dec (sources_of m l))).
  Definition read_columns : list nat := filter (is_stored m) full_projection.

  Lemma full_spec : exists extra, full_projection = l ++ extra
    /\ (forall i, In i extra -> stored_at (generated_columns m) i)
    /\ (forall i, In i (l ++ extra) -> i < length (query_schema m)) /\ NoDup (l ++ extra)
    /\ (forall i g s, In i l -> nth_error (generated_columns m) i = Some (Some g) ->
          In s (source_columns g) -> In s (l ++ extra))
    /\ (forall i, In i read_columns <-> reads m l i).
  Proof.
    destruct (table_facts m Hvalid) as (L & _ & _ & _ & Src & _). destruct Hl as (ND & Hr).
    destruct (extend_spec (set_order (nodup Nat.eq_dec (sources_of m l))) l)
      as (extra & E1 & E2 & E3 & E4).
    assert (HS : forall s, In s (set_order (nodup Nat.eq_dec (sources_of m l)))
              <-> In s (sources_of m l)).
    { intros s. rewrite <- (nodup_In Nat.eq_dec (sources_of m l) s).
      split; apply Permutation_in; [|apply Permutation_sym]; apply Horder. }
    assert (St : forall i, In i extra -> stored_at (generated_columns m) i).
    { intros i Hi. apply E2, HS, sources_of_In in Hi. destruct Hi as (j & g & Hj & Eg & Hs).
      now apply (Src j g). }
    exists extra. split; [exact E1|]. split; [exact St|]. split; [|split; [now apply E4|split]].
    - intros i Hi. apply in_app_or in Hi. destruct Hi as [Hi|Hi]; [now apply Hr|].
      apply St in Hi. rewrite <- L. apply nth_error_Some. unfold stored_at in Hi. congruence.
    - intros i g s Hi Eg Hs. apply E3, HS, sources_of_In. now exists i, g.
    - intros i. unfold read_columns. rewrite filter_In, is_stored_iff. unfold full_projection.
      rewrite E1. unfold reads. split.
      + intros (Hi & Hs). split; [exact Hs|]. apply in_app_or in Hi.
        destruct Hi as [Hi|Hi]; [now left|]. right. apply E2, HS, sources_of_In in Hi. exact Hi.
      + intros (Hs & [Hi|Hi]); (split; [|exact Hs]); [apply in_or_app; now left|].
        apply E3, HS, sources_of_In, Hi.
  Qed.

  Lemma scan_ok : exists p fallback extra,
    scan set_order m projection = Ok p /\ full_projection = l ++ extra
    /\ fallback_field_column m = Ok fallback
    /\ map Some (result_schema p) = map (nth_error (query_schema m)) l
    /\ join_schema p = map (column_at m) read_columns
    /\ join_order p = map (kind m) read_columns
    /\ join_fields p = match map (field_index m) (filter (is_field m) read_columns) with
                       | [] => [fallback]
                       | fields => fields
                       end
    /\ todo_ok m (join_schema p) 0 l (columns_to_generate p).
  Proof.
    destruct full_spec as (extra & E1 & St & Hr & ND & Hs & _).
    destruct (table_facts m Hvalid) as (L & _ & _ & _ & Src & _ & _ & _ & Sf).
    destruct (first_stored_some _ _ L Sf) as (fb & Efb & _).
    destruct (project_ok (query_schema m) l (proj2 Hl)) as (cs & Ep & Ecs).
    assert (Ej : joined_columns m full_projection = Ok (map (column_at m) read_columns)).
    { apply joined_columns_ok; [exact Hvalid|]. rewrite E1. exact Hr. }
    assert (Rd : forall i, In i read_columns -> In i (l ++ extra) /\ stored_at (generated_columns m) i).
    { intros i Hi. unfold read_columns in Hi. rewrite E1 in Hi. apply filter_In in Hi.
      now rewrite is_stored_iff in Hi. }
    destruct (plan_ok m Hvalid (map (column_at m) read_columns) full_projection 0)
      as (todo & Epl & Etd).
    { rewrite E1. exact Hr. }
    { intros i g Hi Eg. rewrite E1 in Hi.
      assert (Il : In i l).
      { apply in_app_or in Hi. destruct Hi as [Hi|Hi]; [exact Hi|]. apply St in Hi.
        unfold stored_at in Hi. congruence. }
      destruct (generated_converted m Hvalid {| apply := fun _ _ => None;
                  apply_operator := fun _ _ _ => None |} i g read_columns) as (p & E & _).
      - intros j Hj. apply Hr. now apply Rd.
      - intros j Hj. now apply Rd.
      - unfold read_columns. rewrite E1. now apply NoDup_filter.
      - exact Eg.
      - intros s Hsrc. unfold read_columns. rewrite E1. apply filter_In.
        split; [now apply (Hs i g)|]. apply is_stored_iff. now apply (Src i g).
      - now exists p. }
    unfold scan, fallback_field_column. rewrite Efb. cbn [bind].
    fold (columns_of m projection). change (columns_of m projection) with l.
    rewrite Ep. cbn [bind].
    change (extend l (set_order (nodup Nat.eq_dec (sources_of m l)))) with full_projection.
    rewrite Ej. cbn [bind]. rewrite Epl. cbn [bind].
    eexists. exists fb, extra. split; [reflexivity|]. split; [exact E1|]. split; [reflexivity|].
    cbn [result_schema join_schema join_order join_fields columns_to_generate].
    split; [exact Ecs|]. split; [reflexivity|]. split; [reflexivity|].
    split; [unfold read_columns;
            destruct (map (field_index m) (filter (is_field m) (filter (is_stored m) full_projection)));
            reflexivity|].
    rewrite E1 in Etd. apply todo_ok_app with (extra := extra); [|exact Etd].
    intros i Hi. apply is_stored_iff. now apply St.
  Qed.

  Lemma read_stored : forall i, In i read_columns ->
    i < length (query_schema m) /\ stored_at (generated_columns m) i.
  Proof.
    intros i Hi. destruct full_spec as (extra & E1 & _ & Hr & _).
    unfold read_columns in Hi. rewrite E1 in Hi. apply filter_In in Hi.
    rewrite is_stored_iff in Hi. split; [now apply Hr|apply Hi].
  Qed.

  Lemma kind_types : forall c, (forall i, In i c -> i < length (query_schema m)) ->
    types_eqb (map column_arrow_type (map (kind m) c)) (map snd (map (column_at m) c)) = true.
  Proof.
    induction c as [|i c IH]; intros H; [reflexivity|]. cbn [map types_eqb].
    rewrite IH by (intros j Hj; apply H; now right). rewrite andb_true_r.
    assert (C := column_type_cases m Hvalid i (H i (or_introl eq_refl))). unfold kind.
    destruct (column_at m i) as (name, t). cbn [snd] in *. destruct C as [->|[->| ->]]; reflexivity.
  Qed.

  Lemma no_todo : forall js k c, todo_ok m js k c [] -> forallb (is_stored m) c = true.
  Proof.
    intros js k c. revert k. induction c as [|i c IH]; intros k; [reflexivity|]. cbn [todo_ok forallb].
    destruct (is_stored m i); [intros H; now apply IH in H|contradiction].
  Qed.

  Variable F : functions.

  (** The result for some rows. *)
  Lemma finish_ok : forall p fallback extra rows k0 more,
    scan set_order m projection = Ok p -> full_projection = l ++ extra ->
    fallback_field_column m = Ok fallback ->
    map Some (result_schema p) = map (nth_error (query_schema m)) l ->
    join_schema p = map (column_at m) read_columns -> join_order p = map (kind m) read_columns ->
    todo_ok m (join_schema p) 0 l (columns_to_generate p) ->
    read_columns <> [] -> (forall r, In r rows -> computable F m l r) ->
    finish F p (expected (join_order p) (tag_names m) (map (point_of m k0) rows)
      (map (fun k => map (point_of m k) rows)
         (map (field_index m) (filter (is_field m) read_columns)) ++ more))
    = Ok (map (out m F rows) l).
  Proof.
    intros p fallback extra rows k0 more _ Ef _ Ecs Ejs Eo Et Hne Hc.
    unfold finish. rewrite Ejs, Eo, (kind_types read_columns) by (intros i Hi; now apply read_stored).
    rewrite (expected_values m Hvalid rows k0 more read_columns)
      by (intros i Hi; now apply read_stored).
    assert (Eout : map (fun i => map (fun r => stored_value m r i) rows) read_columns
                   = map (out m F rows) read_columns).
    { apply map_ext_in. intros i Hi. symmetry.
      destruct (read_stored i Hi) as (H1 & H2). now apply (out_stored m Hvalid F). }
    rewrite Eout.
    destruct full_spec as (extra' & E1 & St & Hr & ND & Hs & _).
    assert (extra' = extra) by (rewrite Ef in E1; now apply app_inv_head in E1). subst extra'.
    destruct (columns_to_generate p) as [|t todo] eqn:Eg.
    - apply no_todo in Et as Hst.
      assert (Hex : full_projection = l).
      { unfold full_projection.
        assert (N : sources_of m l = []).
        { destruct (sources_of m l) as [|s ss] eqn:En; [reflexivity|].
          assert (Hin : In s (sources_of m l)) by (rewrite En; now left).
          apply sources_of_In in Hin. destruct Hin as (i & g & Hi & Eg' & _).
          rewrite forallb_forall in Hst. apply Hst in Hi. unfold is_stored in Hi.
          rewrite Eg' in Hi. discriminate. }
        rewrite N. cbn [nodup]. assert (P := Horder []).
        apply Permutation_sym, Permutation_nil in P. rewrite P. reflexivity. }
      f_equal. f_equal. unfold read_columns. rewrite Hex. now apply filter_all.
    - unfold read_columns. rewrite Ef.
      apply (generate_ok m Hvalid F rows l extra (join_schema p) (t :: todo)); auto.
      + rewrite Ejs. unfold read_columns. now rewrite Ef.
      + unfold read_columns in Hne. now rewrite Ef in Hne.
  Qed.
  Lemma finish_err : forall p extra rows k0 more,
    full_projection = l ++ extra ->
    join_schema p = map (column_at m) read_columns -> join_order p = map (kind m) read_columns ->
    todo_ok m (join_schema p) 0 l (columns_to_generate p) ->
    read_columns <> [] -> (exists r i, In r rows /\ In i l /\ value_at F m r i = None) ->
    finish F p (expected (join_order p) (tag_names m) (map (point_of m k0) rows)
      (map (fun k => map (point_of m k) rows)
         (map (field_index m) (filter (is_field m) read_columns)) ++ more))
    = Err.
  Proof.
    intros p extra rows k0 more Ef Ejs Eo Et Hne Hn.
    unfold finish. rewrite Ejs, Eo, (kind_types read_columns) by (intros i Hi; now apply read_stored).
    rewrite (expected_values m Hvalid rows k0 more read_columns)
      by (intros i Hi; now apply read_stored).
    assert (Eout : map (fun i => map (fun r => stored_value m r i) rows) read_columns
                   = map (out m F rows) read_columns).
    { apply map_ext_in. intros i Hi. symmetry.
      destruct (read_stored i Hi) as (H1 & H2). now apply (out_stored m Hvalid F). }
    rewrite Eout.
    destruct full_spec as (extra' & E1 & St & Hr & ND & Hs & _).
    assert (extra' = extra) by (rewrite Ef in E1; now apply app_inv_head in E1). subst extra'.
    destruct (columns_to_generate p) as [|t todo] eqn:Eg.
    - exfalso. apply no_todo in Et. destruct Hn as (r & i & _ & Hi & Hn).
      rewrite forallb_forall in Et. specialize (Et i Hi). apply (is_stored_iff m) in Et.
      assert (Li : i < length (query_schema m)) by now apply Hl.
      unfold value_at in Hn. unfold stored_at in Et. rewrite (column_at_nth m i Li), Et in Hn.
      rewrite (stored_value_in m Hvalid r i Li) in Hn. discriminate.
    - unfold read_columns. rewrite Ef.
      apply (generate_err m Hvalid F rows l extra (join_schema p) (t :: todo)); auto.
      + rewrite Ejs. unfold read_columns. now rewrite Ef.
      + unfold read_columns in Hne. now rewrite Ef in Hne.
  Qed.
End Query.

(** Computing generated columns batch by batch. *)
Fixpoint through (F : functions) (p : plan) (bs : list (list (list cell))) (e : ended)
  : outcome (list (list (list value)) * ended) :=
  match bs with
  | [] => Ok ([], e)
  | b :: bs =>
      match finish F p b with
      | Ok c => let? (cs, e) := through F p bs e in Ok (c :: cs, e)
      | Err => Ok ([], Error 0)
      | Panic => Panic
      end
  end.
Lemma consume_through : forall (S : Type) F (grid : S -> list point) predicate tags p n s bs e,
  consume (join_poll (grid_poll grid predicate) (join_order p) tags) n s = Ok (bs, e) ->
  consume (query_poll F grid predicate tags p) n s = through F p bs e.
Proof.
  intros S F grid predicate tags p. induction n as [|n IH]; intros s bs e H; cbn [consume] in *.
  - injection H as <- <-. reflexivity.
  - unfold query_poll at 1.
    destruct (join_poll (grid_poll grid predicate) (join_order p) tags s) as [(r, s')| |];
      cbn [bind] in *; try discriminate.
    destruct r as [|b|k|]; cbn [bind].
    + now apply (IH s' bs).
    + destruct (consume (join_poll (grid_poll grid predicate) (join_order p) tags) n s')
        as [(bs', e')| |] eqn:E; cbn [bind] in H; try discriminate.
      injection H as <- <-. cbn [through]. destruct (finish F p b) as [c| |]; cbn [bind];
        [|reflexivity|reflexivity].
      now rewrite (IH s' bs' e' E).
    + injection H as <- <-. reflexivity.
    + injection H as <- <-. reflexivity.
Qed.

Lemma all_columns_groups : forall {A B} (f : list A -> nat -> list B) l groups,
  (forall i, f [] i = []) -> (forall a b i, f (a ++ b) i = f a i ++ f b i) ->
  all_columns (length l) (map (fun g => map (f g) l) groups) = map (f (concat groups)) l.
Proof.
  intros A B f l groups H0 H. unfold all_columns.
  induction groups as [|g groups IH]; cbn [map concat fold_right].
  - induction l as [|i l IHl]; [reflexivity|]. cbn [length repeat map]. now rewrite H0, IHl.
  - rewrite IH. clear IH. induction l as [|i l IHl]; [reflexivity|].
    cbn [map append_columns]. now rewrite H, IHl.
Qed.

Lemma order_fits_read : forall m, valid_table m -> tags_named m -> forall read n, read <> [] ->
  (forall i, In i read -> i < length (query_schema m) /\ stored_at (generated_columns m) i) ->
  length (filter (is_field m) read) <= n -> order_fits (map (kind m) read) (tag_names m) n.
Proof.
  intros m Hv Htag read n Hne Hrs Hn. destruct (table_facts m Hv) as (_ & In1 & _ & _ & _ & _ & _ & Tg & _).
  split; [|split].
  - intros H. apply map_eq_nil in H. contradiction.
  - assert (X : fields_in (map (kind m) read) = length (filter (is_field m) read)).
    { clear - Hv Hrs. unfold fields_in. induction read as [|i r IH]; [reflexivity|].
      cbn [map filter].
      assert (C := column_type_cases m Hv i (proj1 (Hrs i (or_introl eq_refl)))).
      assert (IH' := IH (fun j Hj => Hrs j (or_intror Hj))).
      unfold kind at 1, is_field at 1. destruct (column_at m i) as (name, t). cbn [snd] in *.
      destruct C as [->|[->| ->]]; cbn [arrow_type_eqb length]; rewrite ?IH'; reflexivity. }
    rewrite X. exact Hn.
  - intros name Hin. apply in_map_iff in Hin. destruct Hin as (i & Hk & Hi).
    destruct (Hrs i Hi) as (Hi1 & Hi2). pose proof (column_at_nth m i Hi1) as Hci.
    assert (C := column_type_cases m Hv i Hi1). unfold kind in Hk.
    destruct (column_at m i) as (n', t) eqn:Ec. cbn [snd] in C.
    destruct C as [->|[->| ->]]; try discriminate. injection Hk as ->.
    split; [apply Tg; now apply (In1 i)|]. apply Htag. now apply nth_error_In in Hci.
Qed.

Lemma query_batches : forall (S : Type) (grid : S -> list point) predicate limit size F m rows
    set_order projection streams,
  valid_table m -> tags_named m -> enumerates_indices set_order ->
  let l := columns_of m projection in
  selects m l -> (exists i, reads m l i) ->
  (exists i, reads m l i /\ type_at (query_schema m) i Float32) \/ stored_field_first m ->
  0 < size -> limit <> Some 0 ->
  files_contain grid predicate limit size m rows streams ->
  exists p batch size' enough, scan set_order m projection = Ok p /\ 0 < size'
    /\ (forall n, exists k e,
          consume (join_poll (grid_poll grid predicate) (join_order p) (tag_names m)) n
            (query_stream p limit size streams) = Ok (map batch (seq 0 k), e)
          /\ (e = Running \/ e = Done) /\ (e = Done -> length rows <= k * size')
          /\ (enough < n -> e = Done))
    /\ forall i,
         ((forall r, In r (chunk size' i rows) -> computable F m l r) ->
          finish F p (batch i) = Ok (map (out m F (chunk size' i rows)) l))
         /\ ((exists r j, In r (chunk size' i rows) /\ In j l /\ value_at F m r j = None) ->
             finish F p (batch i) = Err).
Proof.
  intros S grid predicate limit size F m rows set_order projection streams Hv Htag Ho l Hl Hread
    Hfield Hsize Hlimit Hfiles.
  destruct (scan_ok m Hv set_order Ho projection Hl)
    as (p & fallback & extra & E & Ef & Efb & Ecs & Ejs & Eo & Ejf & Et).
  destruct (full_spec m Hv set_order Ho projection Hl) as (extra' & E1 & _ & _ & _ & _ & Hreads).
  destruct (table_facts m Hv) as (L & In1 & _ & ND & _ & _ & Fi & Tg & Sf).
  set (read := read_columns m set_order projection) in *.
  assert (Hne : read <> []).
  { destruct Hread as (i & Hi). apply Hreads in Hi. intros E0. rewrite E0 in Hi. destruct Hi. }
  assert (Hrs : forall i, In i read -> i < length (query_schema m) /\ stored_at (generated_columns m) i)
    by (intros i Hi; apply (read_stored m Hv set_order Ho projection Hl); exact Hi).
  (* the fields that are read *)
  assert (Hfi : forall i, i < length (query_schema m) -> stored_at (generated_columns m) i ->
            is_field m i = true -> In (field_index m i) (field_column_indices m)).
  { intros i Hi Hs Hf. apply Fi. destruct (field_index_ok m Hv i Hi Hs) as (_ & F2).
    unfold is_field in Hf. apply arrow_type_eqb_eq in Hf. exists (fst (column_at m i)).
    rewrite <- Hf. destruct (column_at m i). exact F2. }
  assert (Hmore : exists more, join_fields p = map (field_index m) (filter (is_field m) read) ++ more
            /\ join_fields p <> [] /\ forall k, In k (join_fields p) -> In k (field_column_indices m)).
  { destruct (map (field_index m) (filter (is_field m) read)) as [|k ks] eqn:Ek.
    - exists [fallback]. rewrite Ejf. split; [reflexivity|]. split; [discriminate|].
      intros k [<-|[]].
      assert (Hfirst : stored_field_first m).
      { destruct Hfield as [(i & Hi & n & Ht)|H]; [|exact H]. apply Hreads in Hi as Hin.
        assert (X : In i (filter (is_field m) read)).
        { apply filter_In. split; [exact Hin|]. unfold is_field.
          change (@nth_error column (query_schema m) i = Some (n, Float32)) in Ht.
          rewrite (column_at_nth m i (proj1 (Hrs i Hin))) in Ht. injection Ht as ->. reflexivity. }
        destruct (filter (is_field m) read); [destruct X|discriminate]. }
      destruct Hfirst as (i & Hs & Ht & Hlt).
      unfold fallback_field_column in Efb.
      destruct (first_stored_some _ _ L Sf) as (fb & Efirst & B1 & B2 & B3).
      rewrite Efirst in Efb. injection Efb as <-.
      assert (fb = i).
      { destruct (Nat.lt_trichotomy fb i) as [H|[H|H]]; [|exact H|].
        - destruct (Hlt fb H) as (_ & N). contradiction.
        - destruct (B3 i H). now split. }
      subst fb. apply Fi. destruct Ht as (n & Ht). exists n.
      destruct Hv as [(bounds & Hacc) _ _ _ _].
      destruct (accepted_facts _ _ _ _ _ Hacc) as (_ & _ & S1 & _). rewrite S1.
      change (@nth_error column (without_generated (generated_columns m) (query_schema m)) i
              = Some (n, Float32)).
      rewrite (stored_prefix (query_schema m) (generated_columns m) i L); [exact Ht|].
      intros j Hj. destruct (Nat.eq_dec j i) as [->|Hji]; [exact Hs|]. apply Hlt. lia.
    - exists []. rewrite app_nil_r, Ejf. split; [reflexivity|]. split; [discriminate|].
      intros k' Hk'. rewrite <- Ek in Hk'. apply in_map_iff in Hk'. destruct Hk' as (i & <- & Hi).
      apply filter_In in Hi. destruct Hi as (Hi & Hf). destruct (Hrs i Hi). now apply Hfi. }
  destruct Hmore as (more & Ejm & Hjne & Hjin).
  (* the data points of each field *)
  assert (Ep : map (points_of grid predicate) (map streams (join_fields p))
               = map (fun k => map (point_of m k) rows) (join_fields p)).
  { rewrite map_map. apply map_ext_in. intros k Hk. now apply (streams_points _ _ _ _ _ _ _ Hfiles), Hjin. }
  destruct Hfiles as [G1 G2 G3 G4 G5].
  set (size' := match limit with Some l => Nat.min l size | None => size end) in *.
  assert (Hs' : 0 < size') by (subst size'; destruct limit as [[|x]|]; [congruence|lia|lia]).
  assert (J : forall n, exists k e,
    consume (join_poll (grid_poll grid predicate) (join_order p) (tag_names m)) n
      (join_stream_new (map (fun i => grid_stream_new limit i size) (map streams (join_fields p))))
    = Ok (map (joined (join_order p) (tag_names m) size'
                 (map (fun k => map (point_of m k) rows) (join_fields p))) (seq 0 k), e)
    /\ (e = Running \/ e = Done)
    /\ (e = Done -> forall r, In r (map (fun k => map (point_of m k) rows) (join_fields p)) ->
          length r <= k * size')
    /\ (list_sum (map (fun i => length i + length (points_of grid predicate i))
          (map streams (join_fields p))) < n -> e = Done)).
  { intros n. rewrite <- Ep. apply join_grids_chunks.
    - exact Hsize.
    - exact Hlimit.
    - intros H. apply Hjne. destruct (join_fields p); [reflexivity|discriminate].
    - apply Forall_forall. intros i Hi. apply in_map_iff in Hi. destruct Hi as (k & <- & _). apply G1.
    - intros i Hi. apply in_map_iff in Hi. destruct Hi as (k & <- & _). apply G2.
    - intros i b s Hi. apply in_map_iff in Hi. destruct Hi as (k & <- & _). apply G3.
    - intros i j Hi Hj. apply in_map_iff in Hi. destruct Hi as (k & <- & Hi).
      apply in_map_iff in Hj. destruct Hj as (k' & <- & Hj).
      rewrite (G4 k (Hjin k Hi)), (G4 k' (Hjin k' Hj)). unfold same_points. rewrite !map_map.
      reflexivity.
    - rewrite map_length, Eo. apply order_fits_read; [exact Hv|exact Htag|exact Hne|exact Hrs|].
      rewrite Ejm, app_length, map_length. lia. }
  eexists p, _, size', _. split; [exact E|]. split; [exact Hs'|]. split.
  - intros n. destruct (J n) as (k & e & E2 & He & Hd & Hn). exists k, e. split.
    + unfold query_stream. rewrite <- (map_map streams (fun i => grid_stream_new limit i size)).
      exact E2.
    + split; [exact He|]. split; [|exact Hn].
      intros He'. specialize (Hd He'). destruct (join_fields p) as [|k0 ks]; [congruence|].
      specialize (Hd (map (point_of m k0) rows) (or_introl eq_refl)).
      now rewrite map_length in Hd.
  - intros i. unfold joined.
    assert (Hhd : exists k0, hd [] (map (fun k => map (point_of m k) rows) (join_fields p))
                  = map (point_of m k0) rows).
    { destruct (join_fields p) as [|k0 ks]; [congruence|]. now exists k0. }
    destruct Hhd as (k0 & ->). rewrite chunk_map, map_map, Ejm, map_app.
    rewrite (map_ext (fun k => chunk size' i (map (point_of m k) rows))
               (fun k => map (point_of m k) (chunk size' i rows)))
      by (intros k'; apply chunk_map).
    split; intros Hc.
    + now apply (finish_ok m Hv set_order Ho projection Hl F p fallback extra).
    + now apply (finish_err m Hv set_order Ho projection Hl F p extra).
Qed.

(** The batches until the first that has a row for which a column cannot be computed. *)
Definition uncomputable F m l (r : data_row) : bool :=
  existsb (fun i => match value_at F m r i with None => true | _ => false end) l.
Lemma through_batches : forall F m l p batch size rows,
  (forall r, In r rows -> attempted F m l r) ->
  (forall i, ((forall r, In r (chunk size i rows) -> computable F m l r) ->
              finish F p (batch i) = Ok (map (out m F (chunk size i rows)) l))
             /\ ((exists r j, In r (chunk size i rows) /\ In j l /\ value_at F m r j = None) ->
                 finish F p (batch i) = Err)) ->
  forall e k i, exists k',
    (forall j, i <= j < i + k' -> forall r, In r (chunk size j rows) -> computable F m l r)
    /\ ((k' = k /\ through F p (map batch (seq i k)) e
                    = Ok (map (fun i => map (out m F (chunk size i rows)) l) (seq i k), e))
        \/ (exists r j, In r rows /\ In j l /\ value_at F m r j = None)
           /\ through F p (map batch (seq i k)) e
              = Ok (map (fun i => map (out m F (chunk size i rows)) l) (seq i k'), Error 0)).
Proof.
  intros F m l p batch size rows Ha Hf e. induction k as [|k IH]; intros i.
  - exists 0. split; [intros j Hj; lia|]. left. now split.
  - cbn [seq map through]. destruct (Hf i) as (Hok & Herr).
    destruct (existsb (uncomputable F m l) (chunk size i rows)) eqn:B.
    + apply existsb_exists in B. destruct B as (r & Hr & B). apply existsb_exists in B.
      destruct B as (j & Hj & B). destruct (value_at F m r j) eqn:V; [discriminate|].
      exists 0. split; [intros j' Hj'; lia|]. right.
      assert (Hr' : In r rows) by (unfold chunk in Hr; now apply In_firstn, In_skipn in Hr).
      split; [now exists r, j|]. rewrite Herr by now exists r, j. reflexivity.
    + assert (Hc : forall r, In r (chunk size i rows) -> computable F m l r).
      { intros r Hr j g Hj Hg.
        assert (Hr' : In r rows) by (unfold chunk in Hr; now apply In_firstn, In_skipn in Hr).
        destruct (Ha r Hr' j g Hj Hg) as [N|V]; [|exact V]. exfalso.
        assert (X : existsb (uncomputable F m l) (chunk size i rows) = true); [|congruence].
        apply existsb_exists. exists r. split; [exact Hr|]. apply existsb_exists. exists j.
        now rewrite N. }
      destruct (IH (S i)) as (k' & Hk & D). exists (S k'). split.
      { intros j Hj. destruct (Nat.eq_dec j i) as [->|N]; [exact Hc|]. apply Hk. lia. }
      rewrite (Hok Hc). destruct D as [(-> & ->)|(Hn & ->)]; [left; now split|right].
      split; [exact Hn|reflexivity].
Qed.

Lemma out_columns : forall m, valid_table m -> forall F l size rows k, selects m l ->
  (forall j, j < k -> forall r, In r (chunk size j rows) -> computable F m l r) ->
  map (map Some) (all_columns (length l)
    (map (fun i => map (out m F (chunk size i rows)) l) (seq 0 k)))
  = requested F m (firstn (k * size) rows) l.
Proof.
  intros m Hv F l size rows k Hl Hc.
  assert (Hc' : forall r, In r (concat (map (fun i => chunk size i rows) (seq 0 k))) -> computable F m l r).
  { intros r Hr. apply in_concat in Hr. destruct Hr as (c & Hi & Hr). apply in_map_iff in Hi.
    destruct Hi as (j & <- & Hj). apply in_seq in Hj. apply (Hc j); [lia|exact Hr]. }
  rewrite <- (map_map (fun i => chunk size i rows) (fun g => map (out m F g) l)).
  rewrite (all_columns_groups (out m F) l); [|reflexivity|intros a b i; apply map_app].
  rewrite concat_chunks in *. cbn [Nat.mul skipn] in *. unfold requested. rewrite map_map.
  apply map_ext_in. intros i Hi. unfold out. rewrite map_map. apply map_ext_in. intros r Hr.
  destruct (value_typed m Hv F (firstn (k * size) rows) l i r) as (v & Ev & _); auto; [apply Hl|].
  now rewrite Ev.
Qed.

Theorem query_answered : forall (S : Type) (grid : S -> list point) predicate limit size F m rows
    set_order projection streams,
  valid_table m -> tags_named m -> enumerates_indices set_order ->
  let l := columns_of m projection in
  selects m l -> (exists i, reads m l i) ->
  (exists i, reads m l i /\ type_at (query_schema m) i Float32) \/ stored_field_first m ->
  0 < size -> limit <> Some 0 ->
  files_contain grid predicate limit size m rows streams ->
  (forall r, In r rows -> attempted F m l r) ->
  exists p, scan set_order m projection = Ok p
    /\ answers_or_fails F m rows l (fun n =>
         consume (query_poll F grid predicate (tag_names m) p) n
           (query_stream p limit size streams)).
Proof.
  intros S grid predicate limit size F m rows set_order projection streams Hv Htag Ho l Hl Hread
    Hfield Hsize Hlimit Hfiles Ha.
  destruct (query_batches S grid predicate limit size F m rows set_order projection streams Hv Htag Ho
              Hl Hread Hfield Hsize Hlimit Hfiles) as (p & batch & size' & enough & E & Hs & J & Hf).
  fold l in Hf. exists p. split; [exact E|].
  assert (R : forall n, exists bs e k,
    consume (query_poll F grid predicate (tag_names m) p) n (query_stream p limit size streams) = Ok (bs, e)
    /\ map (map Some) (all_columns (length l) bs) = requested F m (firstn (k * size') rows) l
    /\ (e = Running \/ e = Done \/ e = Error 0) /\ (enough < n -> e <> Running)
    /\ (e = Done -> length rows <= k * size' /\ forall r, In r rows -> computable F m l r)
    /\ (e = Error 0 -> exists r i, In r rows /\ In i l /\ value_at F m r i = None)).
  { intros n. destruct (J n) as (k & e & E2 & He & Hd & Hn).
    destruct (through_batches F m l p batch size' rows Ha Hf e k 0) as (k' & Hk & D).
    rewrite (consume_through S F grid predicate (tag_names m) p n _ _ e E2).
    assert (Hk0 : forall j, j < k' -> forall r, In r (chunk size' j rows) -> computable F m l r)
      by (intros j Hj; apply Hk; lia).
    destruct D as [(-> & D)|(Bad & D)]; rewrite D.
    - eexists _, e, k. split; [reflexivity|]. split; [exact (out_columns m Hv F l size' rows k Hl Hk0)|].
      split; [destruct He as [-> | ->]; auto|]. split; [intros H; rewrite (Hn H); discriminate|].
      split; [|destruct He as [-> | ->]; discriminate].
      intros He'. specialize (Hd He'). split; [exact Hd|]. intros r Hr.
      assert (X : In r (concat (map (fun i => chunk size' i rows) (seq 0 k)))).
      { rewrite concat_chunks. cbn [Nat.mul skipn]. now rewrite firstn_all2. }
      apply in_concat in X. destruct X as (c & Hi & Hc). apply in_map_iff in Hi.
      destruct Hi as (j & <- & Hj). apply in_seq in Hj. apply (Hk0 j); [lia|exact Hc].
    - eexists _, (Error 0), k'. split; [reflexivity|].
      split; [exact (out_columns m Hv F l size' rows k' Hl Hk0)|]. split; [auto|].
      split; [intros _; discriminate|]. split; [discriminate|]. intros _. exact Bad. }
  split.
  - intros n. destruct (R n) as (bs & e & k & E2 & Hcols & He & _ & Hd & Hbad).
    exists bs, e. split; [exact E2|]. rewrite Hcols. split; [|split; [exact He|split]].
    + unfold prefix_columns, requested. clear. induction l as [|i l IH]; constructor; [|exact IH].
      exists (map (fun r => value_at F m r i) (skipn (k * size') rows)).
      rewrite <- map_app. now rewrite firstn_skipn.
    + intros He'. destruct (Hd He') as (Hlen & Hall). split; [|exact Hall].
      now rewrite firstn_all2.
    + exact Hbad.
  - exists (Datatypes.S enough). intros n Hn. destruct (R n) as (bs & e & k & E2 & _ & _ & Hr & _).
    exists bs, e. split; [exact E2|]. apply Hr. lia.
Qed.

Theorem query_ok : forall (S : Type) (grid : S -> list point) predicate limit size F m rows
    set_order projection streams,
  valid_table m -> tags_named m -> enumerates_indices set_order ->
  let l := columns_of m projection in
  selects m l -> (exists i, reads m l i) ->
  (exists i, reads m l i /\ type_at (query_schema m) i Float32) \/ stored_field_first m ->
  0 < size -> limit <> Some 0 ->
  files_contain grid predicate limit size m rows streams ->
  (forall r, In r rows -> computable F m l r) ->
  exists p, scan set_order m projection = Ok p
    /\ answers F m rows l (fun n =>
         consume (query_poll F grid predicate (tag_names m) p) n
           (query_stream p limit size streams)).
Proof.
  intros S grid predicate limit size F m rows set_order projection streams Hv Htag Ho l Hl Hread
    Hfield Hsize Hlimit Hfiles Hc.
  destruct (query_answered S grid predicate limit size F m rows set_order projection streams Hv Htag Ho
              Hl Hread Hfield Hsize Hlimit Hfiles) as (p & E & A & (enough & Z)).
  { intros r Hr i g Hi Hg. right. exact (Hc r Hr i g Hi Hg). }
  exists p. split; [exact E|].
  assert (NE : forall e, (e = Error 0 -> exists r i, In r rows /\ In i l /\ value_at F m r i = None) ->
             e <> Error 0).
  { intros e H He. destruct (H He) as (r & i & Hr & Hi & Hn). 
    destruct (value_typed m Hv F rows l i r) as (v & Ev & _); auto; [apply Hl|congruence]. }
  split.
  - intros n. destruct (A n) as (bs & e & E2 & P & He & Hd & Hb). exists bs, e. split; [exact E2|].
    split; [exact P|]. split; [|intros H; now apply Hd].
    destruct He as [->|[->|He]]; auto. exfalso. exact (NE e Hb He).
  - exists enough. intros n Hn. destruct (Z n Hn) as (bs & e & E2 & Hr).
    destruct (A n) as (bs' & e' & E2' & _ & He & _ & Hb). rewrite E2 in E2'. injection E2' as <- <-.
    exists bs. destruct He as [->|[->|He]]; [contradiction|exact E2|].
    exfalso. exact (NE e Hb He).
Qed.
