(** Proofs about the definitions of time series tables. *)
From Coq Require Import ZArith Bool String List Lia Permutation Sorted.
From Verif Require Import Model.Base Model.Float Model.ErrorBound Model.Filters Model.Table
  Spec.ErrorBoundSpec Spec.TableSpec Proofs.ErrorBoundProofs.
Import ListNotations.
Open Scope nat_scope.
Open Scope list_scope.

Lemma arrow_type_eqb_eq : forall a b, arrow_type_eqb a b = true <-> a = b.
Proof.
  intros [| | |i] [| | |j]; cbn; split; intros H; try discriminate; try reflexivity.
  - apply Nat.eqb_eq in H. now subst.
  - injection H as ->. apply Nat.eqb_refl.
Qed.

(** The checks of [try_new]. *)
Lemma check_sources_ok : forall all sources,
  check_sources all sources = Ok tt <-> Forall (stored_at all) sources.
Proof.
  intros all sources. induction sources as [|s sources IH]; cbn [check_sources].
  - split; [constructor|reflexivity].
  - unfold stored_at in *. destruct (nth_error all s) as [[g|]|] eqn:E.
    + split; [discriminate|]. intros H. inversion H; congruence.
    + rewrite IH. split; intros H; [now constructor|now inversion H].
    + split; [discriminate|]. intros H. inversion H; congruence.
Qed.

Lemma check_generated_ok : forall all generated,
  check_generated all generated = Ok tt <->
  forall i g s, nth_error generated i = Some (Some g) -> In s (source_columns g) ->
    stored_at all s.
Proof.
  intros all generated. induction generated as [|[g|] generated IH]; cbn [check_generated].
  - split; [|reflexivity]. intros _ [|i] g s H; discriminate.
  - destruct (check_sources all (source_columns g)) as [[]| |] eqn:E; cbn [bind].
    + apply check_sources_ok in E. rewrite IH. split; intros H.
      * intros [|i] h s Hi Hs; cbn [nth_error] in Hi.
        -- injection Hi as <-. rewrite Forall_forall in E. now apply E.
        -- eapply H; eassumption.
      * intros i. apply (H (S i)).
    + split; [discriminate|]. intros H. enough (check_sources all (source_columns g) = Ok tt) by congruence.
      apply check_sources_ok, Forall_forall. intros s. apply (H 0); reflexivity.
    + split; [discriminate|]. intros H. enough (check_sources all (source_columns g) = Ok tt) by congruence.
      apply check_sources_ok, Forall_forall. intros s. apply (H 0); reflexivity.
  - rewrite IH. split; intros H.
    + intros [|i] g s Hi Hs; [discriminate|]. eapply H; eassumption.
    + intros i. apply (H (S i)).
Qed.

Lemma supported_ok : forall columns,
  forallb (fun c => supported (snd c)) columns = true <->
  forall i t, type_at columns i t -> t = Timestamp_us \/ t = Float32 \/ t = Utf8View.
Proof.
  intros columns. rewrite forallb_forall. split.
  - intros H i t (name & E). apply nth_error_In in E. apply H in E. cbn in E.
    destruct t; auto. discriminate.
  - intros H (name & t) Hin. apply In_nth_error in Hin. destruct Hin as (i & E). cbn.
    destruct (H i t) as [->|[->| ->]]; [now exists name|reflexivity..].
Qed.

(** The stored elements. *)
Definition positions (generated : list (option generated_column)) (k : nat) : list nat :=
  without_generated generated (seq k (length generated)).

Lemma without_generated_positions : forall {A} generated (l pre : list A) ,
  length generated = length l ->
  map Some (without_generated generated l)
  = map (nth_error (pre ++ l)) (positions generated (length pre)).
Proof.
  intros A generated. unfold positions.
  induction generated as [|[g|] generated IH]; intros [|a l] pre H; try discriminate;
    cbn [without_generated length seq map]; [reflexivity| |].
  - injection H as H. rewrite (IH l (pre ++ [a]) H). rewrite app_length. cbn [length].
    rewrite Nat.add_1_r, <- app_assoc. reflexivity.
  - injection H as H. f_equal.
    + now rewrite nth_error_app2, Nat.sub_diag by lia.
    + rewrite (IH l (pre ++ [a]) H). rewrite app_length. cbn [length].
      rewrite Nat.add_1_r, <- app_assoc. reflexivity.
Qed.

Lemma positions_In : forall generated k i,
  In i (positions generated k) <-> k <= i /\ stored_at generated (i - k).
Proof.
  unfold positions, stored_at. induction generated as [|[g|] generated IH]; intros k i;
    cbn [length seq without_generated In].
  - split; [tauto|]. intros [_ H]. now destruct (i - k).
  - rewrite IH. split; intros [H1 H2].
    + split; [lia|]. replace (i - k) with (S (i - S k)) by lia. exact H2.
    + destruct (Nat.eq_dec i k) as [->|N]; [now rewrite Nat.sub_diag in H2|].
      split; [lia|]. replace (i - k) with (S (i - S k)) in H2 by lia. exact H2.
  - rewrite IH. split.
    + intros [<-|[H1 H2]]; [now rewrite Nat.sub_diag|].
      split; [lia|]. replace (i - k) with (S (i - S k)) by lia. exact H2.
    + intros [H1 H2]. destruct (Nat.eq_dec k i) as [E|N]; [now left|right].
      split; [lia|]. replace (i - k) with (S (i - S k)) in H2 by lia. exact H2.
Qed.

Lemma positions_sorted : forall generated k,
  StronglySorted lt (positions generated k).
Proof.
  induction generated as [|[g|] generated IH]; intros k; cbn.
  - constructor.
  - apply IH.
  - constructor; [apply IH|]. apply Forall_forall. intros i Hi.
    apply positions_In in Hi. lia.
Qed.

Lemma indices_with_type_In : forall columns t k,
  In k (indices_with_type columns t) <-> type_at columns k t.
Proof.
  intros columns t k. unfold indices_with_type, type_at. rewrite filter_In, in_seq. split.
  - intros [_ H]. destruct (nth_error columns k) as [(name, u)|]; [|discriminate].
    apply arrow_type_eqb_eq in H. subst. now exists name.
  - intros (name & E). split.
    + assert (k < length columns) by (apply nth_error_Some; congruence). lia.
    + rewrite E. now apply arrow_type_eqb_eq.
Qed.

Lemma seq_sorted : forall n k, StronglySorted lt (seq k n).
Proof.
  induction n as [|n IH]; intros k; cbn; constructor; [apply IH|].
  apply Forall_forall. intros i Hi. apply in_seq in Hi. lia.
Qed.
Lemma filter_sorted : forall f (l : list nat),
  StronglySorted lt l -> StronglySorted lt (filter f l).
Proof.
  intros f l H. induction H as [|a l H IH Ha]; cbn; [constructor|].
  destruct (f a); [|exact IH]. constructor; [exact IH|].
  apply Forall_forall. intros i Hi. apply filter_In in Hi. rewrite Forall_forall in Ha.
  now apply Ha.
Qed.
Lemma indices_sorted : forall columns t, StronglySorted lt (indices_with_type columns t).
Proof. intros. apply filter_sorted, seq_sorted. Qed.

Lemma sorted_unique : forall l, StronglySorted lt l -> forall i,
  (forall j, In j l <-> j = i) -> l = [i].
Proof.
  intros l H i Hi. destruct l as [|a [|b l]].
  - destruct (proj2 (Hi i) eq_refl).
  - f_equal. apply Hi. now left.
  - inversion H; subst. inversion H3; subst.
    assert (a = i) by (apply Hi; now left). assert (b = i) by (apply Hi; right; now left). lia.
Qed.

Lemma sorted_NoDup : forall l, StronglySorted lt l -> NoDup l.
Proof.
  intros l S. induction S as [|a l S IH F]; constructor; [|exact IH].
  intros Hin. rewrite Forall_forall in F. specialize (F _ Hin). lia.
Qed.

(** The stored columns in [columns] and in the schema. *)
Lemma stored_columns : forall (columns : list column) generated, length generated = length columns ->
  map Some (without_generated generated columns)
  = map (nth_error columns) (positions generated 0).
Proof. intros columns generated H. apply (without_generated_positions generated columns [] H). Qed.

Lemma stored_type : forall columns generated t, length generated = length columns ->
  (exists k, type_at (without_generated generated columns) k t)
  <-> exists i, stored_at generated i /\ type_at columns i t.
Proof.
  intros columns generated t H. pose proof (stored_columns columns generated H) as E. split.
  - intros (k & name & Hk).
    assert (Hin : In (Some (name, t)) (map (nth_error columns) (positions generated 0))).
    { rewrite <- E. apply in_map, nth_error_In with k, Hk. }
    apply in_map_iff in Hin. destruct Hin as (i & Hi & Hp). exists i.
    apply positions_In in Hp. rewrite Nat.sub_0_r in Hp. split; [apply Hp|now exists name].
  - intros (i & Hs & name & Hi).
    assert (Hin : In (Some (name, t)) (map Some (without_generated generated columns))).
    { rewrite E. apply in_map_iff. exists i. split; [exact Hi|]. apply positions_In.
      rewrite Nat.sub_0_r. split; [lia|exact Hs]. }
    apply in_map_iff in Hin. destruct Hin as (c & Hc & Hin). injection Hc as ->.
    apply In_nth_error in Hin. destruct Hin as (k & Hk). exists k. now exists name.
Qed.

(** The [k]th stored column is at the [k]th position. *)
Lemma stored_nth : forall (columns : list column) generated k, length generated = length columns ->
  forall c, nth_error (without_generated generated columns) k = Some c <->
  exists i, nth_error (positions generated 0) k = Some i /\ nth_error columns i = Some c.
Proof.
  intros columns generated k H c. pose proof (stored_columns columns generated H) as E.
  assert (F : nth_error (map Some (without_generated generated columns)) k
              = nth_error (map (nth_error columns) (positions generated 0)) k) by now rewrite E.
  rewrite !nth_error_map in F. split.
  - intros Hk. rewrite Hk in F. cbn in F. destruct (nth_error (positions generated 0) k) as [i|];
      [|discriminate]. exists i. split; [reflexivity|]. now injection F as <-.
  - intros (i & Hi & Hc). rewrite Hi in F. cbn in F. rewrite Hc in F.
    destruct (nth_error (without_generated generated columns) k) as [c'|]; [|discriminate].
    cbn in F. congruence.
Qed.

Lemma one_index : forall columns generated, length generated = length columns ->
  (exists i, stored_at generated i /\ type_at columns i Timestamp_us
     /\ forall j, stored_at generated j -> type_at columns j Timestamp_us -> j = i)
  <-> exists k, indices_with_type (without_generated generated columns) Timestamp_us = [k].
Proof.
  intros columns generated H. split.
  - intros (i & Hs & Ht & Hu).
    destruct (proj2 (stored_type columns generated Timestamp_us H)) as (k & Hk); [eauto|].
    exists k. apply sorted_unique; [apply indices_sorted|]. intros j.
    rewrite indices_with_type_In. split; [|intros ->; exact Hk].
    intros (name & Hj). destruct Hk as (name' & Hk).
    apply (stored_nth columns generated j H) in Hj. apply (stored_nth columns generated k H) in Hk.
    destruct Hj as (a & Ha & Hja). destruct Hk as (b & Hb & Hkb).
    assert (a = i) by (apply Hu; [apply nth_error_In, positions_In in Ha;
      rewrite Nat.sub_0_r in Ha; apply Ha|now exists name]).
    assert (b = i) by (apply Hu; [apply nth_error_In, positions_In in Hb;
      rewrite Nat.sub_0_r in Hb; apply Hb|now exists name']).
    subst a b.
    pose proof (sorted_NoDup _ (positions_sorted generated 0)) as ND.
    rewrite NoDup_nth_error in ND. apply ND; [apply nth_error_Some; congruence|congruence].
  - intros (k & E).
    assert (Hk : type_at (without_generated generated columns) k Timestamp_us).
    { apply indices_with_type_In. rewrite E. now left. }
    destruct Hk as (name & Hk). apply (stored_nth columns generated k H) in Hk.
    destruct Hk as (i & Hi & Hc). exists i. split; [|split].
    + apply nth_error_In, positions_In in Hi. rewrite Nat.sub_0_r in Hi. apply Hi.
    + now exists name.
    + intros j Hs (name' & Hj).
      assert (Hin : In j (positions generated 0)).
      { apply positions_In. rewrite Nat.sub_0_r. split; [lia|exact Hs]. }
      apply In_nth_error in Hin. destruct Hin as (k' & Hk').
      assert (type_at (without_generated generated columns) k' Timestamp_us).
      { exists name'. apply (stored_nth columns generated k' H). eauto. }
      apply indices_with_type_In in H0. rewrite E in H0. destruct H0 as [->|[]]. congruence.
Qed.

(** [try_new] accepts exactly the well-formed definitions. *)
Lemma try_new_ok : forall name columns bounds generated m,
  try_new name columns bounds generated = Ok m ->
  well_formed columns bounds generated /\ describes columns bounds generated m
  /\ table_name m = name
  /\ compressed_schema m = base_compressed_schema ++ columns_at (schema m) (tag_column_indices m)
  /\ schema m = without_generated generated columns
  /\ error_bounds m = without_generated generated bounds.
Proof.
  intros name columns bounds generated m. unfold try_new.
  destruct (Nat.eqb_spec (length columns) (length bounds)) as [L1|]; cbn [negb]; [|discriminate].
  destruct (Nat.eqb_spec (length columns) (length generated)) as [L2|]; cbn [negb]; [|discriminate].
  destruct (check_generated generated generated) as [[]| |] eqn:E1; cbn [bind]; try discriminate.
  destruct (Z.ltb_spec 32767 (Z.of_nat (length columns))) as [|L3]; [discriminate|].
  destruct (forallb (fun c => supported (snd c)) columns) eqn:E2; cbn [negb]; [|discriminate].
  destruct (indices_with_type (without_generated generated columns) Timestamp_us)
    as [|t [|]] eqn:E3; try discriminate.
  destruct (indices_with_type (without_generated generated columns) Float32) as [|f fs] eqn:E4;
    [discriminate|].
  intros H. injection H as <-. split; [|split; [|split; [reflexivity|split; [reflexivity|
    split; reflexivity]]]].
  - constructor; [congruence|congruence|exact L3| | | |].
    + now apply supported_ok.
    + apply one_index; [congruence|]. now exists t.
    + apply stored_type; [congruence|]. exists f. apply indices_with_type_In. rewrite E4. now left.
    + intros i g s. now apply check_generated_ok.
  - constructor; cbn [query_schema_to_schema schema error_bounds timestamp_column_index
      field_column_indices tag_column_indices query_schema generated_columns]; rewrite ?L2.
    + apply positions_sorted.
    + intros i. change (without_generated generated (seq 0 (length generated)))
        with (positions generated 0). rewrite positions_In, Nat.sub_0_r. intuition lia.
    + now apply stored_columns.
    + apply (without_generated_positions generated bounds []). congruence.
    + intros k. rewrite <- indices_with_type_In, E3. cbn. intuition congruence.
    + rewrite <- E4. split; [apply indices_sorted|]. intros k. apply indices_with_type_In.
    + split; [apply indices_sorted|]. intros k. apply indices_with_type_In.
    + reflexivity.
    + reflexivity.
Qed.

Lemma try_new_complete : forall name columns bounds generated,
  well_formed columns bounds generated -> exists m, try_new name columns bounds generated = Ok m.
Proof.
  intros name columns bounds generated [H1 H2 H3 H4 H5 H6 H7]. unfold try_new.
  rewrite H1, H2, !Nat.eqb_refl. cbn [negb].
  apply check_generated_ok in H7. rewrite H7. cbn [bind].
  destruct (Z.ltb_spec 32767 (Z.of_nat (length columns))) as [|L3]; [lia|].
  apply supported_ok in H4. rewrite H4. cbn [negb].
  apply one_index in H5; [|congruence]. destruct H5 as (k & ->).
  apply stored_type in H6; [|congruence]. destruct H6 as (f & Hf).
  apply indices_with_type_In in Hf.
  destruct (indices_with_type (without_generated generated columns) Float32); [destruct Hf|].
  eauto.
Qed.

(** The only panic is due to a source column outside the table. *)
Lemma try_new_no_panic : forall name columns bounds generated,
  (forall i g s, nth_error generated i = Some (Some g) -> In s (source_columns g) ->
     s < length columns) ->
  try_new name columns bounds generated <> Panic.
Proof.
  intros name columns bounds generated H. unfold try_new.
  destruct (length columns =? length bounds); cbn [negb]; [|discriminate].
  destruct (Nat.eqb_spec (length columns) (length generated)) as [L|]; cbn [negb]; [|discriminate].
  assert (P : check_generated generated generated <> Panic).
  { rewrite L in H. set (all := generated) at 1. change (length generated) with (length all) in H.
    clearbody all. clear L. revert H.
    assert (PS : forall sources, (forall s, In s sources -> s < length all) ->
              check_sources all sources <> Panic).
    { induction sources as [|s sources IH]; cbn [check_sources]; [discriminate|]. intros Hs.
      destruct (nth_error all s) as [[]|] eqn:E; [discriminate| |].
      - apply IH. intros s' Hs'. apply Hs. now right.
      - apply nth_error_None in E. specialize (Hs s (or_introl eq_refl)). lia. }
    clear - PS. induction generated as [|[g|] generated IH]; cbn [check_generated]; intros H;
      [discriminate| |].
    - assert (Hg : check_sources all (source_columns g) <> Panic)
        by (apply PS; intros s; apply (H 0); reflexivity).
      destruct (check_sources all (source_columns g)); cbn [bind]; [|discriminate|congruence].
      apply IH. intros i. apply (H (S i)).
    - apply IH. intros i. apply (H (S i)). }
  destruct (check_generated generated generated) as [[]| |]; cbn [bind]; try discriminate;
    [|congruence].
  destruct (32767 <? Z.of_nat (length columns))%Z; [discriminate|].
  destruct (forallb (fun c => supported (snd c)) columns); cbn [negb]; [|discriminate].
  destruct (indices_with_type (without_generated generated columns) Timestamp_us) as [|? [|]];
    try discriminate.
  destruct (indices_with_type (without_generated generated columns) Float32); discriminate.
Qed.
