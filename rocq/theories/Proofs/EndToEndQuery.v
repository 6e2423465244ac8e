(** The rows of a query after data points were ingested and flushed. *)
From Coq Require Import ZArith Reals Bool String List Permutation Sorted Lia.
From Verif Require Import Model.Base Model.Float Model.ErrorBound Model.Segments
  Model.Filters Model.Streams Model.Table Model.Scan Model.DataSource Model.EndToEnd
  Spec.PlatformSpec Spec.ErrorBoundSpec Spec.PmcSpec Spec.SwingSpec Spec.MacaqueVSpec
  Spec.SegmentsSpec Spec.GridSpec Spec.StreamsSpec Spec.TableSpec Spec.ScanSpec Spec.EndToEndSpec
  Proofs.TableProofs Proofs.ScanProofs Proofs.LimitProofs Proofs.QueryProofs
  Proofs.EndToEndLists Proofs.EndToEndProofs.
From Verif Require Model.Pipeline Spec.PipelineSpec.
Import ListNotations.
Open Scope nat_scope.
Open Scope list_scope.

Lemma forall2_length {A B} (R : A -> B -> Prop) l k : Forall2 R l k -> length l = length k.
Proof. induction 1; cbn [length]; congruence. Qed.

(** * Names *)
Fixpoint index_of (name : string) (l : list string) : nat :=
  match l with
  | [] => 0
  | x :: l => if String.eqb x name then 0 else S (index_of name l)
  end.

Lemma index_of_nth l : forall k name, NoDup l -> nth_error l k = Some name -> index_of name l = k.
Proof.
  induction l as [|x l IH]; intros k name Hn H; [destruct k; discriminate H|].
  inversion Hn as [|a b Hx Hl]; subst. cbn [index_of]. destruct k as [|k]; cbn [nth_error] in H.
  - injection H as ->. rewrite String.eqb_refl. reflexivity.
  - destruct (String.eqb_spec x name) as [->|].
    + contradiction Hx. apply (nth_error_In _ k). exact H.
    + f_equal. apply IH; assumption.
Qed.

Lemma by_index (names : list string) : forall values : list string, NoDup names -> length values = length names ->
  map (fun name => nth (index_of name names) values EmptyString) names = values.
Proof.
  intros values Hn Hl. apply (nth_ext _ _ EmptyString EmptyString); [rewrite map_length; symmetry; exact Hl|].
  intros i Hi. rewrite map_length in Hi. destruct (nth_error names i) as [name|] eqn:E.
  - rewrite (nth_indep _ EmptyString (nth (index_of EmptyString names) values EmptyString)) by (rewrite map_length; exact Hi).
    rewrite (map_nth (fun name => nth (index_of name names) values EmptyString)).
    rewrite (nth_error_nth _ _ EmptyString E). rewrite (index_of_nth names i name Hn E). reflexivity.
  - apply nth_error_None in E. lia.
Qed.

(** * Fields *)
Section Fields.
  Variable m : metadata.
  Hypothesis Hvalid : valid_table m.

  Lemma described : exists bounds, describes (query_schema m) bounds (generated_columns m) m
    /\ well_formed (query_schema m) bounds (generated_columns m).
  Proof.
    destruct (is_accepted _ Hvalid) as [bounds H]. destruct (try_new_ok _ _ _ _ _ H) as (W & D & _).
    exists bounds. split; assumption.
  Qed.

  Lemma field_exists position column : nth_error (field_column_indices m) position = Some column ->
    exists name eb, field_at m position column name eb.
  Proof.
    intros H. destruct described as (bounds & D & W).
    pose proof (nth_error_In _ _ H) as Hin. apply (proj2 (field_indices _ _ _ _ D)) in Hin.
    destruct Hin as [name Hn].
    assert (Hl : length (error_bounds m) = length (schema m)).
    { rewrite <- (map_length Some (error_bounds m)), <- (map_length Some (schema m)).
      rewrite (schema_stored _ _ _ _ D), (bounds_stored _ _ _ _ D), !map_length. reflexivity. }
    assert (Hk : column < length (schema m)) by (apply nth_error_Some; intros E; pose proof (eq_trans (eq_sym Hn) E) as X; discriminate X).
    destruct (nth_error (error_bounds m) column) as [eb|] eqn:E; [|apply nth_error_None in E; lia].
    exists name, eb. constructor; assumption.
  Qed.

  Lemma some_fields : exists column fields, field_column_indices m = column :: fields.
  Proof.
    destruct described as (bounds & D & W). destruct (some_field _ _ _ W) as (i & Hs & name & Ht).
    destruct (table_facts m Hvalid) as (_ & F1 & _ & _ & _ & _ & F2 & _).
    pose proof (F1 _ _ Hs Ht) as Hin. apply In_nth_error in Hin. destruct Hin as [k Hk].
    assert (Hf : In k (field_column_indices m)) by (apply F2; exists name; exact Hk).
    destruct (field_column_indices m) as [|c l]; [contradiction Hf|]. exists c, l. reflexivity.
  Qed.

  Lemma names_unique : NoDup (map fst (schema m)).
  Proof. apply (table_facts m Hvalid). Qed.

  Lemma tag_names_unique : NoDup (tag_names m).
  Proof.
    destruct described as (bounds & D & W). pose proof (proj1 (tag_indices _ _ _ _ D)) as Hs.
    pose proof names_unique as Hn. unfold tag_names.
    assert (Hix : forall k, In k (tag_column_indices m) -> exists c, nth_error (schema m) k = Some c).
    { intros k Hk. apply (proj2 (tag_indices _ _ _ _ D)) in Hk. destruct Hk as [name Hk]. exists (name, Utf8View). exact Hk. }
    revert Hs Hix. generalize (tag_column_indices m). intros l Hs Hix.
    induction Hs as [|k l Hs IH Hf]; [constructor|]. unfold columns_at in *. cbn [flat_map].
    destruct (Hix k (or_introl eq_refl)) as [c Hc]. rewrite Hc. cbn [app map].
    constructor; [|apply IH; intros j Hj; apply Hix; right; exact Hj].
    intros Hin. apply in_map_iff in Hin. destruct Hin as [c' [E Hin]]. apply in_flat_map in Hin.
    destruct Hin as [j [Hj Hin]]. rewrite Forall_forall in Hf. specialize (Hf j Hj).
    destruct (nth_error (schema m) j) as [d|] eqn:Ed; [|contradiction Hin]. destruct Hin as [->|[]].
    assert (k = j); [|lia]. rewrite NoDup_nth_error in Hn. apply Hn.
    - rewrite map_length. apply nth_error_Some. intros X. pose proof (eq_trans (eq_sym Hc) X) as Y. discriminate Y.
    - rewrite (map_nth_error fst _ _ Hc), (map_nth_error fst _ _ Ed), E. reflexivity.
  Qed.
End Fields.

(** * Files *)
Lemma flat_map_permutation {A B} (f : A -> list B) l k : Permutation l k -> Permutation (flat_map f l) (flat_map f k).
Proof. intros H. rewrite !flat_map_concat_map. apply concat_perm. apply Permutation_map. exact H. Qed.

Section Files.
  Variables (le : list string -> list string -> Prop) (sort : list stored_segment -> list stored_segment).
  Hypothesis Hsort : sorts_segments le sort.

  Lemma read_all files xs : hold files xs -> Permutation (read_segments sort None files) xs.
  Proof.
    intros [ordered [Hp <-]]. assert (H : Permutation (flat_map segments_in (sort_files files)) (flat_map segments_in ordered)).
    { apply flat_map_permutation. rewrite sort_files_permutation. exact Hp. }
    unfold read_segments. destruct files as [|f [|f' files]]; try exact H.
    rewrite (proj1 (Hsort _)). exact H.
  Qed.
  Lemma read_one files xs : hold files xs -> length files <= 1 -> read_segments sort None files = xs.
  Proof.
    intros [ordered [Hp <-]] Hl. destruct files as [|f [|f' files]].
    - apply Permutation_nil in Hp. subst. reflexivity.
    - apply Permutation_length_1_inv in Hp. subst. reflexivity.
    - cbn [length] in Hl. lia.
  Qed.
  Lemma read_several files : 2 <= length files -> StronglySorted (starts_no_later le) (read_segments sort None files).
  Proof.
    intros Hl. unfold read_segments. destruct files as [|f [|f' files]]; try (cbn [length] in Hl; lia). apply Hsort.
  Qed.
  Lemma held_in files xs x : hold files xs -> In x xs -> In x (flat_map segments_in files).
  Proof. intros [ordered [Hp <-]]. apply Permutation_in. apply flat_map_permutation. symmetry. exact Hp. Qed.
End Files.

(** * Buffers that do not overlap *)
Section Apart.
  Variables (P : platform) (m : metadata) (size : R) (latest interval : Z) (l : list item).
  Hypothesis Hstore : can_store P m size latest interval l.
  Hypothesis Hvalid : valid_table m.

  Definition sooner (p q : list item) : Prop :=
    forall x y, In x p -> In y q -> tags_of x = tags_of y -> (time_of x < time_of y)%Z.
  Definition disjoint (p q : list item) : Prop := sooner p q \/ sooner q p.
  Definition increasing (p : list item) : Prop :=
    StronglySorted (fun x y => tags_of x = tags_of y /\ (time_of x < time_of y)%Z) p.

  Lemma disjoint_sym p q : disjoint p q -> disjoint q p.
  Proof. intros [H|H]; [right|left]; exact H. Qed.

  Lemma items_increasing g : good_buffer l g -> increasing (segment_items g).
  Proof.
    intros Hg. pose proof (buffer_sorted P m size latest interval l Hstore g Hg) as Hs.
    apply (sorted_weaken _ _ _) with (2 := Hs). intros x y Hx Hy H.
    split; [rewrite (tags_of_items g x Hx), (tags_of_items g y Hy); reflexivity|].
    pose proof (interval_positive _ _ _ _ _ _ Hstore). lia.
  Qed.

  Lemma item_point g x : In x (segment_items g) ->
    exists p, In p (Pipeline.g_points g) /\ Pipeline.p_time p = time_of x.
  Proof.
    intros Hx. assert (H : In (time_of x) (map time_of (segment_items g))) by (apply in_map; exact Hx).
    rewrite times_of_items in H. apply in_map_iff in H. destruct H as [p [E Hp]]. exists p. split; assumption.
  Qed.

  Lemma before_sooner g h p q : before g h -> incl p (segment_items g) -> incl q (segment_items h) -> sooner p q.
  Proof.
    intros H Hp Hq x y Hx Hy _. destruct (item_point g x (Hp x Hx)) as [a [Ha <-]].
    destruct (item_point h y (Hq y Hy)) as [b [Hb <-]]. apply H; assumption.
  Qed.

  Lemma all_apart position column name eb : field_at m position column name eb -> forall gs,
    Forall (good_buffer l) gs -> apart gs ->
    exists xs parts, all_segments P m position column gs = Ok xs
      /\ concat parts = flat_map segment_items gs
      /\ Forall2 (stored_as P size latest interval l position eb) xs parts
      /\ Forall increasing parts /\ ForallOrdPairs disjoint parts
      /\ Forall (fun p => exists g, In g gs /\ incl p (segment_items g)) parts.
  Proof.
    intros Hf gs Hg Ha. induction gs as [|g gs IH].
    - exists [], []. repeat split; constructor.
    - inversion Hg as [|a b Hg1 Hg2]; subst. inversion Ha as [|a b Ha1 Ha2]; subst.
      destruct (buffer_stored P m size latest interval l Hstore Hvalid g position column name eb Hg1 Hf) as (xs & parts & E1 & E2 & E3).
      destruct (IH Hg2 Ha2) as (xs' & parts' & F1 & F2 & F3 & F4 & F5 & F6). exists (xs ++ xs'), (parts ++ parts').
      cbn [all_segments]. rewrite E1, F1. cbn [bind]. split; [reflexivity|].
      split; [rewrite concat_app, E2, F2; reflexivity|]. split; [apply Forall2_app; assumption|].
      pose proof (items_increasing g Hg1) as Hi. unfold increasing in Hi. rewrite <- E2 in Hi.
      destruct (sorted_parts _ _ Hi) as [G1 G2].
      assert (Hin : forall p, In p parts -> incl p (segment_items g)).
      { intros p Hp x Hx. rewrite <- E2. apply in_concat. exists p. split; assumption. }
      split; [apply Forall_app; split; [apply Forall_forall; exact G1|exact F4]|].
      rewrite Forall_forall in F6. split.
      + apply fop_app; [|exact F5|].
        * apply (fop_weaken _ _ _) with (2 := G2). intros p q _ _ H. left. intros x y Hx Hy _. apply (H x y Hx Hy).
        * intros p q Hp Hq. specialize (Hin p Hp). destruct (F6 q Hq) as [h [Hh Hq']].
          rewrite Forall_forall in Ha1. specialize (Ha1 h Hh).
          destruct (list_eq_dec string_dec (Pipeline.g_tags g) (Pipeline.g_tags h)) as [E|E].
          -- destruct (Ha1 E) as [H|H]; [left|right]; eapply before_sooner; eassumption.
          -- left. intros x y Hx Hy Et. contradiction E.
             rewrite <- (tags_of_items g x (Hin x Hx)), <- (tags_of_items h y (Hq' y Hy)). exact Et.
      + apply Forall_app. split; apply Forall_forall.
        * intros p Hp. exists g. split; [left; reflexivity|exact (Hin p Hp)].
        * intros p Hp. destruct (F6 p Hp) as [h [Hh Hq]]. exists h. split; [right; exact Hh|exact Hq].
  Qed.

  (** Data points sorted by their tags and timestamps. *)
  Variables (le : list string -> list string -> Prop) (sort : list stored_segment -> list stored_segment).
  Hypothesis Hle : total_order le.
  Hypothesis Hsort : sorts_segments le sort.

  Definition lt_key (x y : item) : Prop :=
    (le (tags_of x) (tags_of y) /\ tags_of x <> tags_of y)
    \/ (tags_of x = tags_of y /\ (time_of x < time_of y)%Z).
  Lemma lt_key_irrefl x : ~ lt_key x x.
  Proof. intros [[_ H]|[_ H]]; [apply H; reflexivity|lia]. Qed.
  Lemma lt_key_trans x y z : lt_key x y -> lt_key y z -> lt_key x z.
  Proof.
    destruct Hle as (_ & Hanti & Htrans & _). intros [[H1 H2]|[H1 H2]] [[H3 H4]|[H3 H4]].
    - left. split; [apply (Htrans _ _ _ H1 H3)|]. intros E. rewrite E in H1. apply H4. apply Hanti; assumption.
    - left. rewrite <- H3. split; assumption.
    - left. rewrite H1. split; assumption.
    - right. split; [congruence|lia].
  Qed.

  Lemma sorted_read position eb read parts :
    Forall2 (stored_as P size latest interval l position eb) read parts ->
    StronglySorted (starts_no_later le) read -> Forall increasing parts -> ForallOrdPairs disjoint parts ->
    StronglySorted lt_key (concat parts).
  Proof.
    intros F Hs Hi Hd. apply sorted_concat.
    - intros p Hp. rewrite Forall_forall in Hi. specialize (Hi p Hp). unfold increasing in Hi.
      apply (sorted_weaken _ _ _) with (2 := Hi). intros x y _ _ H. right. exact H.
    - assert (Hh : ForallOrdPairs (fun p q => forall x y, In x p -> In y q -> tags_of x <> tags_of y -> le (tags_of x) (tags_of y)) parts
                /\ ForallOrdPairs (fun p q => p <> [] /\ q <> [] /\ forall x y, In x p -> In y q -> tags_of x = tags_of y ->
                     (hd 0%Z (map time_of p) <= hd 0%Z (map time_of q))%Z) parts).
      { split; apply (fop_forall2 _ (starts_no_later le) _) with (2 := F) (3 := fop_of_sorted _ _ Hs).
        - intros a a' b b' Ha Hb H x y Hx Hy. rewrite (sa_tags _ _ _ _ _ _ _ _ _ Ha x Hx), (sa_tags _ _ _ _ _ _ _ _ _ Hb y Hy).
          destruct H as [[H _]|[H _]]; intros Hn; [exact H|contradiction].
        - intros a a' b b' Ha Hb H. split; [exact (sa_some _ _ _ _ _ _ _ _ _ Ha)|]. split; [exact (sa_some _ _ _ _ _ _ _ _ _ Hb)|].
          intros x y Hx Hy. rewrite (sa_tags _ _ _ _ _ _ _ _ _ Ha x Hx), (sa_tags _ _ _ _ _ _ _ _ _ Hb y Hy).
          rewrite <- (sa_start _ _ _ _ _ _ _ _ _ Ha), <- (sa_start _ _ _ _ _ _ _ _ _ Hb). intros E.
          destruct H as [[_ H]|[_ H]]; [contradiction|exact H]. }
      destruct Hh as [H1 H2].
      assert (H3 : ForallOrdPairs (fun p q => In p parts /\ In q parts) parts).
      { clear. assert (G : forall k : list (list item), incl k parts -> ForallOrdPairs (fun p q => In p parts /\ In q parts) k).
        { induction k as [|p k IH]; intros H; constructor.
          - apply Forall_forall. intros q Hq. split; apply H; [left; reflexivity|right; exact Hq].
          - apply IH. intros q Hq. apply H. right. exact Hq. }
        apply G. intros p Hp. exact Hp. }
      assert (Htag : forall p x y, In p parts -> In x p -> In y p -> tags_of x = tags_of y).
      { intros p x y Hp Hx Hy. clear - F Hp Hx Hy. induction F as [|a b la lb Hab F IH]; [contradiction Hp|].
        destruct Hp as [->|Hp]; [|exact (IH Hp)].
        rewrite (sa_tags _ _ _ _ _ _ _ _ _ Hab x Hx), (sa_tags _ _ _ _ _ _ _ _ _ Hab y Hy). reflexivity. }
      apply (fop_weaken _ _ _) with (2 := fop_and _ _ _ (fop_and _ _ _ H1 H2) (fop_and _ _ _ H3 Hd)).
      intros p q _ _ [[L1 (N1 & N2 & L2)] [[Hp Hq] L3]] x y Hx Hy.
      destruct (list_eq_dec string_dec (tags_of x) (tags_of y)) as [E|E]; [|left; split; [apply L1; assumption|exact E]].
      right. split; [exact E|]. destruct L3 as [L3|L3]; [apply L3; assumption|].
      exfalso. specialize (L2 x y Hx Hy E).
      destruct p as [|px p]; [contradiction Hx|]. destruct q as [|qx q]; [contradiction Hy|]. cbn [map hd] in L2.
      assert (tags_of qx = tags_of px).
      { rewrite (Htag _ qx y Hq (or_introl eq_refl) Hy), <- E. apply (Htag _ x px Hp Hx (or_introl eq_refl)). }
      pose proof (L3 qx px (or_introl eq_refl) (or_introl eq_refl) H). lia.
  Qed.

  (** * All fields are read in the same order. *)
  Variables (gs : list Pipeline.segments) (files : nat -> list (file stored_segment)).
  Hypothesis Hgs : Forall (good_buffer l) gs.
  Hypothesis Hperm : Permutation (flat_map segment_items gs) l.
  Hypothesis Hhold : forall position column name eb xs, field_at m position column name eb ->
    all_segments P m position column gs = Ok xs -> hold (files column) xs.
  Hypothesis Haligned : aligned m gs files.

  Definition reads_as (position column : nat) (eb : error_bound) (items : list item) : Prop :=
    exists parts, concat parts = items
      /\ Forall2 (stored_as P size latest interval l position eb) (read_segments sort None (files column)) parts.

  Lemma same_order : exists items, Permutation items l
    /\ forall position column name eb, field_at m position column name eb -> reads_as position column eb items.
  Proof.
    destruct (some_fields m Hvalid) as (c0 & others & Ec).
    destruct (field_exists m Hvalid 0 c0) as (n0 & eb0 & Hf0); [rewrite Ec; reflexivity|].
    destruct Haligned as [H1|[H1|[Ha H1]]].
    - destruct (all_stored P m size latest interval l Hstore Hvalid 0 c0 n0 eb0 Hf0 gs Hgs) as (xs & parts & E1 & E2 & E3).
      pose proof (read_all le sort Hsort _ _ (Hhold _ _ _ _ _ Hf0 E1)) as Hp.
      destruct (forall2_perm _ _ _ (Permutation_sym Hp) _ E3) as [parts' [G1 G2]].
      exists (concat parts'). split.
      { rewrite <- (concat_perm _ _ G1), E2. exact Hperm. }
      intros position column name eb Hf. exists parts'. split; [reflexivity|].
      pose proof (field_column _ _ _ _ _ Hf) as K1. pose proof (field_name _ _ _ _ _ Hf) as K2. pose proof (field_bound _ _ _ _ _ Hf) as K3.
      pose proof (field_bound _ _ _ _ _ Hf0) as K4.
      rewrite Ec in H1, K1. cbn [length] in H1. destruct others; [|discriminate H1].
      destruct position as [|position]; [|destruct position; discriminate K1]. injection K1 as <-.
      rewrite K3 in K4. injection K4 as ->. exact G2.
    - exists (flat_map segment_items gs). split; [exact Hperm|]. intros position column name eb Hf.
      destruct (all_stored P m size latest interval l Hstore Hvalid position column name eb Hf gs Hgs) as (xs & parts & E1 & E2 & E3).
      exists parts. split; [exact E2|]. rewrite (read_one sort _ _ (Hhold _ _ _ _ _ Hf E1)); [exact E3|].
      apply H1. apply (nth_error_In _ position). exact (field_column _ _ _ _ _ Hf).
    - assert (Hall : forall position column name eb, field_at m position column name eb ->
        exists parts, Permutation (concat parts) l /\ StronglySorted lt_key (concat parts)
          /\ Forall2 (stored_as P size latest interval l position eb) (read_segments sort None (files column)) parts).
      { intros position column name eb Hf.
        destruct (all_apart position column name eb Hf gs Hgs Ha) as (xs & parts & E1 & E2 & E3 & E4 & E5 & _).
        pose proof (read_all le sort Hsort _ _ (Hhold _ _ _ _ _ Hf E1)) as Hp.
        destruct (forall2_perm _ _ _ (Permutation_sym Hp) _ E3) as [parts' [G1 G2]].
        exists parts'. split; [rewrite <- (concat_perm _ _ G1), E2; exact Hperm|]. split; [|exact G2].
        apply (sorted_read position eb _ _ G2).
        - apply (read_several le sort Hsort). apply H1. apply (nth_error_In _ position). exact (field_column _ _ _ _ _ Hf).
        - rewrite Forall_forall in *. intros p Hin. apply E4. apply (Permutation_in p (Permutation_sym G1) Hin).
        - apply (fop_perm _ disjoint_sym _ _ G1 E5). }
      destruct (Hall _ _ _ _ Hf0) as (parts0 & P0 & S0 & _). exists (concat parts0). split; [exact P0|].
      intros position column name eb Hf. destruct (Hall _ _ _ _ Hf) as (parts & P1 & S1 & F1).
      exists parts. split; [|exact F1].
      apply (sorted_same lt_key lt_key_irrefl lt_key_trans _ _ S1 S0). rewrite P0. exact P1.
  Qed.

  (** * Rows *)
  Variables (items : list item).
  Hypothesis Hitems : Permutation items l.
  Hypothesis Hreads : forall position column name eb, field_at m position column name eb -> reads_as position column eb items.
  Hypothesis Hrows : Forall (is_row_of m) l.

  Definition points_at (column : nat) : list Streams.point :=
    flat_map (grid_stored P) (read_segments sort None (files column)).
  Definition no_point : Streams.point := Streams.Point 0%Z 0%Z [].
  Definition row_at (i : nat) (x : item) : data_row :=
    DataRow (time_of x) (fun name => nth (index_of name (tag_names m)) (tags_of x) EmptyString)
      (fun name => p_value (nth i (points_at (index_of name (map fst (schema m)))) no_point)).
  Fixpoint rows_from (i : nat) (k : list item) : list data_row :=
    match k with [] => [] | x :: k => row_at i x :: rows_from (S i) k end.

  Definition found (position column : nat) (eb : error_bound) (p : Streams.point) (x : item) : Prop :=
    p_time p = time_of x /\ p_tags p = tags_of x
    /\ (near eb (rounding size latest interval (length l)) (value_of position x) (from_bits (p_value p))
        \/ after_line P (files column) (tags_of x) (time_of x)).

  Lemma points_found position column name eb : field_at m position column name eb ->
    Forall2 (found position column eb) (points_at column) items.
  Proof.
    intros Hf. destruct (Hreads _ _ _ _ Hf) as (parts & Ei & F). rewrite <- Ei. clear Ei.
    destruct (all_stored P m size latest interval l Hstore Hvalid position column name eb Hf gs Hgs) as (xs & _ & E1 & _).
    pose proof (Hhold _ _ _ _ _ Hf E1) as Hh. pose proof (read_all le sort Hsort _ _ Hh) as Hp.
    unfold points_at. assert (Hin : forall x, In x (read_segments sort None (files column)) -> In x (flat_map segments_in (files column))).
    { intros x Hx. apply (held_in _ _ x Hh). apply (Permutation_in x Hp Hx). }
    clear Hp Hh E1 Hreads Hitems. revert Hin F. generalize (read_segments sort None (files column)). intros read Hin F.
    induction F as [|x part read parts Hx F IH]; [constructor|]. cbn [flat_map concat].
    apply Forall2_app; [|apply IH; intros y Hy; apply Hin; right; exact Hy].
    destruct Hx as [_ Ht _ Hpts]. specialize (Hin x (or_introl eq_refl)). clear - Hpts Ht Hin.
    induction Hpts as [|p i ps part (H1 & H2 & H3) F IH]; [constructor|].
    constructor; [|apply IH; intros j Hj; apply Ht; right; exact Hj].
    split; [exact H1|]. split; [exact H2|]. destruct H3 as [H3|(H3 & ts & vs & H4 & H5)]; [left; exact H3|].
    right. exists x, ts, vs. split; [exact Hin|]. split; [symmetry; apply Ht; left; reflexivity|]. repeat split; assumption.
  Qed.

  Lemma name_index position column name eb : field_at m position column name eb -> index_of name (map fst (schema m)) = column.
  Proof.
    intros Hf. apply index_of_nth; [apply names_unique; exact Hvalid|].
    exact (map_nth_error fst _ _ (field_name _ _ _ _ _ Hf)).
  Qed.

  Lemma rows_points position column name eb : field_at m position column name eb ->
    map (point_of m column) (rows_from 0 items) = points_at column.
  Proof.
    intros Hf. pose proof (points_found _ _ _ _ Hf) as F.
    assert (Hl : forall x, In x items -> length (tags_of x) = length (tag_names m)).
    { intros x Hx. rewrite Forall_forall in Hrows. apply Hrows. apply (Permutation_in x Hitems Hx). }
    assert (G : forall ps k before, Forall2 (found position column eb) ps k -> points_at column = before ++ ps ->
      (forall x, In x k -> length (tags_of x) = length (tag_names m)) ->
      map (point_of m column) (rows_from (length before) k) = ps).
    { clear F Hl. intros ps k. revert ps. induction k as [|x k IH]; intros ps before F E Hl.
      - inversion F. reflexivity.
      - inversion F as [|p y ps' k' (H1 & H2 & _) F']; subst. cbn [rows_from map]. f_equal.
        + unfold point_of, row_at. cbn [r_time r_field r_tag].
          pose proof (field_name _ _ _ _ _ Hf) as Hn.
          rewrite (by_index (tag_names m) (tags_of x) (tag_names_unique m Hvalid) (Hl x (or_introl eq_refl))).
          match goal with |- context [nth_error ?a ?b] => replace (nth_error a b) with (Some (name, Float32)) by (symmetry; exact Hn) end.
          rewrite (name_index _ _ _ _ Hf), E, app_nth2, Nat.sub_diag by lia. cbn [nth]. rewrite <- H1, <- H2. destruct p; reflexivity.
        + specialize (IH ps' (before ++ [p]) F').
          rewrite app_length in IH. cbn [length] in IH. rewrite Nat.add_1_r in IH. apply IH.
          * rewrite E, <- app_assoc. reflexivity.
          * intros y Hy. apply Hl. right. exact Hy. }
    exact (G (points_at column) items [] F eq_refl Hl).
  Qed.

  Lemma rows_found : Forall2 (row_for P (fun eb => near eb (rounding size latest interval (length l))) m files) (rows_from 0 items) items.
  Proof.
    assert (Hl : forall x, In x items -> length (tags_of x) = length (tag_names m)).
    { intros x Hx. rewrite Forall_forall in Hrows. apply Hrows. apply (Permutation_in x Hitems Hx). }
    assert (G : forall k before, items = before ++ k ->
      Forall2 (row_for P (fun eb => near eb (rounding size latest interval (length l))) m files) (rows_from (length before) k) k).
    { induction k as [|x k IH]; intros before E; [constructor|]. cbn [rows_from]. constructor.
      - assert (Hx : In x items) by (rewrite E; apply in_app_iff; right; left; reflexivity).
        constructor; cbn [r_time r_tag r_field row_at].
        + reflexivity.
        + apply (by_index (tag_names m) (tags_of x) (tag_names_unique m Hvalid) (Hl x Hx)).
        + intros position column name eb Hf. rewrite (name_index _ _ _ _ Hf).
          pose proof (points_found _ _ _ _ Hf) as F. rewrite E in F.
          apply Forall2_app_inv_r in F. destruct F as (p1 & p2 & F1 & F2 & Ep). rewrite Ep.
          inversion F2 as [|p y p2' k' (_ & _ & H3) F3]; subst p2 y k'.
          rewrite <- (forall2_length _ _ _ F1), app_nth2, Nat.sub_diag by lia. exact H3.
      - specialize (IH (before ++ [x])). rewrite app_length in IH. cbn [length] in IH. rewrite Nat.add_1_r in IH.
        apply IH. rewrite E, <- app_assoc. reflexivity. }
    exact (G items [] eq_refl).
  Qed.

  Lemma files_found batch_size streams : read_from sort batch_size m files streams ->
    files_contain (grid_stored P) None None batch_size m (rows_from 0 items) streams.
  Proof.
    intros Hr.
    assert (Hfield : forall k, In k (field_column_indices m) -> exists position name eb, field_at m position k name eb).
    { intros k Hk. apply In_nth_error in Hk. destruct Hk as [position Hk]. destruct (field_exists m Hvalid _ _ Hk) as (name & eb & Hf).
      exists position, name, eb. exact Hf. }
    constructor.
    - exact (all_fine _ _ _ _ _ Hr).
    - exact (all_full _ _ _ _ _ Hr).
    - intros k b x Hb Hx. destruct (in_dec Nat.eq_dec k (field_column_indices m)) as [Hk|Hk].
      2:{ rewrite (no_others _ _ _ _ _ Hr k Hk) in Hb. contradiction Hb. }
      destruct (Hfield k Hk) as (position & name & eb & Hf). destruct (Hreads _ _ _ _ Hf) as (parts & _ & F).
      assert (Hin : In x (read_segments sort None (files k))).
      { rewrite <- (all_read _ _ _ _ _ Hr k Hk). apply in_concat. exists b. split; assumption. }
      revert Hin F. generalize (read_segments sort None (files k)). intros read Hin F.
      induction F as [|y part read parts Hy F IH]; [contradiction Hin|]. destruct Hin as [->|Hin]; [|exact (IH Hin)].
      cbn [selected]. intros E. pose proof (forall2_length _ _ _ (sa_points _ _ _ _ _ _ _ _ _ Hy)) as L. rewrite E in L.
      destruct part; [|discriminate L]. apply (sa_some _ _ _ _ _ _ _ _ _ Hy). reflexivity.
    - intros k Hk. destruct (Hfield k Hk) as (position & name & eb & Hf).
      rewrite (rows_points _ _ _ _ Hf). unfold points_of. cbn [selected]. rewrite (all_read _ _ _ _ _ Hr k Hk). reflexivity.
    - exact (no_others _ _ _ _ _ Hr).
  Qed.
End Apart.
