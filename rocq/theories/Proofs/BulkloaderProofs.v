(** Proofs about the bulk loader. *)
From Coq Require Import ZArith String List Bool Lia Sorting.Permutation.
From Verif Require Import Model.Base Model.Float Model.ErrorBound Model.Segments Model.Multivariate
  Model.Bulkloader Spec.MultivariateSpec Spec.BulkloaderSpec Proofs.MultivariateProofs.
Import ListNotations.
Open Scope Z_scope.

(** ** Casts *)
Lemma cast_row_nth : forall cast cs raw r, typed_row cs raw -> cast_row cast cs raw = Some r ->
  forall c name ty, nth_error cs c = Some (name, ty) ->
    exists e e', nth_error raw c = Some e /\ nth_error r c = Some e' /\ well_typed ty e
                 /\ cast_entry cast ty e = Some e'.
Proof.
  intros cast cs raw r H. revert r. induction H as [|[n ty] e cs raw Hw Hf IH]; intros r Hr c name ty' Hc.
  { destruct c; discriminate Hc. }
  cbn [cast_row] in Hr. destruct (cast_entry cast ty e) as [e'|] eqn:Ee; [|discriminate Hr].
  destruct (cast_row cast cs raw) as [r'|]; [|discriminate Hr].
  assert (r = e' :: r') by congruence. subst r. destruct c as [|c].
  - cbn [nth_error] in *. assert (ty' = ty) by congruence. subst. exists e, e'. auto.
  - cbn [nth_error] in *. exact (IH r' eq_refl c name ty' Hc).
Qed.

Lemma type_is_cast : forall cast cs expected c, type_is (cast_columns cast cs) expected c = true ->
  exists name ty, nth_error cs c = Some (name, ty) /\ cast_type cast ty = expected
    /\ (expected = Microseconds \/ expected = Single \/ expected = View).
Proof.
  intros cast cs expected c H. unfold type_is, cast_columns in H. rewrite nth_error_map in H.
  destruct (nth_error cs c) as [[name ty]|]; [|discriminate H]. cbn [option_map fst snd] in H.
  exists name, ty. split; [reflexivity|].
  destruct expected; try discriminate H; destruct (cast_type cast ty); try discriminate H; auto.
Qed.

Lemma to_microseconds_some : forall f t e, to_microseconds f t = Some e ->
  e = Entry true (Instant (f * t)) /\ is_i64 (f * t).
Proof.
  intros f t e H. unfold to_microseconds in H. cbv zeta in H.
  destruct ((- 2 ^ 63 <=? f * t) && (f * t <? 2 ^ 63)) eqn:E; [|discriminate H].
  apply andb_true_iff in E. destruct E as [E1 E2]. apply Z.leb_le in E1. apply Z.ltb_lt in E2.
  split; [congruence|]. unfold is_i64. lia.
Qed.

Lemma cast_converts : forall cast ty e e',
  cast_type cast ty = Microseconds \/ cast_type cast ty = Single \/ cast_type cast ty = View ->
  well_typed ty e -> valid e = true -> cast_entry cast ty e = Some e' -> converts cast ty e (cell_of e').
Proof.
  intros cast ty [v x] e' Ht Hw Hv H. cbn [valid] in Hv. subst v. unfold well_typed in Hw. cbn [content] in Hw.
  destruct ty; destruct x; try contradiction; cbn [cast_entry valid] in H.
  - apply to_microseconds_some in H. destruct H as [-> _]. cbn [cell_of content]. constructor.
  - apply to_microseconds_some in H. destruct H as [-> _]. cbn [cell_of content]. constructor.
  - assert (e' = Entry true (Instant t)) by congruence. subst. constructor.
  - cbn [cast_type] in Ht. intuition discriminate.
  - assert (e' = Entry true (Number v)) by congruence. subst. constructor.
  - assert (e' = Entry true (Number v)) by congruence. subst. constructor.
  - destruct cast.
    + assert (e' = Entry true (Number (f32_of_f64 v))) by congruence. subst. now constructor.
    + cbn [cast_type] in Ht. intuition discriminate.
  - assert (e' = Entry true (Str s)) by congruence. subst. constructor.
  - cbn [cast_type] in Ht. intuition discriminate.
  - cbn [cast_type] in Ht. intuition discriminate.
Qed.

Lemma used_type : forall t cs, has_types t cs = true -> forall c, used t c ->
  exists expected, type_is cs expected c = true.
Proof.
  intros t cs H c Hu. unfold has_types in H. rewrite !andb_true_iff in H. destruct H as [[H1 H2] H3].
  rewrite forallb_forall in H1, H3. destruct Hu as [Hu|[->|Hu]]; eauto.
Qed.

Lemma cast_row_converts : forall cast t cs raw r, has_types t (cast_columns cast cs) = true ->
  typed_row cs raw -> no_null t raw -> cast_row cast cs raw = Some r ->
  row_converts cast t cs raw (map cell_of r).
Proof.
  intros cast t cs raw r Ht Hr Hn H c Hu.
  destruct (used_type _ _ Ht c Hu) as [expected He]. apply type_is_cast in He.
  destruct He as (name & ty & Hc & He & Hx).
  destruct (cast_row_nth _ _ _ _ Hr H c name ty Hc) as (e & e' & E1 & E2 & Hw & Hce).
  exists name, ty, e, (cell_of e'). split; [exact Hc|]. split; [exact E1|]. split.
  { rewrite nth_error_map, E2. reflexivity. }
  apply cast_converts; auto.
  - rewrite He. exact Hx.
  - exact (Hn c e Hu E1).
Qed.

Lemma cast_rows_converts : forall cast t cs rows casted, has_types t (cast_columns cast cs) = true ->
  Forall (typed_row cs) rows -> Forall (no_null t) rows -> cast_rows cast cs rows = Some casted ->
  Forall2 (row_converts cast t cs) rows (map (map cell_of) casted).
Proof.
  intros cast t cs rows. induction rows as [|r rows IH]; intros casted Ht Hr Hn H; cbn [cast_rows] in H.
  - assert (casted = []) by congruence. subst. constructor.
  - destruct (cast_row cast cs r) as [r'|] eqn:Er; [|discriminate H].
    destruct (cast_rows cast cs rows) as [rows'|] eqn:Es; [|discriminate H].
    assert (casted = r' :: rows') by congruence. subst. cbn [map].
    inversion Hr; inversion Hn; subst. constructor; [now apply cast_row_converts|]. now apply IH.
Qed.

(** ** Rows of the table *)
Lemma converts_kind : forall cast ty e x, converts cast ty e x ->
  match cast_type cast ty, x with
  | Microseconds, Time _ | Single, Value _ | View, Tag _ => True
  | _, _ => False
  end.
Proof. intros cast ty e x H. destruct H; subst; cbn [cast_type]; exact I. Qed.

Lemma converts_row_of : forall cast t cs raw r, has_types t (cast_columns cast cs) = true ->
  row_converts cast t cs raw r -> row_of t r.
Proof.
  intros cast t cs raw r Ht Hc. unfold has_types in Ht. rewrite !andb_true_iff in Ht.
  destruct Ht as [[H1 H2] H3]. rewrite forallb_forall in H1, H3.
  assert (Hk : forall expected c, type_is (cast_columns cast cs) expected c = true -> used t c ->
    exists x, nth_error r c = Some x
      /\ match expected, x with Microseconds, Time _ | Single, Value _ | View, Tag _ => True | _, _ => False end).
  { intros expected c He Hu. destruct (Hc c Hu) as (name & ty & e & x & E1 & E2 & E3 & Hx).
    apply type_is_cast in He. destruct He as (name' & ty' & E4 & E5 & _).
    assert (ty' = ty) by congruence. subst ty'. exists x. split; [exact E3|].
    rewrite <- E5. exact (converts_kind _ _ _ _ Hx). }
  split; [|split].
  - assert (Hu : forall c, In c (tag_column_indices t) -> used t c) by (intros; now left).
    clear - H1 Hk Hu. unfold tags_are. induction (tag_column_indices t) as [|c cs' IH].
    + exists []. reflexivity.
    + destruct IH as [tags E]; [intros; apply H1; now right|intros; apply Hu; now right|].
      destruct (Hk View c) as (x & Ex & Hx); [apply H1; now left|apply Hu; now left|].
      destruct x as [s| |]; try contradiction. exists (s :: tags). cbn [map]. rewrite Ex, E. reflexivity.
  - destruct (Hk Microseconds _ H2) as (x & Ex & Hx); [right; now left|].
    destruct x; try contradiction. eexists. exact Ex.
  - intros c Hi. destruct (Hk Single c (H3 c Hi)) as (x & Ex & Hx); [right; now right|].
    destruct x; try contradiction. eexists. exact Ex.
Qed.

(** ** The loop *)
Lemma concat_snoc : forall {A} (l : list (list A)) x, concat (l ++ [x]) = concat l ++ x.
Proof. intros. rewrite concat_app. cbn [concat]. now rewrite app_nil_r. Qed.

Section Loop.
Variables (P : platform) (lexsort : list (list cell) -> list nat) (t : table) (cast : bool) (cs : columns).
Hypothesis Hsort : sorts lexsort.

(** What the batches since the last write are. *)
Definition pending (raw : list raw_row) (current : list (list raw_row)) : Prop :=
  Forall2 (row_converts cast t cs) raw (map (map cell_of) (concat current))
  /\ (raw = [] <-> current = []).

Lemma pending_nil : pending [] [].
Proof. split; [constructor|tauto]. Qed.

Definition parts_of (parts : list (list raw_row)) (results : list (list compressed)) : Prop :=
  Forall2 (fun part compressed => exists rows,
    Forall2 (row_converts cast t cs) part rows /\ splits P t rows compressed) parts results.

Lemma clear_parts : forall ok raw current written result, has_types t (cast_columns cast cs) = true ->
  pending raw current ->
  import_and_clear P lexsort t (cast_columns cast cs) ok current written = Ok result ->
  exists parts results, concat parts = raw /\ result = written ++ concat results /\ parts_of parts results.
Proof.
  intros ok raw current written result Ht [Hp Hn] H. unfold import_and_clear in H.
  destruct current as [|b current].
  - assert (result = written) by congruence. subst. exists [], []. cbn [concat].
    split; [symmetry; now apply Hn|]. split; [now rewrite app_nil_r|constructor].
  - rewrite Ht in H.
    destruct (compress_multivariate P lexsort t (map (map cell_of) (concat (b :: current)))) as [c| |] eqn:Ec;
      try discriminate H. unfold bind in H. destruct ok; [|discriminate H].
    exists [raw], [c]. cbn [concat]. rewrite !app_nil_r. split; [reflexivity|]. split; [congruence|].
    constructor; [|constructor]. exists (map (map cell_of) (concat (b :: current))). split; [exact Hp|].
    apply (multivariate_splits P lexsort); auto.
    + clear - Hp Ht. remember (map (map cell_of) (concat (b :: current))) as rows eqn:E. clear E.
      induction Hp; constructor; eauto using converts_row_of.
    + intros E. rewrite E in Hp. inversion Hp. subst. destruct Hn as [Hn _].
      discriminate (Hn eq_refl).
Qed.

Lemma loop_parts : forall batches full oks raw current written result,
  has_types t (cast_columns cast cs) = true ->
  Forall (good_batch t cs) batches -> pending raw current ->
  import_loop P lexsort t cast cs full oks batches current written = Ok result ->
  exists rows parts results, batches = map Some rows /\ concat parts = raw ++ concat rows
    /\ result = written ++ concat results /\ parts_of parts results.
Proof.
  induction batches as [|[rows|] batches IH]; intros full oks raw current written result Ht Hg Hp H;
    cbn [import_loop] in H; [| |discriminate H].
  - destruct (clear_parts _ _ _ _ _ Ht Hp H) as (parts & results & H1 & H2 & H3).
    exists [], parts, results. cbn [map concat]. rewrite app_nil_r. auto.
  - destruct (cast_rows cast cs rows) as [casted|] eqn:Ec; [|discriminate H].
    pose proof (Forall_inv Hg) as [Hne [Hty Hnn]]. pose proof (Forall_inv_tail Hg) as Hg'.
    pose proof (cast_rows_converts _ _ _ _ _ Ht Hty Hnn Ec) as Hc.
    assert (Hp' : pending (raw ++ rows) (current ++ [casted])).
    { destruct Hp as [Hp _]. split.
      - rewrite concat_snoc, map_app. now apply Forall2_app.
      - split; intros E; [apply app_eq_nil in E; tauto|destruct current; discriminate E]. }
    destruct (hd false full).
    + destruct (import_and_clear P lexsort t (cast_columns cast cs) (hd true oks) (current ++ [casted]) written)
        as [written'| |] eqn:Ew; try discriminate H. unfold bind in H.
      destruct (clear_parts _ _ _ _ _ Ht Hp' Ew) as (parts & results & H1 & H2 & H3).
      destruct (IH _ _ [] [] _ _ Ht Hg' pending_nil H) as (rows' & parts' & results' & G1 & G2 & G3 & G4).
      exists (rows :: rows'), (parts ++ parts'), (results ++ results').
      cbn [map concat]. rewrite !concat_app, H1, G2, G1, G3, H2. cbn [app]. rewrite <- !app_assoc.
      repeat split; auto. now apply Forall2_app.
    + destruct (IH _ _ _ _ _ _ Ht Hg' Hp' H) as (rows' & parts & results & G1 & G2 & G3 & G4).
      exists (rows :: rows'), parts, results. cbn [map concat]. rewrite G2, G1, <- app_assoc. auto.
Qed.

Lemma loop_types : forall batches full oks current written result,
  has_types t (cast_columns cast cs) = false ->
  import_loop P lexsort t cast cs full oks batches current written = Ok result ->
  batches = [] /\ current = [] /\ result = written.
Proof.
  induction batches as [|[rows|] batches IH]; intros full oks current written result Ht H;
    cbn [import_loop] in H; [| |discriminate H].
  - unfold import_and_clear in H. destruct current; [|rewrite Ht in H; discriminate H].
    repeat split. congruence.
  - exfalso. destruct (cast_rows cast cs rows) as [casted|]; [|discriminate H].
    destruct (hd false full).
    + unfold import_and_clear in H. rewrite Ht in H. destruct current; discriminate H.
    + destruct (IH _ _ _ _ _ Ht H) as (_ & E & _). destruct current; discriminate E.
Qed.
End Loop.

Lemma import_sound : forall P lexsort env t cast s result, sorts lexsort ->
  Forall (good_batch t (st_columns s)) (st_batches s) ->
  import_time_series_table P lexsort env t cast s = Ok result ->
  exists batches, st_batches s = map Some batches
    /\ imported P t cast (st_columns s) batches result.
Proof.
  intros P lexsort env t cast [cs batches] result Hs Hg H. unfold import_time_series_table in H.
  cbn [st_columns st_batches] in *.
  destruct (import_loop P lexsort t cast cs (memory_full env) (writes env) batches [] []) as [w| |] eqn:E;
    try discriminate H. unfold bind in H. destruct (commits env); [|discriminate H].
  assert (w = result) by congruence. subst w.
  destruct (has_types t (cast_columns cast cs)) eqn:Ht.
  - destruct (loop_parts P lexsort t cast cs Hs batches _ _ [] [] [] result Ht Hg
                (pending_nil t cast cs) E) as (rows & parts & results & H1 & H2 & H3 & H4).
    exists rows. split; [exact H1|]. exists parts, results. auto.
  - destruct (loop_types _ _ _ _ _ _ _ _ _ _ _ Ht E) as (-> & _ & ->).
    exists []. split; [reflexivity|]. exists [], []. repeat split. constructor.
Qed.

(** ** Imports that succeed *)
Lemma to_microseconds_ok : forall f t, is_i64 (f * t) ->
  to_microseconds f t = Some (Entry true (Instant (f * t))).
Proof.
  intros f t H. unfold to_microseconds, is_i64 in *. cbv zeta.
  replace (- 2 ^ 63 <=? f * t) with true by (symmetry; apply Z.leb_le; lia).
  replace (f * t <? 2 ^ 63) with true by (symmetry; apply Z.ltb_lt; lia). reflexivity.
Qed.

Lemma cast_row_ok : forall cast cs raw, typed_row cs raw ->
  Forall (fun e => valid e = true) raw -> Forall2 (fun c e => castable (snd c) e) cs raw ->
  exists r, cast_row cast cs raw = Some r.
Proof.
  intros cast cs raw H. induction H as [|[n ty] e cs raw Hw _ IH]; intros Hv Hc.
  - now exists [].
  - inversion Hv as [|? ? Hv1 Hv2]. inversion Hc as [|? ? ? ? Hc1 Hc2]. subst.
    destruct (IH Hv2 Hc2) as [r Er]. cbn [cast_row]. rewrite Er.
    destruct e as [v x]. cbn [valid] in Hv1. subst v. cbn [snd] in *.
    unfold well_typed, castable in *. cbn [content] in *.
    destruct ty; destruct x; try contradiction; cbn [cast_entry valid];
      try (rewrite to_microseconds_ok by assumption); try (destruct cast); eexists; reflexivity.
Qed.

Lemma cast_rows_ok : forall cast cs rows, Forall (typed_row cs) rows ->
  Forall (Forall (fun e => valid e = true)) rows ->
  Forall (fun raw => Forall2 (fun c e => castable (snd c) e) cs raw) rows ->
  exists r, cast_rows cast cs rows = Some r.
Proof.
  intros cast cs rows H1. induction H1 as [|raw rows H1 _ IH]; intros H2 H3.
  - now exists [].
  - inversion H2. inversion H3. subst. destruct IH as [r Er]; auto.
    destruct (cast_row_ok cast cs raw) as [r' Er']; auto.
    cbn [cast_rows]. rewrite Er, Er'. eauto.
Qed.

Lemma ready_app : forall cs a b, ready cs (a ++ b) <-> ready cs a /\ ready cs b.
Proof. intros. unfold ready. rewrite !Forall_app. tauto. Qed.

Lemma valid_no_null : forall t rows, Forall (Forall (fun e => valid e = true)) rows -> Forall (no_null t) rows.
Proof.
  intros t rows H. induction H as [|raw rows H _ IH]; constructor; [|exact IH].
  intros c e _ He. rewrite Forall_forall in H. exact (H e (nth_error_In _ _ He)).
Qed.

Lemma ready_converts : forall cast t cs rows, has_types t (cast_columns cast cs) = true -> ready cs rows ->
  exists casted, cast_rows cast cs rows = Some casted
    /\ Forall2 (row_converts cast t cs) rows (map (map cell_of) casted).
Proof.
  intros cast t cs rows Ht (H1 & H2 & H3). destruct (cast_rows_ok cast cs rows H1 H2 H3) as [casted E].
  exists casted. split; [exact E|]. apply cast_rows_converts; auto using valid_no_null.
Qed.

Lemma forall2_nth : forall {A B} (R : A -> B -> Prop) k l, Forall2 R k l ->
  forall i a b, nth_error k i = Some a -> nth_error l i = Some b -> R a b.
Proof.
  intros A B R k l H. induction H as [|x y k l Hx _ IH]; intros [|i] a b Ha Hb; try discriminate Ha.
  - cbn [nth_error] in *. congruence.
  - cbn [nth_error] in *. eauto.
Qed.

Lemma forall2_length : forall {A B} (R : A -> B -> Prop) k l, Forall2 R k l -> length k = length l.
Proof. intros A B R k l H. induction H; cbn [length]; congruence. Qed.

Lemma converted_times : forall cast t cs raw r time, row_converts cast t cs raw r ->
  Forall2 (fun c e => castable (snd c) e) cs raw -> time_is t r time -> is_i64 time.
Proof.
  intros cast t cs raw r time Hc Hk Ht. unfold time_is in Ht.
  destruct (Hc (timestamp_column_index t)) as (name & ty & e & x & E1 & E2 & E3 & Hx); [right; now left|].
  pose proof (forall2_nth _ _ _ Hk _ _ _ E1 E2) as Hca. cbn [snd] in Hca.
  rewrite Ht in E3. assert (x = Time time) by congruence. subst x.
  destruct ty; inversion Hx; subst; exact Hca.
Qed.

Lemma ordpairs_app_l : forall {A} (R : A -> A -> Prop) k l, ForallOrdPairs R (k ++ l) -> ForallOrdPairs R k.
Proof.
  intros A R k. induction k as [|a k IH]; intros l H; [constructor|]. cbn [app] in H. inversion H as [|? ? H1 H2]; subst.
  apply Forall_app in H1. constructor; [tauto|eauto].
Qed.
Lemma ordpairs_app_r : forall {A} (R : A -> A -> Prop) k l, ForallOrdPairs R (k ++ l) -> ForallOrdPairs R l.
Proof.
  intros A R k. induction k as [|a k IH]; intros l H; [exact H|]. cbn [app] in H. inversion H; subst. eauto.
Qed.

Section Complete.
Variables (P : platform) (lexsort : list (list cell) -> list nat) (t : table) (cast : bool) (cs : columns).
Hypothesis Hsort : sorts lexsort.
Hypothesis Ht : has_types t (cast_columns cast cs) = true.
Hypothesis Hb : bounded t.

Definition distinct_raw (raw : list raw_row) : Prop :=
  forall rows, Forall2 (row_converts cast t cs) raw rows -> distinct_rows t rows.

Lemma clear_ok : forall raw current written, pending t cast cs raw current -> ready cs raw ->
  distinct_raw raw -> Z.of_nat (length raw) < 2 ^ 63 ->
  exists result, import_and_clear P lexsort t (cast_columns cast cs) true current written = Ok result.
Proof.
  intros raw current written [Hp Hn] (_ & _ & Hk) Hd Hl. unfold import_and_clear.
  destruct current as [|b current]; [now exists written|]. rewrite Ht.
  specialize (Hd _ Hp).
  destruct (multivariate_ok P lexsort t (map (map cell_of) (concat (b :: current)))) as (c & E & _); auto.
  - clear - Hp Ht. remember (map (map cell_of) (concat (b :: current))) as rows eqn:E. clear E.
    induction Hp; constructor; eauto using converts_row_of.
  - intros E. rewrite E in Hp. inversion Hp. subst. destruct Hn as [Hn _]. discriminate (Hn eq_refl).
  - clear - Hp Hk. remember (map (map cell_of) (concat (b :: current))) as rows eqn:E. clear E.
    induction Hp as [|x y k l Hx _ IH]; constructor.
    + inversion Hk; subst. intros time H. eauto using converted_times.
    + inversion Hk; subst. auto.
  - rewrite <- (forall2_length _ _ _ Hp). exact Hl.
  - rewrite E. unfold bind. eauto.
Qed.

Lemma distinct_app : forall a b, ready cs a -> ready cs b -> distinct_raw (a ++ b) ->
  distinct_raw a /\ distinct_raw b.
Proof.
  intros a b Ha Hb' H. destruct (ready_converts cast t cs a Ht Ha) as (ca & _ & Hca).
  destruct (ready_converts cast t cs b Ht Hb') as (cb & _ & Hcb). split.
  - intros rows Hr. specialize (H _ (Forall2_app Hr Hcb)). exact (ordpairs_app_l _ _ _ H).
  - intros rows Hr. specialize (H _ (Forall2_app Hca Hr)). exact (ordpairs_app_r _ _ _ H).
Qed.

Lemma loop_ok : forall batches full oks raw current written, Forall (fun b => b = true) oks ->
  Forall (fun rows => rows <> []) batches -> pending t cast cs raw current ->
  ready cs (raw ++ concat batches) -> distinct_raw (raw ++ concat batches) ->
  Z.of_nat (length (raw ++ concat batches)) < 2 ^ 63 ->
  exists result, import_loop P lexsort t cast cs full oks (map Some batches) current written = Ok result.
Proof.
  assert (Hhd : forall oks, Forall (fun b => b = true) oks -> hd true oks = true /\ Forall (fun b => b = true) (tl oks)).
  { intros [|o oks] H; cbn [hd tl]; [auto|]. inversion H; auto. }
  induction batches as [|rows batches IH]; intros full oks raw current written Ho Hne Hp Hr Hd Hl.
  - cbn [map import_loop concat] in *. rewrite app_nil_r in *. rewrite (proj1 (Hhd oks Ho)).
    now apply (clear_ok raw).
  - cbn [map import_loop concat] in *. rewrite app_assoc in *.
    assert (Hrows : ready cs rows) by (apply ready_app in Hr; destruct Hr as [Hr _]; apply ready_app in Hr; tauto).
    destruct (ready_converts cast t cs rows Ht Hrows) as (casted & Ec & Hc). rewrite Ec.
    assert (Hp' : pending t cast cs (raw ++ rows) (current ++ [casted])).
    { destruct Hp as [Hp _]. split.
      - rewrite concat_snoc, map_app. now apply Forall2_app.
      - pose proof (Forall_inv Hne) as Hn. cbv beta in Hn.
        split; intros E; [apply app_eq_nil in E; tauto|destruct current; discriminate E]. }
    pose proof (Forall_inv_tail Hne) as Hne'.
    destruct (hd false full).
    + rewrite (proj1 (Hhd oks Ho)). pose proof Hr as Hr'. apply ready_app in Hr'. destruct Hr' as [Hr1 Hr2].
      destruct (distinct_app _ _ Hr1 Hr2 Hd) as [Hd1 Hd2].
      destruct (clear_ok (raw ++ rows) (current ++ [casted]) written Hp' Hr1 Hd1) as [w Ew].
      { rewrite !app_length in *. lia. }
      rewrite Ew. unfold bind. apply (IH _ _ []); auto.
      * exact (proj2 (Hhd oks Ho)).
      * apply pending_nil.
      * cbn [app]. rewrite !app_length in *. lia.
    + apply (IH _ _ (raw ++ rows)); auto.
Qed.
End Complete.

Lemma right_has_types : forall cast t cs, right_types cast t cs -> has_types t (cast_columns cast cs) = true.
Proof.
  intros cast t cs (H1 & (n & ty & Ec & Ht) & H3). unfold has_types. rewrite !andb_true_iff, !forallb_forall.
  unfold type_is, cast_columns. repeat split.
  - intros c Hc. destruct (H1 c Hc) as [name E]. rewrite nth_error_map, E. reflexivity.
  - rewrite nth_error_map, Ec. destruct Ht as [->|[->| ->]]; reflexivity.
  - intros c Hc. destruct (H3 c Hc) as (name & ty' & E & Hty). rewrite nth_error_map, E.
    destruct Hty as [->|[->|[-> ->]]]; reflexivity.
Qed.

Lemma import_completes : forall P lexsort env t cast cs batches, sorts lexsort -> bounded t ->
  right_types cast t cs ->
  Forall (fun rows => rows <> []) batches -> ready cs (concat batches) ->
  (forall rows, Forall2 (row_converts cast t cs) (concat batches) rows -> distinct_rows t rows) ->
  Z.of_nat (length (concat batches)) < 2 ^ 63 ->
  Forall (fun b => b = true) (writes env) -> commits env = true ->
  exists result, import_time_series_table P lexsort env t cast (Stream cs (map Some batches)) = Ok result.
Proof.
  intros P lexsort env t cast cs batches Hs Hb Ht Hne Hr Hd Hl Hw Hc. apply right_has_types in Ht.
  unfold import_time_series_table. cbn [st_columns st_batches].
  destruct (loop_ok P lexsort t cast cs Hs Ht Hb batches (memory_full env) (writes env) [] [] [] Hw Hne
              (pending_nil t cast cs) Hr Hd Hl) as [result E].
  rewrite E. unfold bind. rewrite Hc. eauto.
Qed.

(** ** Files that are partitioned by a column of the table *)
Lemma partitioned_types : forall t cast cs c name, In c (tag_column_indices t) ->
  nth_error cs c = Some (name, Utf8) -> has_types t (cast_columns cast cs) = false.
Proof.
  intros t cast cs c name Hi Hc. unfold has_types.
  assert (E : forallb (type_is (cast_columns cast cs) View) (tag_column_indices t) = false).
  { destruct (forallb _ _) eqn:E; [|reflexivity]. rewrite forallb_forall in E. specialize (E c Hi).
    unfold type_is, cast_columns in E. rewrite nth_error_map, Hc in E. discriminate E. }
  rewrite E. reflexivity.
Qed.

Lemma partitioned_fails : forall P lexsort env t cast s c name, In c (tag_column_indices t) ->
  nth_error (st_columns s) c = Some (name, Utf8) -> st_batches s <> [] ->
  forall result, import_time_series_table P lexsort env t cast s <> Ok result.
Proof.
  intros P lexsort env t cast [cs batches] c name Hi Hc Hn result H. unfold import_time_series_table in H.
  cbn [st_columns st_batches] in *.
  destruct (import_loop P lexsort t cast cs (memory_full env) (writes env) batches [] []) as [w| |] eqn:E;
    try discriminate H.
  destruct (loop_types _ _ _ _ _ _ _ _ _ _ _ (partitioned_types t cast cs c name Hi Hc) E) as (E' & _).
  contradiction.
Qed.

(** ** Folders *)
Lemma lookup_replace : forall {A} name (a : A) l n, lookup n (replace name a l)
  = if String.eqb name n then match lookup n l with Some _ => Some a | None => None end else lookup n l.
Proof.
  intros A name a l n. induction l as [|[m b] l IH]; cbn [replace lookup].
  - now destruct (String.eqb name n).
  - destruct (String.eqb_spec m name) as [->|Hm]; cbn [lookup].
    + destruct (String.eqb_spec name n); reflexivity.
    + rewrite IH. destruct (String.eqb_spec m n) as [->|]; [|reflexivity].
      destruct (String.eqb_spec name n); [congruence|reflexivity].
Qed.

Lemma normal_loop_rows : forall s cs batches oks written result,
  normal_loop s cs oks batches written = Ok result ->
  exists rows, batches = map Some rows /\ result = written ++ concat rows
    /\ (rows <> [] -> accepts s cs = true).
Proof.
  intros s cs batches. induction batches as [|[rows|] batches IH]; intros oks written result H;
    cbn [normal_loop] in H; [| |discriminate H].
  - exists []. cbn [map concat]. rewrite app_nil_r. repeat split; congruence.
  - destruct (accepts s cs && hd true oks)%bool eqn:E; [|discriminate H].
    apply andb_true_iff in E. destruct (IH _ _ _ H) as (rest & -> & -> & _).
    exists (rows :: rest). cbn [map concat]. rewrite app_assoc. repeat split. tauto.
Qed.

Lemma import_normal : forall P lexsort env f name cast input cs old,
  lookup name f = Some (Normal cs old) ->
  match import P lexsort env (create_data_folder f) name cast input with
  | (Ok _, f') => exists batches, st_batches input = map Some batches
      /\ lookup name f' = Some (Normal cs (old ++ concat batches))
      /\ forall other, other <> name -> lookup other f' = lookup other f
  | (_, f') => f' = f
  end.
Proof.
  intros P lexsort env f name cast input cs old Hf. unfold import, create_data_folder, registered_metadata.
  cbn [registered lookup tables]. destruct cast; [reflexivity|]. rewrite Hf. unfold import_normal_table.
  destruct (normal_loop (Normal cs old) (st_columns input) (writes env) (st_batches input) []) as [rows| |] eqn:E;
    cbn [bind]; try reflexivity.
  destruct (commits env); [|reflexivity].
  destruct (normal_loop_rows _ _ _ _ _ _ E) as (batches & E1 & E2 & _). cbn [app] in E2. subst rows.
  exists batches. split; [exact E1|]. cbn [append]. split.
  - rewrite lookup_replace, String.eqb_refl, Hf. reflexivity.
  - intros other Ho. rewrite lookup_replace. destruct (String.eqb_spec name other); [congruence|reflexivity].
Qed.

Lemma import_normal_completes : forall P lexsort env f name cs old input batches,
  lookup name f = Some (Normal cs old) -> st_batches input = map Some batches ->
  Forall (fun b => b = true) (writes env) -> commits env = true ->
  fst (import P lexsort env (create_data_folder f) name false input) = Ok tt.
Proof.
  intros P lexsort env f name cs old [ics ibs] batches Hf Hb Hw Hc. unfold import, create_data_folder, registered_metadata.
  cbn [registered lookup tables st_batches] in *. rewrite Hf. unfold import_normal_table. cbn [st_columns st_batches].
  rewrite Hb.
  assert (E : forall oks written, Forall (fun b => b = true) oks ->
    exists rows, normal_loop (Normal cs old) ics oks (map Some batches) written = Ok rows).
  { clear. induction batches as [|b batches IH]; intros oks written H; cbn [map normal_loop]; [eauto|].
    cbn [accepts]. destruct oks as [|o oks]; cbn [hd tl andb].
    - now apply IH.
    - rewrite (Forall_inv H). apply IH. exact (Forall_inv_tail H). }
  destruct (E (writes env) [] Hw) as [rows Er]. rewrite Er. cbn [bind]. rewrite Hc. reflexivity.
Qed.

Lemma import_series_fails : forall P lexsort env f name cast input t segments rows,
  lookup name f = Some (Series t segments rows) ->
  st_batches input <> [] -> ~ In field_column (map fst (st_columns input)) ->
  import P lexsort env (create_data_folder f) name cast input = (Err, f).
Proof.
  intros P lexsort env f name cast [cs batches] t segments rows Hf Hb Hc. unfold import, create_data_folder, registered_metadata.
  cbn [registered lookup tables st_batches st_columns] in *. destruct cast; [reflexivity|]. rewrite Hf.
  unfold import_normal_table. cbn [st_columns st_batches].
  assert (Ha : accepts (Series t segments rows) cs = false).
  { cbn [accepts]. destruct (existsb _ _) eqn:E; [|reflexivity]. apply existsb_exists in E.
    destruct E as (c & Hi & E). apply String.eqb_eq in E. exfalso. apply Hc. rewrite <- E. now apply in_map. }
  destruct batches as [|[b|] batches]; [congruence| |reflexivity]. cbn [normal_loop]. rewrite Ha. reflexivity.
Qed.

Lemma export_fails : forall query env f name,
  fst (export query env (create_data_folder f) name) = Err
  /\ (snd (export query env (create_data_folder f) name) = None
      \/ snd (export query env (create_data_folder f) name) = Some []).
Proof.
  intros query env f name. unfold export, create_data_folder, registered_metadata. cbn [registered lookup tables].
  destruct (lookup name f) as [[t s r|cs r]|]; cbn [fst snd]; auto.
Qed.

Lemma failure_changes_nothing : forall P lexsort env f name cast input,
  fst (import P lexsort env f name cast input) <> Ok tt ->
  snd (import P lexsort env f name cast input) = tables f.
Proof.
  intros P lexsort env f name cast input. unfold import.
  destruct (registered_metadata f name) as [t|].
  - destruct (lookup name (tables f)) as [[? ? ?|]|]; auto.
    destruct (import_time_series_table P lexsort env t cast input); cbn [fst snd]; congruence.
  - destruct cast; auto. destruct (lookup name (tables f)) as [s|]; auto.
    destruct (import_normal_table env s input); cbn [fst snd]; congruence.
Qed.

(** ** Tables that are registered. *)

Lemma lookup_replace_same : forall A name (a : A) l, lookup name l <> None ->
  lookup name (replace name a l) = Some a.
Proof.
  intros A name a l. induction l as [|(n, b) l IH]; cbn [lookup replace]; intros H; [congruence|].
  destruct (String.eqb n name) eqn:E; cbn [lookup]; rewrite E; [reflexivity|now apply IH].
Qed.
Lemma lookup_replace_other : forall A name other (a : A) l, other <> name ->
  lookup other (replace name a l) = lookup other l.
Proof.
  intros A name other a l N. induction l as [|(n, b) l IH]; cbn [lookup replace]; [reflexivity|].
  destruct (String.eqb n name) eqn:E; cbn [lookup]; [|now rewrite IH].
  destruct (String.eqb n other) eqn:E'; [|reflexivity]. apply String.eqb_eq in E, E'. congruence.
Qed.

Lemma import_registered : forall P lexsort env f name cast input t t' segments rows,
  lookup name (registered f) = Some (Some t) -> lookup name (tables f) = Some (Series t' segments rows) ->
  match import P lexsort env f name cast input with
  | (Ok _, f') => exists written, import_time_series_table P lexsort env t cast input = Ok written
      /\ lookup name f' = Some (Series t (segments ++ written) rows)
      /\ forall other, other <> name -> lookup other f' = lookup other (tables f)
  | (_, f') => f' = tables f
  end.
Proof.
  intros P lexsort env f name cast input t t' segments rows Hr Ht. unfold import, registered_metadata.
  rewrite Hr, Ht. destruct (import_time_series_table P lexsort env t cast input) as [written| |]; try reflexivity.
  exists written. split; [reflexivity|]. split.
  - apply lookup_replace_same. congruence.
  - intros other N. now apply lookup_replace_other.
Qed.

(** ** Nulls in columns that are cast. *)

Definition is_cast (cast : bool) (ty : column_type) : Prop :=
  ty = Seconds \/ ty = Milliseconds \/ ty = Half \/ ty = Double /\ cast = true.

Lemma cast_entry_valid : forall cast ty e e', is_cast cast ty -> cast_entry cast ty e = Some e' -> valid e = true.
Proof.
  intros cast ty [[|] c] e' H E; [reflexivity|]. destruct H as [-> |[-> |[-> |(-> & ->)]]]; discriminate.
Qed.

Lemma cast_row_valid : forall cast cs r r', cast_row cast cs r = Some r' -> forall c name ty e,
  nth_error cs c = Some (name, ty) -> is_cast cast ty -> nth_error r c = Some e -> valid e = true.
Proof.
  induction cs as [|(n, y) cs IH]; intros r r' H c name ty e Hc Hk He; [destruct c; discriminate|].
  destruct r as [|x r]; [destruct c; discriminate|]. cbn [cast_row] in H.
  destruct (cast_entry cast y x) as [x'|] eqn:E; [|discriminate].
  destruct (cast_row cast cs r) as [r1|] eqn:F; [|discriminate].
  destruct c as [|c]; cbn [nth_error] in Hc, He.
  - injection Hc as -> ->. injection He as ->. exact (cast_entry_valid _ _ _ _ Hk E).
  - exact (IH r r1 F c name ty e Hc Hk He).
Qed.

Lemma cast_rows_valid : forall cast cs rows rows', cast_rows cast cs rows = Some rows' ->
  forall r c name ty e, In r rows -> nth_error cs c = Some (name, ty) -> is_cast cast ty ->
  nth_error r c = Some e -> valid e = true.
Proof.
  induction rows as [|x rows IH]; intros rows' H r c name ty e Hr Hc Hk He; [destruct Hr|].
  cbn [cast_rows] in H. destruct (cast_row cast cs x) as [x'|] eqn:E; [|discriminate].
  destruct (cast_rows cast cs rows) as [rows1|] eqn:F; [|discriminate].
  destruct Hr as [<-|Hr]; [exact (cast_row_valid cast cs x x' E c name ty e Hc Hk He)|].
  exact (IH rows1 eq_refl r c name ty e Hr Hc Hk He).
Qed.

Lemma import_loop_valid : forall P lexsort t cast cs batches full successes current written result,
  import_loop P lexsort t cast cs full successes batches current written = Ok result ->
  forall rows r c name ty e, In (Some rows) batches -> In r rows -> nth_error cs c = Some (name, ty) ->
  is_cast cast ty -> nth_error r c = Some e -> valid e = true.
Proof.
  intros P lexsort t cast cs. induction batches as [|b batches IH];
    intros full successes current written result H rows r c name ty e Hb Hr Hc Hk He; [destruct Hb|].
  cbn [import_loop] in H. destruct b as [b|]; [|discriminate].
  destruct (cast_rows cast cs b) as [b'|] eqn:E; [|discriminate].
  assert (X : exists full successes current written,
    import_loop P lexsort t cast cs full successes batches current written = Ok result).
  { destruct (hd false full); [|now do 4 eexists; exact H].
    destruct (import_and_clear _ _ _ _ _ _ _) as [w| |]; try discriminate. do 4 eexists. exact H. }
  destruct X as (f & su & cu & w & X). destruct Hb as [Hb|Hb].
  - injection Hb as ->. exact (cast_rows_valid cast cs rows b' E r c name ty e Hr Hc Hk He).
  - exact (IH f su cu w result X rows r c name ty e Hb Hr Hc Hk He).
Qed.

Lemma import_valid : forall P lexsort env t cast s result,
  import_time_series_table P lexsort env t cast s = Ok result ->
  forall rows r c name ty e, In (Some rows) (st_batches s) -> In r rows ->
  nth_error (st_columns s) c = Some (name, ty) ->
  ty = Seconds \/ ty = Milliseconds \/ ty = Half \/ ty = Double /\ cast = true ->
  nth_error r c = Some e -> valid e = true.
Proof.
  intros P lexsort env t cast s result H rows r c name ty e. unfold import_time_series_table in H.
  destruct (import_loop _ _ _ _ _ _ _ _ _ _) as [w| |] eqn:E; try discriminate.
  exact (import_loop_valid _ _ _ _ _ _ _ _ _ _ _ E rows r c name ty e).
Qed.
