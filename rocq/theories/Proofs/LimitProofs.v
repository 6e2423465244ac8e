(** Joining fields with different numbers of data points, and reading segments with a limit. *)
From Coq Require Import ZArith Bool String List Lia Permutation.
From Verif Require Import Model.Base Model.Streams Model.DataSource Spec.StreamsSpec
  Proofs.GridStreamProofs Proofs.JoinStreamProofs.
Import ListNotations.
Open Scope nat_scope.
Open Scope list_scope.

Lemma shortest_le : forall A (lists : list (list A)) l, In l lists -> shortest lists <= length l.
Proof.
  intros A lists l. induction lists as [|a lists IH]; intros H; [contradiction|].
  cbn [shortest]. destruct lists as [|b lists].
  - destruct H as [->|[]]. lia.
  - destruct H as [->|H]; [lia|]. specialize (IH H). lia.
Qed.

Lemma shortest_ge : forall A (lists : list (list A)) n, lists <> [] ->
  (forall l, In l lists -> n <= length l) -> n <= shortest lists.
Proof.
  intros A lists n. induction lists as [|a lists IH]; intros Hne H; [congruence|].
  cbn [shortest]. destruct lists as [|b lists]; [apply H; now left|].
  apply Nat.min_glb; [apply H; now left|]. apply IH; [discriminate|].
  intros l Hl. apply H. now right.
Qed.

Lemma shortest_skipn : forall A n (lists : list (list A)),
  shortest (map (skipn n) lists) = shortest lists - n.
Proof.
  intros A n lists. induction lists as [|a lists IH]; [reflexivity|].
  destruct lists as [|b lists]; [apply skipn_length|].
  change (shortest (map (skipn n) (a :: b :: lists)))
    with (Nat.min (length (skipn n a)) (shortest (map (skipn n) (b :: lists)))).
  change (shortest (a :: b :: lists)) with (Nat.min (length a) (shortest (b :: lists))).
  rewrite IH, skipn_length. lia.
Qed.

Lemma shortest_firstn : forall A n (lists : list (list A)), lists <> [] ->
  shortest (map (firstn n) lists) = Nat.min n (shortest lists).
Proof.
  intros A n lists. induction lists as [|a lists IH]; intros Hne; [congruence|].
  destruct lists as [|b lists]; [apply firstn_length|].
  change (shortest (map (firstn n) (a :: b :: lists)))
    with (Nat.min (length (firstn n a)) (shortest (map (firstn n) (b :: lists)))).
  change (shortest (a :: b :: lists)) with (Nat.min (length a) (shortest (b :: lists))).
  rewrite IH, firstn_length by discriminate. lia.
Qed.

Lemma fold_smallest : forall (batches : list (list point)) n,
  batches <> [] -> shortest batches <= n ->
  fold_right (fun b m => Nat.min (length b) m) n batches = shortest batches.
Proof.
  induction batches as [|a batches IH]; intros n Hne H; [congruence|].
  destruct batches as [|b batches].
  - cbn in *. lia.
  - change (shortest (a :: b :: batches)) with (Nat.min (length a) (shortest (b :: batches))) in *.
    cbn [fold_right] in *.
    destruct (Nat.le_gt_cases (shortest (b :: batches)) n) as [Hle|Hgt].
    + rewrite (IH n) by (discriminate || exact Hle). reflexivity.
    + assert (Ha : length a <= n) by lia.
      assert (Hge : n <= fold_right (fun b m => Nat.min (length b) m) n (b :: batches)).
      { clear - Hgt. revert Hgt. generalize (b :: batches). intros l H.
        assert (G : forall x, In x l -> n <= length x).
        { intros x Hx. apply shortest_le in Hx. lia. }
        clear H. induction l as [|x l IH]; cbn [fold_right]; [lia|].
        apply Nat.min_glb; [apply G; now left|]. apply IH. intros y Hy. apply G. now right. }
      cbn [fold_right] in Hge. lia.
Qed.

Lemma set_to_smallest_shortest : forall batches,
  set_to_smallest batches = map (firstn (shortest batches)) batches.
Proof.
  intros batches. unfold set_to_smallest. destruct batches as [|first batches]; [reflexivity|].
  destruct (forallb (fun b => length b =? length first) (first :: batches)) eqn:E.
  - rewrite forallb_forall in E.
    rewrite <- (map_id (first :: batches)) at 1. apply map_ext_in. intros b Hb. symmetry.
    apply firstn_all2. apply E in Hb. apply Nat.eqb_eq in Hb. rewrite Hb.
    apply shortest_ge; [discriminate|]. intros l Hl. apply E in Hl. apply Nat.eqb_eq in Hl. lia.
  - rewrite fold_smallest; [reflexivity|discriminate|]. apply shortest_le. now left.
Qed.

Lemma firstn_skipn_comm' : forall A m n (l : list A),
  firstn m (skipn n l) = skipn n (firstn (n + m) l).
Proof.
  intros A m n. induction n as [|n IH]; intros l; [reflexivity|].
  destruct l as [|a l]; [cbn [skipn]; now rewrite !firstn_nil|]. cbn [skipn firstn plus]. apply IH.
Qed.

Section Join.
  Context {I : Type}.
  Variable poll_input : I -> poll (list point) * I.
  Variable order : list column_type.
  Variable tags : list string.
  Variable size : nat.
  Variable R : I -> list point -> Prop.
  Variable mu : I -> nat.
  Hypothesis HR : forall i rest, R i rest ->
    let (p, i') := poll_input i in
    match p with
    | Pending => R i' rest /\ mu i' < mu i
    | Batch b => b = firstn size rest /\ R i' (skipn size rest) /\ mu i' < mu i
    | Finished => rest = [] /\ R i' [] /\ mu i' <= mu i
    | Failed _ => False
    end.

  Definition rows_of (rests : list (list point)) : list (list cell) :=
    expected order tags (firstn (shortest rests) (hd [] rests))
      (map (firstn (shortest rests)) rests).

  Lemma rows_step : forall rests, rests <> [] ->
    rows_of rests
    = append_columns
        (expected order tags (firstn (shortest (map (firstn size) rests)) (firstn size (hd [] rests)))
           (map (firstn (shortest (map (firstn size) rests))) (map (firstn size) rests)))
        (rows_of (map (skipn size) rests)).
  Proof.
    intros rests Hne. unfold rows_of.
    rewrite (expected_split size). f_equal.
    - f_equal.
      + rewrite shortest_firstn by exact Hne. rewrite !firstn_firstn. f_equal. lia.
      + rewrite !map_map. apply map_ext. intros r.
        rewrite shortest_firstn by exact Hne. rewrite !firstn_firstn. f_equal. lia.
    - rewrite shortest_skipn.
      rewrite (hd_map _ (skipn size)) by apply skipn_nil.
      destruct (Nat.le_gt_cases size (shortest rests)) as [H|H].
      + f_equal.
        * rewrite firstn_skipn_comm'. repeat f_equal. lia.
        * rewrite !map_map. apply map_ext. intros r.
          rewrite firstn_skipn_comm'. repeat f_equal. lia.
      + replace (shortest rests - size) with 0 by lia. cbn [firstn].
        f_equal.
        * apply skipn_all2. rewrite firstn_length. lia.
        * rewrite !map_map. apply map_ext. intros r. apply skipn_all2. rewrite firstn_length. lia.
  Qed.

  Lemma consume_shortest : forall n s rests,
    order_fits order tags (length rests) -> 0 < length rests ->
    slots size R (inputs s) (batches s) rests -> some_unread (batches s) ->
    exists bs e, consume (join_poll poll_input order tags) n s = Ok (bs, e)
      /\ prefix_columns (all_columns (length order) bs) (rows_of rests)
      /\ (e = Running \/ e = Done)
      /\ (e = Done -> all_columns (length order) bs = rows_of rests)
      /\ (total mu (inputs s) < n -> e = Done).
  Proof.
    induction n as [|n IH]; intros s rests Ho Hn Hs Hu; cbn [consume].
    - exists [], Running. split; [reflexivity|]. split.
      + cbn [all_columns fold_right]. unfold rows_of.
        rewrite <- (expected_width order tags (firstn (shortest rests) (hd [] rests))
                      (map (firstn (shortest rests)) rests)).
        apply prefix_nil.
      + split; [left; reflexivity|]. split; [discriminate|lia].
    - unfold join_poll at 1. assert (P := poll_all_spec poll_input size R mu HR _ _ _ Hs).
      destruct (poll_all poll_input (inputs s) (batches s)) as [[inputs' batches'] reason].
      destruct P as (Hs' & Ht & P).
      destruct reason as [[|b|e|]|]; cbn [bind].
      + destruct P as [Hu' Ht'].
        destruct (IH (JoinStream inputs' batches') rests Ho Hn Hs' Hu')
          as (bs & e & E & Hp & He & Hd & Hl).
        exists bs, e. split; [exact E|]. split; [exact Hp|]. split; [exact He|].
        split; [exact Hd|]. intros H. apply Hl. cbn [inputs]. lia.
      + contradiction.
      + contradiction.
      + destruct P as (r & Hr & Er). subst r.
        assert (E0 : shortest rests = 0) by (apply shortest_le in Hr; cbn [length] in Hr; lia).
        assert (En : rows_of rests = repeat [] (length order)).
        { unfold rows_of. rewrite E0. cbn [firstn]. apply expected_nil. intros f Hf.
          apply in_map_iff in Hf. destruct Hf as (g & <- & _). reflexivity. }
        exists [], Done. rewrite En. split; [reflexivity|]. split.
        * cbn [all_columns fold_right].
          rewrite <- (repeat_length (@nil cell) (length order)) at 1. apply prefix_nil.
        * split; [right; reflexivity|]. split; [reflexivity|reflexivity].
      + destruct P as (Hread & Hs'' & Hdec). rewrite Hread.
        rewrite set_to_smallest_shortest.
        destruct Ho as (Hne & Hf & Htags).
        assert (Hr0 : rests <> []) by (destruct rests; [cbn [length] in Hn; lia|discriminate]).
        assert (Ej : sorted_join order tags
                       (map (firstn (shortest (map (firstn size) rests))) (map (firstn size) rests))
                     = Ok (expected order tags
                             (firstn (shortest (map (firstn size) rests)) (firstn size (hd [] rests)))
                             (map (firstn (shortest (map (firstn size) rests)))
                                (map (firstn size) rests)))).
        { generalize (shortest (map (firstn size) rests)). intros k.
          unfold sorted_join. destruct rests as [|r rests]; [congruence|].
          cbn [map hd]. destruct order as [|c o]; [congruence|].
          rewrite join_columns_ok; [reflexivity| |exact Htags].
          cbn [length map] in *. rewrite !map_length. exact Hf. }
        rewrite Ej. cbn [bind].
        destruct (IH (JoinStream inputs' (repeat None (length batches'))) (map (skipn size) rests))
          as (bs & e & E & Hp & He & Hd & Hl).
        * split; [exact Hne|]. rewrite map_length. split; assumption.
        * rewrite map_length. exact Hn.
        * exact Hs''.
        * unfold some_unread. cbn [batches].
          assert (Hlen : length batches' = length rests).
          { clear -Hs'. induction Hs'; [reflexivity|]. cbn [length]. f_equal. assumption. }
          destruct batches' as [|b' batches']; [cbn [length] in Hlen; lia|left; reflexivity].
        * rewrite E. cbn [bind]. rewrite (rows_step rests Hr0).
          eexists _, e. split; [reflexivity|]. cbn [all_columns fold_right].
          fold (all_columns (length order) bs).
          split; [|split; [exact He|split]].
          -- apply prefix_append; [|exact Hp]. apply prefix_length in Hp.
             rewrite Hp. unfold rows_of. rewrite !expected_width. reflexivity.
          -- intros He'. rewrite (Hd He'). reflexivity.
          -- intros H. apply Hl. cbn [inputs]. specialize (Hdec Hu). lia.
  Qed.
End Join.

Lemma join_shortest :
  forall (S : Type) (grid : S -> list point) predicate limit size order tags streams,
  0 < size -> limit <> Some 0 -> streams <> [] -> Forall fine streams ->
  (forall i, In i streams ->
     full (match limit with Some l => Nat.min l size | None => size end) (batches_of i)) ->
  (forall i b s, In i streams -> In b (batches_of i) -> In s b ->
     selected predicate (grid s) <> []) ->
  order_fits order tags (length streams) ->
  let points := map (points_of grid predicate) streams in
  let rows := map (firstn (shortest points)) points in
  forall n, exists bs e,
    consume (join_poll (grid_poll grid predicate) order tags) n
      (join_stream_new (map (fun i => grid_stream_new limit i size) streams)) = Ok (bs, e)
    /\ prefix_columns (all_columns (length order) bs) (expected order tags (hd [] rows) rows)
    /\ (e = Running \/ e = Done)
    /\ (e = Done -> all_columns (length order) bs = expected order tags (hd [] rows) rows)
    /\ (list_sum (map (fun i => length i + length (points_of grid predicate i)) streams) < n ->
        e = Done).
Proof.
  intros S grid predicate limit size order tags streams Hsize Hlimit Hne Hf Hfull Hseg Ho
    points rows n.
  set (size' := match limit with Some l => Nat.min l size | None => size end) in *.
  assert (Hsize' : 0 < size') by (subst size'; destruct limit as [[|l]|]; [congruence|lia|lia]).
  assert (Hlen : length points = length streams) by apply map_length.
  assert (Hpos : 0 < length streams) by (destruct streams; [congruence|cbn [length]; lia]).
  assert (Hrows : expected order tags (hd [] rows) rows = rows_of order tags points).
  { unfold rows_of, rows. rewrite (hd_map _ (firstn (shortest points))) by apply firstn_nil.
    reflexivity. }
  destruct (consume_shortest (grid_poll grid predicate) order tags size'
              (chunked grid predicate size')
              (measure grid predicate) (chunked_poll grid predicate size' Hsize') n
              (join_stream_new (map (fun i => grid_stream_new limit i size) streams)) points)
    as (bs & e & E & Hp & He & Hd & Hl).
  - rewrite Hlen. exact Ho.
  - lia.
  - clear rows Hrows. subst points. cbn [join_stream_new inputs batches]. rewrite map_length.
    clear Hpos Hlen Ho Hne.
    induction streams as [|i streams IH]; cbn [map repeat length]; constructor.
    + apply Forall_cons_iff in Hf. destruct Hf as [Hf _].
      split; [apply new_sane|]. split; [exact Hf|]. split; [reflexivity|]. split; [reflexivity|].
      split; [apply Hfull; left; reflexivity|].
      intros b s Hb Hs. apply (Hseg i b s); [left; reflexivity|exact Hb|exact Hs].
    + apply Forall_cons_iff in Hf. destruct Hf as [_ Hf]. apply IH.
      * exact Hf.
      * intros j Hj. apply Hfull. right. exact Hj.
      * intros j b s Hj. apply Hseg. right. exact Hj.
  - cbn [join_stream_new batches]. rewrite map_length.
    destruct streams; [congruence|]. left. reflexivity.
  - rewrite Hrows. exists bs, e. split; [exact E|]. split; [exact Hp|]. split; [exact He|].
    split; [exact Hd|].
    intros H. apply Hl. cbn [join_stream_new inputs]. rewrite total_new. exact H.
Qed.

(** A limit. *)
Lemma insert_file_permutation : forall S (f : file S) files,
  Permutation (insert_file f files) (f :: files).
Proof.
  intros S f files. induction files as [|g files IH]; [reflexivity|]. cbn [insert_file].
  destruct (modification_time f <=? modification_time g)%Z; [reflexivity|].
  rewrite IH. apply perm_swap.
Qed.
Lemma sort_files_permutation : forall S (files : list (file S)),
  Permutation (sort_files files) files.
Proof.
  intros S files. induction files as [|f files IH]; [reflexivity|]. cbn [sort_files].
  rewrite insert_file_permutation. now constructor.
Qed.

Lemma flat_map_permutation : forall A B (f : A -> list B) a b, Permutation a b ->
  Permutation (flat_map f a) (flat_map f b).
Proof.
  intros A B f a b H. induction H as [|x a b _ IH|x y a|a b c _ IH1 _ IH2]; cbn [flat_map].
  - reflexivity.
  - now apply Permutation_app_head.
  - rewrite !app_assoc. apply Permutation_app_tail, Permutation_app_comm.
  - now transitivity (flat_map f b).
Qed.

Lemma flat_map_enough : forall A B (f : A -> list B) l, (forall x, In x l -> f x <> []) ->
  length l <= length (flat_map f l).
Proof.
  intros A B f l H. induction l as [|x l IH]; [apply Nat.le_0_l|].
  cbn [flat_map length]. rewrite app_length.
  assert (Hx := H x (or_introl eq_refl)).
  assert (Hl : length l <= length (flat_map f l)) by (apply IH; intros y Hy; apply H; now right).
  destruct (f x); [congruence|]. cbn [length]. lia.
Qed.

Lemma flat_map_prefix : forall A B (f : A -> list B) l k, (forall x, In x l -> f x <> []) ->
  exists more, flat_map f l = flat_map f (firstn k l) ++ more
    /\ Nat.min k (length (flat_map f l)) <= length (flat_map f (firstn k l)).
Proof.
  intros A B f l k H. exists (flat_map f (skipn k l)).
  rewrite <- flat_map_app, firstn_skipn. split; [reflexivity|].
  destruct (Nat.le_gt_cases k (length l)) as [Hk|Hk].
  - assert (L : length (firstn k l) <= length (flat_map f (firstn k l))).
    { apply flat_map_enough. intros x Hx. apply H. rewrite <- (firstn_skipn k l).
      apply in_or_app. now left. }
    rewrite firstn_length in L. lia.
  - rewrite firstn_all2 by lia. lia.
Qed.

Lemma single_file : forall S (sort : list S -> list S) limit (files : list (file S)),
  length files <= 1 ->
  read_segments sort (Some limit) files = firstn limit (flat_map segments_in files).
Proof.
  intros S sort limit files H. destruct files as [|f [|g files]]; [reflexivity|reflexivity|].
  cbn [length] in H. lia.
Qed.

Lemma prefix_firstn : forall A (a b : list A), (exists m, b = a ++ m) -> a = firstn (length a) b.
Proof.
  intros A a b (m & ->). rewrite firstn_app, firstn_all, Nat.sub_diag. cbn [firstn].
  now rewrite app_nil_r.
Qed.

Lemma expected_prefix : forall k order tags first fields,
  prefix_columns (expected order tags (firstn k first) (map (firstn k) fields))
    (expected order tags first fields).
Proof.
  intros k order tags first fields. rewrite (expected_split k order tags first fields).
  generalize (expected order tags (firstn k first) (map (firstn k) fields)) as a,
    (expected_width order tags (firstn k first) (map (firstn k) fields)) as Ha.
  assert (Hw := expected_width order tags (skipn k first) (map (skipn k) fields)).
  revert Hw. generalize (expected order tags (skipn k first) (map (skipn k) fields)) as b.
  generalize (length order) as n. intros n b Hb a Ha. rewrite <- Ha in Hb. clear Ha.
  revert b Hb. induction a as [|x a IH]; intros [|y b] H; try discriminate; cbn [append_columns].
  - constructor.
  - constructor; [now exists y|]. apply IH. now injection H.
Qed.

Lemma prefix_trans : forall A (a b c : list (list A)),
  prefix_columns a b -> prefix_columns b c -> prefix_columns a c.
Proof.
  intros A a b c H. revert c. induction H as [|x y a b (z & ->) H IH]; intros c Hc.
  - inversion Hc. constructor.
  - inversion Hc as [|? w ? c' (v & ->) Hc']; subst. constructor.
    + exists (z ++ v). now rewrite app_assoc.
    + now apply IH.
Qed.

Lemma forall2_hd : forall A B (f : A -> list B) (g : A -> list B) l,
  map f l = map g l -> hd [] (map f l) = hd [] (map g l).
Proof. intros A B f g l H. now rewrite H. Qed.

Lemma limit_rows :
  forall (S : Type) (grid : S -> list point) sort limit size order tags fields streams,
  0 < size -> 0 < limit -> streams <> [] -> Forall fine streams ->
  Forall2 (fun files i => length files <= 1
             /\ concat (batches_of i) = read_segments sort (Some limit) files) fields streams ->
  (forall i, In i streams -> full (Nat.min limit size) (batches_of i)) ->
  (forall files f s, In files fields -> In f files -> In s (segments_in f) -> grid s <> []) ->
  (forall a b, In a fields -> In b fields -> same_points (stored grid a) (stored grid b)) ->
  order_fits order tags (length streams) ->
  let points := map (stored grid) fields in
  forall n, exists bs e,
    consume (join_poll (grid_poll grid None) order tags) n
      (join_stream_new (map (fun i => grid_stream_new (Some limit) i size) streams)) = Ok (bs, e)
    /\ prefix_columns (all_columns (length order) bs) (expected order tags (hd [] points) points)
    /\ (e = Running \/ e = Done)
    /\ (e = Done -> exists k, Nat.min limit (length (hd [] points)) <= k
          /\ all_columns (length order) bs
             = expected order tags (firstn k (hd [] points)) (map (firstn k) points))
    /\ (list_sum (map (fun i => length i + length (points_of grid None i)) streams) < n ->
        e = Done).
Proof.
  intros S grid sort limit size order tags fields streams Hsize Hlimit Hne Hf H2 Hfull Hseg Hsame Ho
    points n.
  assert (Hread : forall files i, In files fields ->
            length files <= 1 -> concat (batches_of i) = read_segments sort (Some limit) files ->
            exists more, stored grid files = points_of grid None i ++ more
              /\ Nat.min limit (length (stored grid files)) <= length (points_of grid None i)).
  { intros files i Hin Hone E. unfold points_of, selected. rewrite E, single_file by exact Hone.
    unfold stored. apply flat_map_prefix. intros s Hs. apply in_flat_map in Hs.
    destruct Hs as (f & Hff & Hs). exact (Hseg files f s Hin Hff Hs). }
  assert (Hlim : Some limit <> Some 0) by (intros C; injection C as C; lia).
  assert (Hseg' : forall i b s, In i streams -> In b (batches_of i) -> In s b ->
                    selected None (grid s) <> []).
  { intros i b s Hi Hb Hs. unfold selected.
    assert (Hex : exists files, In files fields /\ length files <= 1
                    /\ concat (batches_of i) = read_segments sort (Some limit) files).
    { clear - H2 Hi. induction H2 as [|files j fields streams (H1 & H) H2 IH]; [contradiction|].
      destruct Hi as [->|Hi].
      - exists files. split; [now left|]. now split.
      - destruct (IH Hi) as (g & Hg & G). exists g. split; [now right|exact G]. }
    destruct Hex as (files & Hin & Hone & E).
    assert (Hs' : In s (concat (batches_of i))).
    { apply in_concat. exists b. now split. }
    rewrite E, single_file in Hs' by exact Hone.
    assert (Hs'' : In s (flat_map segments_in files)).
    { rewrite <- (firstn_skipn limit). apply in_or_app. now left. }
    apply in_flat_map in Hs''. destruct Hs'' as (f & Hff & Hsf). exact (Hseg files f s Hin Hff Hsf). }
  destruct (join_shortest S grid None (Some limit) size order tags streams Hsize Hlim Hne Hf Hfull
              Hseg' Ho n) as (bs & e & E & Hp & He & Hd & Hl).
  set (got := map (points_of grid None) streams) in *.
  set (k := shortest got) in *.
  assert (Hcut : map (firstn k) got = map (firstn k) points).
  { assert (G : forall g, In g got -> k <= length g) by (intros g; apply shortest_le).
    clear - H2 Hread G Hsize. subst points got. revert G. generalize k. clear k. intros k G.
    assert (Hread' : forall files i, In files fields -> In i streams ->
              length files <= 1 /\ concat (batches_of i) = read_segments sort (Some limit) files ->
              firstn k (points_of grid None i) = firstn k (stored grid files)).
    { intros files i Hin Hi (H1 & H). destruct (Hread files i Hin H1 H) as (more & Em & _).
      rewrite Em, (firstn_enough _ Hsize); [reflexivity|]. apply G. now apply in_map. }
    clear Hread G. induction H2 as [|files i fields streams H H2 IH]; [reflexivity|].
    cbn [map]. f_equal.
    - apply Hread'; [now left|now left|exact H].
    - apply IH. intros g j Hg Hj. apply Hread'; now right. }
  assert (Hhd : hd [] (map (firstn k) points) = firstn k (hd [] points))
    by (apply (hd_map _ (firstn k)), firstn_nil).
  assert (Hk : Nat.min limit (length (hd [] points)) <= k).
  { apply shortest_ge.
    - subst got. destruct streams; [congruence|discriminate].
    - intros g Hg. subst got. apply in_map_iff in Hg. destruct Hg as (i & <- & Hi).
      assert (Hex : exists files, In files fields /\ length files <= 1
                      /\ concat (batches_of i) = read_segments sort (Some limit) files).
      { clear - H2 Hi. induction H2 as [|files j fields streams (H1 & H) H2 IH]; [contradiction|].
        destruct Hi as [->|Hi].
        - exists files. split; [now left|]. now split.
        - destruct (IH Hi) as (g & Hg & G). exists g. split; [now right|exact G]. }
      destruct Hex as (files & Hin & Hone & E').
      destruct (Hread files i Hin Hone E') as (_ & _ & L).
      assert (El : length (hd [] points) = length (stored grid files)).
      { subst points. destruct fields as [|a fields]; [contradiction|].
        apply same_points_length. apply Hsame; [now left|exact Hin]. }
      now rewrite El. }
  rewrite Hcut, Hhd in *.
  exists bs, e. split; [exact E|]. split.
  - apply (prefix_trans _ _ _ _ Hp). apply expected_prefix.
  - split; [exact He|]. split; [|exact Hl]. intros D. exists k. split; [exact Hk|exact (Hd D)].
Qed.

Lemma limit_single :
  forall (S : Type) (grid : S -> list point) sort limit size order tags files i,
  (forall l, Permutation (sort l) l) ->
  0 < size -> 0 < limit -> fine i ->
  concat (batches_of i) = read_segments sort (Some limit) files ->
  full (Nat.min limit size) (batches_of i) ->
  (forall f s, In f files -> In s (segments_in f) -> grid s <> []) ->
  order_fits order tags 1 ->
  forall n, length i + length (points_of grid None i) < n ->
  exists bs got rest,
    consume (join_poll (grid_poll grid None) order tags) n
      (join_stream_new [grid_stream_new (Some limit) i size]) = Ok (bs, Done)
    /\ all_columns (length order) bs = expected order tags got [got]
    /\ Permutation (got ++ rest) (stored grid files)
    /\ Nat.min limit (length (stored grid files)) <= length got.
Proof.
  intros S grid sort limit size order tags files i Hsort Hsize Hlimit Hf E Hfull Hseg Ho n Hn.
  set (segments := flat_map segments_in (sort_files files)).
  assert (Hperm : Permutation (concat (batches_of i)) (firstn limit segments)).
  { rewrite E. unfold read_segments. fold segments.
    destruct files as [|f [|g files]]; [reflexivity|reflexivity|apply Hsort]. }
  assert (Hall : forall s, In s segments -> grid s <> []).
  { intros s Hs. apply in_flat_map in Hs. destruct Hs as (f & Hff & Hs).
    apply (Hseg f s); [|exact Hs].
    exact (Permutation_in _ (sort_files_permutation _ files) Hff). }
  assert (Hlim : Some limit <> Some 0) by (intros C; injection C as C; lia).
  destruct (join_shortest S grid None (Some limit) size order tags [i] Hsize Hlim) with (n := n)
    as (bs & e & C & _ & _ & Hd & Hl).
  - discriminate.
  - now constructor.
  - intros j [<-|[]]. exact Hfull.
  - intros j b s [<-|[]] Hb Hs. unfold selected. apply Hall.
    assert (Hs' : In s (concat (batches_of i))) by (apply in_concat; exists b; now split).
    apply (Permutation_in _ Hperm) in Hs'.
    rewrite <- (firstn_skipn limit). apply in_or_app. now left.
  - exact Ho.
  - assert (De : e = Done) by (apply Hl; cbn [map list_sum fold_right]; lia). subst e.
    specialize (Hd eq_refl). cbn [map shortest hd] in Hd. rewrite firstn_all in Hd.
    destruct (flat_map_prefix _ _ grid segments limit Hall) as (more & Em & L).
    assert (Hgot : Permutation (points_of grid None i) (flat_map grid (firstn limit segments))).
    { unfold points_of, selected. now apply flat_map_permutation. }
    assert (Hst : Permutation (flat_map grid segments) (stored grid files)).
    { unfold stored. apply flat_map_permutation. unfold segments.
      apply flat_map_permutation, sort_files_permutation. }
    exists bs, (points_of grid None i), more.
    split; [exact C|]. split; [exact Hd|]. split.
    + rewrite <- Hst, Em. now apply Permutation_app_tail.
    + rewrite (Permutation_length Hgot), <- (Permutation_length Hst). exact L.
Qed.

(** The files of two fields of two series, x and y, with the data points for times 1 and 2; the data
    points of y were ingested first. *)
Definition at_series (series : string) (t v : Z) : point := Point t v [series].
Definition files_a : list (file (list point)) :=
  [File 1 [[at_series "y" 1 3; at_series "y" 2 4]];
   File 2 [[at_series "x" 1 1; at_series "x" 2 2]]].
Definition files_b : list (file (list point)) :=
  [File 1 [[at_series "y" 1 30]; [at_series "y" 2 40]];
   File 2 [[at_series "x" 1 10]; [at_series "x" 2 20]]].

Lemma limit_misaligns : exists (a b : list (file (list point))) (i j : stream (list (list point))) n bs,
  map modification_time a = map modification_time b
  /\ batches_of i = [read_segments by_series (Some 2) a]
  /\ batches_of j = [read_segments by_series (Some 2) b]
  /\ fine i /\ fine j
  /\ same_points (flat_map (fun s => s) (read_segments by_series None a))
                 (flat_map (fun s => s) (read_segments by_series None b))
  /\ consume (join_poll (grid_poll (fun s => s) None) [Timestamp; Tag "series"; Field; Field]
                ["series"%string]) n
       (join_stream_new [grid_stream_new (Some 2) i 8; grid_stream_new (Some 2) j 8])
     = Ok (bs, Done)
  /\ all_columns 4 bs
     = [[Time_cell 1; Time_cell 2]; [Tag_cell "x"; Tag_cell "x"]; [Value_cell 1; Value_cell 2];
        [Value_cell 30; Value_cell 40]]
  /\ (forall p, In p (stored (fun s => s) b) -> p_time p = 1%Z -> p_tags p = ["x"%string] ->
        p_value p = 10%Z).
Proof.
  exists files_a, files_b,
    [Batch (read_segments by_series (Some 2) files_a)],
    [Batch (read_segments by_series (Some 2) files_b)], 6. eexists.
  split; [reflexivity|]. split; [reflexivity|]. split; [reflexivity|]. split; [reflexivity|].
  split; [reflexivity|]. split; [reflexivity|]. split; [vm_compute; reflexivity|].
  split; [reflexivity|].
  cbn. intros p Hp Ht Hg. repeat (destruct Hp as [<-|Hp]; [cbn in Ht, Hg |- *; congruence|]). contradiction.
Qed.

(** One file per field, and one field in two files. *)
Definition file_a : list (file (list point)) :=
  [File 1 [[at_series "x" 1 1; at_series "x" 2 2]; [at_series "y" 1 3; at_series "y" 2 4]]].
Definition file_b : list (file (list point)) :=
  [File 1 [[at_series "x" 1 10]; [at_series "x" 2 20]; [at_series "y" 1 30]; [at_series "y" 2 40]]].

Lemma limit_example : exists (i j : stream (list (list point))) bs,
  Forall2 (fun files i => length files <= 1
             /\ concat (batches_of i) = read_segments by_series (Some 2) files)
    [file_a; file_b] [i; j]
  /\ Forall fine [i; j]
  /\ (forall s, In s [i; j] -> full 2 (batches_of s))
  /\ same_points (stored (fun s => s) file_a) (stored (fun s => s) file_b)
  /\ consume (join_poll (grid_poll (fun s => s) None) [Timestamp; Tag "series"; Field; Field]
                ["series"%string]) 16
       (join_stream_new [grid_stream_new (Some 2) i 8; grid_stream_new (Some 2) j 8])
     = Ok (bs, Done)
  /\ all_columns 4 bs
     = [[Time_cell 1; Time_cell 2]; [Tag_cell "x"; Tag_cell "x"]; [Value_cell 1; Value_cell 2];
        [Value_cell 10; Value_cell 20]].
Proof.
  exists [Batch (read_segments by_series (Some 2) file_a)],
    [Pending; Batch (read_segments by_series (Some 2) file_b)]. eexists.
  split; [constructor; [split; [apply Nat.le_refl|reflexivity]|]; constructor;
          [split; [apply Nat.le_refl|reflexivity]|constructor]|].
  split; [now repeat constructor|].
  split; [intros s [<-|[<-|[]]]; exact I|].
  split; [reflexivity|]. split; [vm_compute; reflexivity|]. reflexivity.
Qed.

Lemma limit_single_example : exists (i : stream (list (list point))) bs,
  concat (batches_of i) = read_segments by_series (Some 2) files_a
  /\ fine i /\ full 2 (batches_of i)
  /\ consume (join_poll (grid_poll (fun s => s) None) [Timestamp; Tag "series"; Field]
                ["series"%string]) 16
       (join_stream_new [grid_stream_new (Some 2) i 8]) = Ok (bs, Done)
  /\ all_columns 3 bs
     = [[Time_cell 1; Time_cell 2; Time_cell 1; Time_cell 2];
        [Tag_cell "x"; Tag_cell "x"; Tag_cell "y"; Tag_cell "y"];
        [Value_cell 1; Value_cell 2; Value_cell 3; Value_cell 4]].
Proof.
  exists [Batch (read_segments by_series (Some 2) files_a)]. eexists.
  split; [reflexivity|]. split; [reflexivity|]. split; [exact I|].
  split; [vm_compute; reflexivity|]. reflexivity.
Qed.

Lemma insert_segment_permutation : forall s l, Permutation (insert_segment s l) (s :: l).
Proof.
  intros s l. induction l as [|t l IH]; [reflexivity|]. cbn [insert_segment].
  destruct (starts_before s t); [reflexivity|]. rewrite IH. apply perm_swap.
Qed.
Lemma by_series_permutation : forall l, Permutation (by_series l) l.
Proof.
  intros l. unfold by_series. induction l as [|s l IH]; [reflexivity|]. cbn [fold_right].
  rewrite insert_segment_permutation. now constructor.
Qed.
