(** Proofs about [SortedJoinStream]. *)
From Coq Require Import ZArith Bool String List Lia.
From Verif Require Import Model.Base Model.Streams Spec.StreamsSpec Proofs.GridStreamProofs.
Import ListNotations.
Open Scope nat_scope.
Open Scope list_scope.

Lemma same_points_length : forall a b, same_points a b -> length a = length b.
Proof.
  intros a b H. unfold same_points in H.
  rewrite <- (map_length (fun p => (p_time p, p_tags p)) a), H. apply map_length.
Qed.

Lemma same_points_firstn : forall n a b, same_points a b ->
  same_points (firstn n a) (firstn n b) /\ same_points (skipn n a) (skipn n b).
Proof.
  intros n a b H. unfold same_points in *. rewrite <- !firstn_map, <- !skipn_map, H.
  split; reflexivity.
Qed.

(** The columns that are expected. *)
Lemma expected_width : forall order tags first fields,
  length (expected order tags first fields) = length order.
Proof.
  intros order. induction order as [|c order IH]; intros tags first fields; [reflexivity|].
  destruct c; cbn [expected]; [|destruct fields|]; cbn [length]; rewrite IH; reflexivity.
Qed.

Lemma expected_split : forall n order tags first fields,
  expected order tags first fields
  = append_columns (expected order tags (firstn n first) (map (firstn n) fields))
                   (expected order tags (skipn n first) (map (skipn n) fields)).
Proof.
  intros n order. induction order as [|c order IH]; intros tags first fields; [reflexivity|].
  destruct c as [| |name]; cbn [expected].
  - cbn [append_columns]. rewrite <- map_app, firstn_skipn, <- IH. reflexivity.
  - destruct fields as [|f fields]; cbn [map append_columns].
    + rewrite (IH tags first []). reflexivity.
    + rewrite <- map_app, firstn_skipn, <- IH. reflexivity.
  - cbn [append_columns]. rewrite <- map_app, firstn_skipn, <- IH. reflexivity.
Qed.

Lemma expected_nil : forall order tags fields, (forall f, In f fields -> f = []) ->
  expected order tags [] fields = repeat [] (length order).
Proof.
  intros order tags. induction order as [|c order IH]; intros fields H; [reflexivity|].
  destruct c as [| |name]; cbn [expected length repeat map].
  - rewrite IH by exact H. reflexivity.
  - destruct fields as [|f fields].
    + rewrite IH by exact H. reflexivity.
    + rewrite (H f (or_introl eq_refl)). cbn [map]. rewrite IH; [reflexivity|].
      intros g Hg. apply H. right. exact Hg.
  - rewrite IH by exact H. reflexivity.
Qed.

Lemma position_some : forall name names, In name names -> exists k, position name names = Some k.
Proof.
  intros name names. induction names as [|n names IH]; intros H; [contradiction|].
  cbn [position]. destruct (String.eqb n name) eqn:E; [exists 0; reflexivity|].
  destruct H as [->|H]; [rewrite String.eqb_refl in E; discriminate|].
  destruct (IH H) as (k & Hk). rewrite Hk. exists (S k). reflexivity.
Qed.

Lemma join_columns_ok : forall tags order first fields,
  fields_in order <= length fields ->
  (forall name, In (Tag name) order ->
     In name tags /\ name <> "timestamp"%string /\ name <> "value"%string) ->
  join_columns tags order first fields = Ok (expected order tags first fields).
Proof.
  intros tags order. induction order as [|c order IH]; intros first fields Hf Ht; [reflexivity|].
  assert (Ht' : forall name, In (Tag name) order ->
            In name tags /\ name <> "timestamp"%string /\ name <> "value"%string)
    by (intros name H; apply Ht; right; exact H).
  destruct c as [| |name]; cbn [join_columns expected].
  - rewrite IH by assumption. reflexivity.
  - unfold fields_in in Hf. cbn [filter length] in Hf.
    destruct fields as [|f fields]; cbn [length] in Hf; [lia|].
    rewrite IH; [reflexivity|unfold fields_in; lia|exact Ht'].
  - destruct (Ht name (or_introl eq_refl)) as (Hin & N1 & N2).
    destruct (position_some name tags Hin) as (k & E). rewrite E.
    apply String.eqb_neq in N1. apply String.eqb_neq in N2. rewrite N1, N2. cbn [orb].
    rewrite IH by assumption. reflexivity.
Qed.

Lemma set_to_smallest_same : forall n batches, Forall (fun b => length b = n) batches ->
  set_to_smallest batches = batches.
Proof.
  intros n batches H. unfold set_to_smallest. destruct batches as [|first batches]; [reflexivity|].
  assert (E : forallb (fun b => length b =? length first) (first :: batches) = true).
  { apply forallb_forall. intros b Hb. rewrite Forall_forall in H.
    rewrite (H b Hb), (H first (or_introl eq_refl)). apply Nat.eqb_refl. }
  rewrite E. reflexivity.
Qed.

Section Join.
  Context {I : Type}.
  Variable poll_input : I -> poll (list point) * I.
  Variable order : list column_type.
  Variable tags : list string.
  Variable size : nat.

  (** The inputs return what is left in batches of [size] data points. *)
  Variable R : I -> list point -> Prop.
  Variable mu : I -> nat.
  Hypothesis HR : forall i rest, R i rest ->
    let (p, i') := poll_input i in
    match p with
    | Pending => R i' rest /\ mu i' < mu i
    | Batch b => b = firstn size rest /\ R i' (skipn size rest) /\ mu i' < mu i
    | Finished => rest = [] /\ R i' [] /\ mu i' <= mu i
    | Failed _ => False
    end.

  Definition slot (i : I) (batch : option (list point)) (rest : list point) : Prop :=
    match batch with
    | None => R i rest
    | Some b => b = firstn size rest /\ R i (skipn size rest)
    end.

  Inductive slots : list I -> list (option (list point)) -> list (list point) -> Prop :=
  | Slots_nil : slots [] [] []
  | Slots_cons : forall i b r inputs batches rests, slot i b r -> slots inputs batches rests ->
      slots (i :: inputs) (b :: batches) (r :: rests).

  Definition total (inputs : list I) : nat := fold_right (fun i n => mu i + n) 0 inputs.

  Definition some_unread (batches : list (option (list point))) : Prop := In None batches.

  Lemma poll_all_spec : forall inputs batches rests, slots inputs batches rests ->
    let '(inputs', batches', reason) := poll_all poll_input inputs batches in
    slots inputs' batches' rests /\ total inputs' <= total inputs
    /\ match reason with
       | None => all_read batches' = Some (map (firstn size) rests)
                 /\ slots inputs' (repeat None (length batches')) (map (skipn size) rests)
                 /\ (some_unread batches -> total inputs' < total inputs)
       | Some Pending => some_unread batches' /\ total inputs' < total inputs
       | Some Finished => exists r, In r rests /\ r = []
       | Some _ => False
       end.
  Proof.
    intros inputs batches rests H. induction H as [|i b r inputs batches rests Hs H IH].
    - cbn [poll_all]. split; [constructor|]. split; [lia|]. split; [reflexivity|].
      split; [constructor|intros []].
    - cbn [poll_all]. destruct (poll_all poll_input inputs batches) as [[inputs' batches'] later].
      destruct IH as (IH1 & IH2 & IH3).
      assert (Hstep : forall i' b' reason,
        slot i' b' r -> mu i' <= mu i ->
        match reason with
        | None => exists x, b' = Some x /\ (b = None -> mu i' < mu i)
        | Some Pending => b' = None /\ mu i' < mu i
        | Some Finished => r = []
        | Some _ => False
        end ->
        slots (i' :: inputs') (b' :: batches') (r :: rests)
        /\ total (i' :: inputs') <= total (i :: inputs)
        /\ match (match later with Some x => Some x | None => reason end) with
           | None => all_read (b' :: batches') = Some (map (firstn size) (r :: rests))
                 /\ slots (i' :: inputs') (repeat None (length (b' :: batches')))
                          (map (skipn size) (r :: rests))
                 /\ (some_unread (b :: batches) -> total (i' :: inputs') < total (i :: inputs))
           | Some Pending => some_unread (b' :: batches') /\ total (i' :: inputs') < total (i :: inputs)
           | Some Finished => exists x, In x (r :: rests) /\ x = []
           | Some _ => False
           end).
      { intros i' b' reason Hs' Hmu Hr. split; [constructor; assumption|].
        unfold total in *. cbn [fold_right]. split; [lia|].
        destruct later as [[|x|e|]|].
        - destruct IH3 as [Hu Ht]. split; [right; exact Hu|lia].
        - contradiction.
        - contradiction.
        - destruct IH3 as (x & Hx & E). exists x. split; [right; exact Hx|exact E].
        - destruct IH3 as (Ha & Hsl & Hun). destruct reason as [[|x|e|]|].
          + destruct Hr as [-> Hr]. split; [left; reflexivity|lia].
          + contradiction.
          + contradiction.
          + exists r. split; [left; reflexivity|exact Hr].
          + destruct Hr as (x & -> & Hx). destruct Hs' as [Hf Hs'].
            cbn [all_read map length repeat]. rewrite Ha, Hf. split; [reflexivity|].
            split; [constructor; [exact Hs'|exact Hsl]|].
            intros [->|Hin]; [specialize (Hx eq_refl); lia|specialize (Hun Hin); lia]. }
      destruct b as [b|].
      + apply (Hstep i (Some b) None Hs); [lia|]. exists b. split; [reflexivity|discriminate].
      + assert (Hp := HR i r Hs). destruct (poll_input i) as [[|b|e|] i'].
        * destruct Hp as [Hp Hm]. apply (Hstep i' None (Some Pending)); [exact Hp|lia|].
          split; [reflexivity|exact Hm].
        * destruct Hp as (Hb & Hp & Hm). apply (Hstep i' (Some b) None).
          -- split; assumption.
          -- lia.
          -- exists b. split; [reflexivity|intros _; exact Hm].
        * contradiction.
        * destruct Hp as (Hb & Hp & Hm). subst r.
          apply (Hstep i' None (Some Finished)); [exact Hp|exact Hm|reflexivity].
  Qed.

  Definition aligned (rests : list (list point)) : Prop :=
    forall a b, In a rests -> In b rests -> same_points a b.

  Lemma aligned_step : forall n rests, aligned rests ->
    aligned (map (firstn n) rests) /\ aligned (map (skipn n) rests).
  Proof.
    intros n rests H. split; intros a b Ha Hb; apply in_map_iff in Ha; apply in_map_iff in Hb;
      destruct Ha as (x & <- & Hx); destruct Hb as (y & <- & Hy);
      apply (same_points_firstn n x y (H x y Hx Hy)).
  Qed.

  Lemma aligned_lengths : forall rests, aligned rests ->
    Forall (fun b => length b = length (hd [] rests)) rests.
  Proof.
    intros rests H. apply Forall_forall. intros b Hb. apply same_points_length. apply H; [exact Hb|].
    destruct rests; [contradiction|left; reflexivity].
  Qed.

  Lemma hd_map : forall A (f : list A -> list A) l, f [] = [] -> hd [] (map f l) = f (hd [] l).
  Proof. intros A f [|a l] H; [symmetry; exact H|reflexivity]. Qed.

  Lemma append_columns_width : forall A (a b : list (list A)), length a = length b ->
    length (append_columns a b) = length a.
  Proof.
    intros A a. induction a as [|x a IH]; intros b H; [reflexivity|].
    destruct b as [|y b]; [discriminate|]. cbn [append_columns length] in *.
    injection H as H. rewrite IH by exact H. reflexivity.
  Qed.

  Lemma prefix_append : forall A (a b c : list (list A)), length a = length b -> 
    prefix_columns b c -> prefix_columns (append_columns a b) (append_columns a c).
  Proof.
    intros A a. induction a as [|x a IH]; intros b c Hl H.
    - constructor.
    - destruct b as [|y b]; [discriminate|]. inversion H as [|y' z b' c' (w & Hz) H']; subst.
      cbn [append_columns]. constructor.
      + exists w. rewrite app_assoc. reflexivity.
      + apply IH; [injection Hl as Hl; exact Hl|exact H'].
  Qed.

  Lemma prefix_nil : forall A (c : list (list A)), prefix_columns (repeat [] (length c)) c.
  Proof.
    intros A c. induction c as [|x c IH]; cbn [length repeat]; constructor.
    - exists x. reflexivity.
    - exact IH.
  Qed.

  Lemma prefix_length : forall A (a c : list (list A)), prefix_columns a c -> length a = length c.
  Proof. intros A a c H. induction H; [reflexivity|]. cbn [length]. f_equal. assumption. Qed.

  Lemma consume_join : forall n s rests,
    order_fits order tags (length rests) -> 0 < length rests -> aligned rests ->
    slots (inputs s) (batches s) rests -> some_unread (batches s) ->
    exists bs e, consume (join_poll poll_input order tags) n s = Ok (bs, e)
      /\ prefix_columns (all_columns (length order) bs) (expected order tags (hd [] rests) rests)
      /\ (e = Running \/ e = Done)
      /\ (e = Done -> all_columns (length order) bs = expected order tags (hd [] rests) rests)
      /\ (total (inputs s) < n -> e = Done).
  Proof.
    induction n as [|n IH]; intros s rests Ho Hn Ha Hs Hu; cbn [consume].
    - exists [], Running. split; [reflexivity|]. split.
      + cbn [all_columns fold_right]. rewrite <- (expected_width order tags (hd [] rests) rests).
        apply prefix_nil.
      + split; [left; reflexivity|]. split; [discriminate|lia].
    - unfold join_poll at 1. assert (P := poll_all_spec _ _ _ Hs).
      destruct (poll_all poll_input (inputs s) (batches s)) as [[inputs' batches'] reason].
      destruct P as (Hs' & Ht & P).
      destruct reason as [[|b|e|]|]; cbn [bind].
      + destruct P as [Hu' Ht'].
        destruct (IH (JoinStream inputs' batches') rests Ho Hn Ha Hs' Hu')
          as (bs & e & E & Hp & He & Hd & Hl).
        exists bs, e. split; [exact E|]. split; [exact Hp|]. split; [exact He|].
        split; [exact Hd|]. intros H. apply Hl. cbn [inputs]. lia.
      + contradiction.
      + contradiction.
      + destruct P as (r & Hr & Er). subst r.
        assert (Hall : forall f, In f rests -> f = []).
        { intros f Hf. assert (L := same_points_length _ _ (Ha f [] Hf Hr)).
          destruct f; [reflexivity|discriminate]. }
        assert (Ehd : hd [] rests = []) by (destruct rests; [reflexivity|apply Hall; left; reflexivity]).
        exists [], Done. rewrite Ehd, (expected_nil order tags rests Hall).
        split; [reflexivity|]. split.
        * cbn [all_columns fold_right].
          rewrite <- (repeat_length (@nil cell) (length order)) at 1. apply prefix_nil.
        * split; [right; reflexivity|]. split; [reflexivity|reflexivity].
      + destruct P as (Hread & Hs'' & Hdec). rewrite Hread.
        destruct (aligned_step size rests Ha) as [Ha1 Ha2].
        rewrite (set_to_smallest_same _ _ (aligned_lengths _ Ha1)).
        destruct Ho as (Hne & Hf & Htags).
        assert (Ej : sorted_join order tags (map (firstn size) rests)
                     = Ok (expected order tags (firstn size (hd [] rests)) (map (firstn size) rests))).
        { unfold sorted_join. destruct rests as [|r rests]; [cbn [length] in Hn; lia|].
          cbn [map hd]. destruct order as [|c o]; [congruence|].
          rewrite join_columns_ok; [reflexivity| |exact Htags].
          cbn [length map] in *. rewrite map_length. exact Hf. }
        rewrite Ej. cbn [bind].
        destruct (IH (JoinStream inputs' (repeat None (length batches'))) (map (skipn size) rests))
          as (bs & e & E & Hp & He & Hd & Hl).
        * split; [exact Hne|]. rewrite map_length. split; assumption.
        * rewrite map_length. exact Hn.
        * exact Ha2.
        * exact Hs''.
        * unfold some_unread. cbn [batches].
          assert (Hlen : length batches' = length rests).
          { clear -Hs'. induction Hs'; [reflexivity|]. cbn [length]. f_equal. assumption. }
          destruct batches' as [|b' batches']; [cbn [length] in Hlen; lia|left; reflexivity].
        * rewrite E. cbn [bind].
          rewrite (hd_map _ (skipn size)) in * by apply skipn_nil.
          rewrite (expected_split size order tags (hd [] rests) rests).
          eexists _, e. split; [reflexivity|]. cbn [all_columns fold_right].
          fold (all_columns (length order) bs).
          split; [|split; [exact He|split]].
          -- apply prefix_append; [|exact Hp]. apply prefix_length in Hp.
             rewrite Hp, !expected_width. reflexivity.
          -- intros He'. rewrite (Hd He'). reflexivity.
          -- intros H. apply Hl. cbn [inputs]. specialize (Hdec Hu). lia.
  Qed.
End Join.

(** [GridStream] returns full batches if its input does. *)
Section Chunks.
  Context {S : Type}.
  Variable grid : S -> list point.
  Variable predicate : option (point -> bool).
  Variable size : nat.
  Hypothesis Hsize : 0 < size.

  Definition not_empty (i : stream (list S)) : Prop :=
    forall b s, In b (batches_of i) -> In s b -> selected predicate (grid s) <> [].

  Definition chunked (s : grid_stream S point) (r : list point) : Prop :=
    sane predicate s /\ fine (input s) /\ batch_size s = size /\ rest grid predicate s = r
    /\ full size (batches_of (input s)) /\ not_empty (input s).

  Lemma full_tail : forall A (b : list A) l, full size (b :: l) -> full size l.
  Proof. intros A b [|c l] H; [exact I|exact (proj2 H)]. Qed.

  Lemma selected_length : forall b : list S, (forall s, In s b -> selected predicate (grid s) <> []) ->
    length b <= length (selected predicate (flat_map grid b)).
  Proof.
    induction b as [|s b IH]; intros H; [apply Nat.le_0_l|]. cbn [flat_map length].
    rewrite selected_app, app_length.
    assert (H1 := H s (or_introl eq_refl)).
    assert (H2 : length b <= length (selected predicate (flat_map grid b)))
      by (apply IH; intros x Hx; apply H; right; exact Hx).
    destruct (selected predicate (grid s)); [congruence|]. cbn [length]. lia.
  Qed.

  Lemma firstn_enough : forall A n (a b : list A), n <= length a -> firstn n (a ++ b) = firstn n a.
  Proof.
    intros A n a b H. rewrite firstn_app. replace (n - length a) with 0 by lia.
    cbn [firstn]. apply app_nil_r.
  Qed.

  Lemma skipn_enough : forall A n (a b : list A), n <= length a -> skipn n (a ++ b) = skipn n a ++ b.
  Proof.
    intros A n a b H. rewrite skipn_app. replace (n - length a) with 0 by lia. reflexivity.
  Qed.

  Lemma fine_tail : forall B (p : poll B) (i : stream B), fine (p :: i) -> fine i.
  Proof. intros B p i H. unfold fine in *. cbn [forallb] in H. apply andb_prop in H. tauto. Qed.

  Lemma no_batches : forall i : stream (list S), batches_of i = [] ->
    points_of grid predicate i = [].
  Proof. intros i H. unfold points_of. rewrite H. unfold selected. destruct predicate; reflexivity. Qed.

  Lemma chunked_poll : forall s r, chunked s r ->
    let (p, s') := grid_poll grid predicate s in
    match p with
    | Pending => chunked s' r /\ measure grid predicate s' < measure grid predicate s
    | Batch b => b = firstn size r /\ chunked s' (skipn size r)
                 /\ measure grid predicate s' < measure grid predicate s
    | Finished => r = [] /\ chunked s' [] /\ measure grid predicate s' <= measure grid predicate s
    | Failed _ => False
    end.
  Proof.
    intros s r (Hs & Hf & Hb & Hr & Hfull & Hne).
    destruct (fine_unfinished (input s) Hf) as [Hu _].
    assert (H := grid_poll_spec grid predicate s Hs Hu).
    destruct (grid_poll grid predicate s) as [p s']. destruct H as (H & Hs' & Hb' & Hu').
    assert (Rr := polled_rest grid predicate s p s' H).
    assert (M := polled_measure grid predicate s p s' ltac:(lia) H).
    destruct H as [s' Hi Hl|k s' Hi Hl|s' Hi Hi' Hl Hl'|got s' Hi Hl].
    - rewrite Hi in *. split; [|exact M].
      split; [exact Hs'|]. split; [exact (fine_tail _ _ _ Hf)|]. split; [congruence|].
      split; [congruence|]. split; [exact Hfull|exact Hne].
    - rewrite Hi in Hf. discriminate.
    - destruct Rr as [R1 R2]. split; [congruence|]. split.
      + split; [exact Hs'|]. rewrite Hi'. split; [reflexivity|]. split; [congruence|].
        split; [exact R2|]. split; [exact I|intros b x []].
      + unfold measure. rewrite R1, R2, Hi, Hi'. lia.
    - assert (G : chunked s' (rest grid predicate s')).
      { split; [exact Hs'|]. split.
        - destruct Hi as [(Hi & _)|[(b & Hi & _)|(Hi & Hi' & _)]]; [rewrite <- Hi; exact Hf| |].
          + rewrite Hi in Hf. exact (fine_tail _ _ _ Hf).
          + rewrite Hi'. reflexivity.
        - split; [congruence|]. split; [reflexivity|].
          destruct Hi as [(Hi & _)|[(b & Hi & _)|(Hi & Hi' & _)]].
          + rewrite <- Hi. split; assumption.
          + rewrite Hi in Hfull, Hne. split.
            * exact (full_tail _ b (batches_of (input s')) Hfull).
            * intros b' x Hb1 Hx. apply (Hne b' x); [right; exact Hb1|exact Hx].
          + rewrite Hi'. split; [exact I|intros b x []]. }
      assert (E : rest grid predicate s = (leftovers s ++ got) ++ points_of grid predicate (input s')
                  /\ (size <= length (leftovers s ++ got) \/ points_of grid predicate (input s') = [])).
      { destruct Hi as [(Hi & Hg & Hn)|[(b & Hi & Hg)|(Hi & Hi' & Hg & _)]]; subst got.
        - rewrite app_nil_r. split; [unfold rest; rewrite Hi; reflexivity|left; lia].
        - split; [rewrite (rest_cons grid predicate s _ _ Hi), app_assoc; reflexivity|].
          rewrite Hi in Hfull, Hne. change (batches_of (Batch b :: input s'))
            with (b :: batches_of (input s')) in *.
          destruct (batches_of (input s')) as [|c l] eqn:Eb.
          + right. exact (no_batches _ Eb).
          + left. destruct Hfull as [Hfull _]. rewrite app_length.
            assert (L := selected_length b (fun x Hx => Hne b x (or_introl eq_refl) Hx)). lia.
        - rewrite app_nil_r. split; [unfold rest; rewrite Hi, Hi'; reflexivity|].
          right. rewrite Hi'. exact (no_batches [] eq_refl). }
      destruct E as [E1 E2]. rewrite Hb in *.
      assert (F : firstn size (leftovers s ++ got) = firstn size r
                  /\ rest grid predicate s' = skipn size r).
      { rewrite <- Hr, E1. unfold rest at 1. rewrite Hl.
        destruct E2 as [E2|E2].
        - rewrite (firstn_enough _ size (leftovers s ++ got)), (skipn_enough _ size (leftovers s ++ got))
            by exact E2.
          split; reflexivity.
        - rewrite E2, !app_nil_r. split; reflexivity. }
      destruct F as [F1 F2]. split; [exact F1|]. rewrite <- F2. split; [exact G|exact M].
  Qed.
End Chunks.

(** Joining several instances of [GridStream]. *)
Lemma total_new : forall (S : Type) (grid : S -> list point) predicate limit size streams,
  total (measure grid predicate) (map (fun i => grid_stream_new limit i size) streams)
  = list_sum (map (fun i => length i + length (points_of grid predicate i)) streams).
Proof.
  intros S grid predicate limit size streams. induction streams as [|i streams IH]; [reflexivity|].
  cbn [map total fold_right list_sum] in *. unfold total in IH. rewrite IH. reflexivity.
Qed.

Lemma join_grids : forall (S : Type) (grid : S -> list point) predicate limit size order tags streams,
  0 < size -> limit <> Some 0 -> streams <> [] -> Forall fine streams ->
  (forall i, In i streams ->
     full (match limit with Some l => Nat.min l size | None => size end) (batches_of i)) ->
  (forall i b s, In i streams -> In b (batches_of i) -> In s b ->
     selected predicate (grid s) <> []) ->
  (forall i j, In i streams -> In j streams ->
     same_points (points_of grid predicate i) (points_of grid predicate j)) ->
  order_fits order tags (length streams) ->
  let points := map (points_of grid predicate) streams in
  forall n, exists bs e,
    consume (join_poll (grid_poll grid predicate) order tags) n
      (join_stream_new (map (fun i => grid_stream_new limit i size) streams)) = Ok (bs, e)
    /\ prefix_columns (all_columns (length order) bs) (expected order tags (hd [] points) points)
    /\ (e = Running \/ e = Done)
    /\ (e = Done -> all_columns (length order) bs = expected order tags (hd [] points) points)
    /\ (list_sum (map (fun i => length i + length (points_of grid predicate i)) streams) < n ->
        e = Done).
Proof.
  intros S grid predicate limit size order tags streams Hsize Hlimit Hne Hf Hfull Hseg Hsame Ho
    points n.
  set (size' := match limit with Some l => Nat.min l size | None => size end) in *.
  assert (Hsize' : 0 < size') by (subst size'; destruct limit as [[|l]|]; [congruence|lia|lia]).
  assert (Hlen : length points = length streams) by apply map_length.
  assert (Hpos : 0 < length streams) by (destruct streams; [congruence|cbn [length]; lia]).
  destruct (consume_join (grid_poll grid predicate) order tags size' (chunked grid predicate size')
              (measure grid predicate) (chunked_poll grid predicate size' Hsize') n
              (join_stream_new (map (fun i => grid_stream_new limit i size) streams)) points)
    as (bs & e & E & Hp & He & Hd & Hl).
  - rewrite Hlen. exact Ho.
  - lia.
  - intros a b Ha Hb. apply in_map_iff in Ha. apply in_map_iff in Hb.
    destruct Ha as (i & <- & Hi). destruct Hb as (j & <- & Hj). exact (Hsame i j Hi Hj).
  - subst points. cbn [join_stream_new inputs batches]. rewrite map_length.
    clear Hpos Hlen Ho Hsame Hne.
    induction streams as [|i streams IH]; cbn [map repeat length]; constructor.
    + apply Forall_cons_iff in Hf. destruct Hf as [Hf _].
      split; [apply new_sane|]. split; [exact Hf|]. split; [reflexivity|]. split; [reflexivity|].
      split; [apply Hfull; left; reflexivity|].
      intros b s Hb Hs. apply (Hseg i b s); [left; reflexivity|exact Hb|exact Hs].
    + apply Forall_cons_iff in Hf. destruct Hf as [_ Hf]. apply IH.
      * exact Hf.
      * intros j Hj. apply Hfull. right. exact Hj.
      * intros j b s Hj. apply Hseg. right. exact Hj.
  - cbn [join_stream_new batches]. rewrite map_length.
    destruct streams; [congruence|]. left. reflexivity.
  - exists bs, e. split; [exact E|]. split; [exact Hp|]. split; [exact He|]. split; [exact Hd|].
    intros H. apply Hl. cbn [join_stream_new inputs]. rewrite total_new. exact H.
Qed.
