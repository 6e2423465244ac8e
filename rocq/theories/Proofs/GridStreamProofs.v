(** Proofs about [GridStream]. *)
From Coq Require Import ZArith Bool String List Lia.
From Verif Require Import Model.Base Model.Streams Spec.StreamsSpec.
Import ListNotations.
Open Scope nat_scope.
Open Scope list_scope.

Lemma skipn_add : forall A a b (l : list A), skipn (a + b) l = skipn b (skipn a l).
Proof.
  intros A a. induction a as [|a IH]; intros b l; [reflexivity|].
  destruct l as [|x l]; [cbn [skipn plus]; rewrite skipn_nil; reflexivity|].
  cbn [skipn plus]. apply IH.
Qed.

Section Grid.
  Context {S P : Type}.
  Variable grid : S -> list P.
  Variable predicate : option (P -> bool).

  Lemma selected_app : forall a b : list P,
    selected predicate (a ++ b) = selected predicate a ++ selected predicate b.
  Proof.
    intros a b. unfold selected. destruct predicate; [apply filter_app|reflexivity].
  Qed.

  Lemma filter_idem : forall (f : P -> bool) l, filter f (filter f l) = filter f l.
  Proof.
    intros f l. induction l as [|a l IH]; [reflexivity|]. cbn [filter].
    destruct (f a) eqn:E; [cbn [filter]; rewrite E, IH; reflexivity|exact IH].
  Qed.

  Lemma selected_idem : forall l : list P,
    selected predicate (selected predicate l) = selected predicate l.
  Proof.
    intros l. unfold selected. destruct predicate; [apply filter_idem|reflexivity].
  Qed.

  Lemma filter_firstn : forall (f : P -> bool) n l, filter f l = l ->
    filter f (firstn n l) = firstn n l.
  Proof.
    intros f n. induction n as [|n IH]; intros l H; [reflexivity|].
    destruct l as [|a l]; [reflexivity|]. cbn [filter firstn] in *.
    destruct (f a) eqn:E.
    - injection H as H. rewrite (IH l H). reflexivity.
    - exfalso. assert (L : length (filter f l) <= length l).
      { clear. induction l as [|b l IH]; cbn [filter length]; [lia|].
        destruct (f b); cbn [length]; lia. }
      rewrite H in L. cbn [length] in L. lia.
  Qed.

  Lemma filter_skipn : forall (f : P -> bool) n l, filter f l = l ->
    filter f (skipn n l) = skipn n l.
  Proof.
    intros f n. induction n as [|n IH]; intros l H; [exact H|].
    destruct l as [|a l]; [reflexivity|]. cbn [skipn]. apply IH.
    cbn [filter] in H. destruct (f a) eqn:E; [injection H as H; exact H|].
    exfalso. assert (L : length (filter f l) <= length l).
    { clear. induction l as [|b l IH]; cbn [filter length]; [lia|].
      destruct (f b); cbn [length]; lia. }
    rewrite H in L. cbn [length] in L. lia.
  Qed.

  Lemma selected_skipn : forall n (l : list P), selected predicate l = l ->
    selected predicate (skipn n l) = skipn n l.
  Proof.
    intros n l. unfold selected. destruct predicate; [apply filter_skipn|reflexivity].
  Qed.

  (** What is left to return. *)
  Definition leftovers (s : grid_stream S P) : list P :=
    skipn (current_batch_offset s) (current_batch s).
  Definition rest (s : grid_stream S P) : list P :=
    leftovers s ++ points_of grid predicate (input s).
  Definition sane (s : grid_stream S P) : Prop :=
    selected predicate (current_batch s) = current_batch s
    /\ current_batch_offset s <= length (current_batch s).

  Lemma leftovers_length : forall s : grid_stream S P,
    length (leftovers s) = length (current_batch s) - current_batch_offset s.
  Proof. intros s. unfold leftovers. apply skipn_length. Qed.

  Lemma return_batch_spec : forall s : grid_stream S P, sane s ->
    exists s', return_batch s = (Batch (firstn (batch_size s) (leftovers s)), s')
      /\ sane s' /\ batch_size s' = batch_size s /\ input s' = input s
      /\ leftovers s' = skipn (batch_size s) (leftovers s).
  Proof.
    intros s [H1 H2]. unfold return_batch. rewrite <- leftovers_length.
    change (skipn (current_batch_offset s) (current_batch s)) with (leftovers s).
    assert (E : firstn (Nat.min (batch_size s) (length (leftovers s))) (leftovers s)
                = firstn (batch_size s) (leftovers s)).
    { rewrite <- firstn_firstn, firstn_all. reflexivity. }
    rewrite E.
    assert (L := leftovers_length s).
    assert (LF : length (firstn (batch_size s) (leftovers s))
                 = Nat.min (batch_size s) (length (leftovers s))) by apply firstn_length.
    eexists. split; [reflexivity|].
    split; [split; cbn [current_batch current_batch_offset]; [exact H1|lia]|].
    split; [reflexivity|]. split; [reflexivity|].
    unfold leftovers at 1. cbn [current_batch current_batch_offset].
    rewrite skipn_add. fold (leftovers s). rewrite LF.
    destruct (Nat.le_gt_cases (batch_size s) (length (leftovers s))) as [Hle|Hgt].
    - rewrite Nat.min_l by exact Hle. reflexivity.
    - rewrite Nat.min_r by lia. rewrite !skipn_all2 by lia. reflexivity.
  Qed.

  Lemma append_spec : forall (s : grid_stream S P) batch, sane s ->
    let s' := grid_and_append grid predicate s batch in
    sane s' /\ batch_size s' = batch_size s /\ input s' = input s
    /\ leftovers s' = leftovers s ++ selected predicate (flat_map grid batch).
  Proof.
    intros s batch [H1 H2]. cbn zeta.
    assert (E : current_batch (grid_and_append grid predicate s batch)
                = leftovers s ++ selected predicate (flat_map grid batch)).
    { unfold grid_and_append. cbn [current_batch].
      change (match predicate with
              | Some p => filter p (skipn (current_batch_offset s) (current_batch s)
                                    ++ flat_map grid batch)
              | None => skipn (current_batch_offset s) (current_batch s) ++ flat_map grid batch
              end) with (selected predicate (leftovers s ++ flat_map grid batch)).
      rewrite selected_app. f_equal. exact (selected_skipn _ _ H1). }
    split; [split|].
    - rewrite E, selected_app, selected_idem. f_equal. exact (selected_skipn _ _ H1).
    - cbn [grid_and_append current_batch_offset]. lia.
    - split; [reflexivity|]. split; [reflexivity|]. unfold leftovers at 1. rewrite E. reflexivity.
  Qed.

  Lemma points_of_cons : forall p s,
    points_of grid predicate (p :: s)
    = match p with Batch b => selected predicate (flat_map grid b) | _ => [] end
      ++ points_of grid predicate s.
  Proof.
    intros p s. unfold points_of, batches_of. cbn [flat_map].
    destruct p; cbn [app concat]; try reflexivity.
    rewrite flat_map_app, selected_app. reflexivity.
  Qed.

  (** The possible outcomes of a poll of a stream that may fail but does not end early. *)
  Inductive polled (s : grid_stream S P) : poll (list P) -> grid_stream S P -> Prop :=
  | Polled_pending : forall s', input s = Pending :: input s' -> leftovers s' = leftovers s ->
      polled s Pending s'
  | Polled_failed : forall e s', input s = Failed e :: input s' -> leftovers s' = leftovers s ->
      polled s (Failed e) s'
  | Polled_finished : forall s', input s = [] -> input s' = [] -> leftovers s = [] ->
      leftovers s' = [] -> polled s Finished s'
  | Polled_batch : forall got s',
      (input s = input s' /\ got = [] /\ batch_size s <= length (leftovers s)
       \/ (exists b, input s = Batch b :: input s' /\ got = selected predicate (flat_map grid b))
       \/ input s = [] /\ input s' = [] /\ got = [] /\ leftovers s <> []) ->
      leftovers s' = skipn (batch_size s) (leftovers s ++ got) ->
      polled s (Batch (firstn (batch_size s) (leftovers s ++ got))) s'.

  Lemma grid_poll_spec : forall s : grid_stream S P, sane s -> unfinished (input s) ->
    let (p, s') := grid_poll grid predicate s in
    polled s p s' /\ sane s' /\ batch_size s' = batch_size s /\ unfinished (input s').
  Proof.
    intros s Hs Hu. unfold grid_poll. rewrite <- leftovers_length.
    destruct (length (leftovers s) <? batch_size s) eqn:Elt.
    - apply Nat.ltb_lt in Elt. destruct (input s) as [|q tail] eqn:Ei; cbn [poll_stream];
        cbn [current_batch current_batch_offset].
      + set (s1 := GridStream [] (batch_size s) (current_batch s) (current_batch_offset s)).
        assert (Hs1 : sane s1) by exact Hs.
        assert (L1 : leftovers s1 = leftovers s) by reflexivity.
        destruct (current_batch_offset s <? length (current_batch s)) eqn:Eo.
        * apply Nat.ltb_lt in Eo.
          destruct (return_batch_spec s1 Hs1) as (s' & E & Hs' & Hb & Hi & Hl).
          rewrite E. change (batch_size s1) with (batch_size s) in *. rewrite L1 in *.
          split; [|split; [exact Hs'|split; [exact Hb|rewrite Hi; reflexivity]]].
          rewrite <- (app_nil_r (leftovers s)). apply Polled_batch.
          -- right. right. split; [exact Ei|]. split; [exact Hi|]. split; [reflexivity|].
             intros C. assert (L := leftovers_length s). rewrite C in L. cbn [length] in L. lia.
          -- rewrite app_nil_r. exact Hl.
        * apply Nat.ltb_ge in Eo.
          assert (leftovers s = []).
          { apply length_zero_iff_nil. rewrite leftovers_length. lia. }
          split; [|split; [exact Hs1|split; reflexivity]].
          apply Polled_finished; [exact Ei|reflexivity|assumption|rewrite L1; assumption].
      + set (s1 := GridStream tail (batch_size s) (current_batch s) (current_batch_offset s)).
        assert (Hs1 : sane s1) by exact Hs.
        assert (L1 : leftovers s1 = leftovers s) by reflexivity.
        unfold unfinished in Hu. cbn [forallb] in Hu. apply andb_prop in Hu. destruct Hu as [Hq Hu].
        destruct q as [|b|e|]; [| | |discriminate].
        * split; [|split; [exact Hs1|split; [reflexivity|exact Hu]]].
          apply Polled_pending; [exact Ei|exact L1].
        * destruct (append_spec s1 b Hs1) as (Hs2 & Hb2 & Hi2 & Hl2).
          destruct (return_batch_spec _ Hs2) as (s' & E & Hs' & Hb & Hi & Hl).
          rewrite E. rewrite Hl2, Hb2 in *. rewrite L1 in *.
          change (batch_size s1) with (batch_size s) in *.
          assert (Hi' : input s' = tail) by (rewrite Hi, Hi2; reflexivity).
          split; [|split; [exact Hs'|split; [exact Hb|rewrite Hi'; exact Hu]]].
          apply Polled_batch; [|exact Hl].
          right. left. exists b. rewrite Hi'. split; [exact Ei|reflexivity].
        * split; [|split; [exact Hs1|split; [reflexivity|exact Hu]]].
          apply Polled_failed; [exact Ei|exact L1].
    - apply Nat.ltb_ge in Elt.
      destruct (return_batch_spec s Hs) as (s' & E & Hs' & Hb & Hi & Hl).
      rewrite E. split; [|split; [exact Hs'|split; [exact Hb|rewrite Hi; exact Hu]]].
      rewrite <- (app_nil_r (leftovers s)). apply Polled_batch.
      + left. split; [symmetry; exact Hi|]. split; [reflexivity|exact Elt].
      + rewrite app_nil_r. exact Hl.
  Qed.

  (** Every poll takes something from the input or returns rows. *)
  Definition measure (s : grid_stream S P) : nat := length (input s) + length (rest s).

  Lemma rest_cons : forall (s : grid_stream S P) p tail, input s = p :: tail ->
    rest s = leftovers s
             ++ match p with Batch b => selected predicate (flat_map grid b) | _ => [] end
             ++ points_of grid predicate tail.
  Proof. intros s p tail E. unfold rest. rewrite E, points_of_cons. reflexivity. Qed.

  Lemma polled_rest : forall s p s', polled s p s' ->
    match p with
    | Batch b => rest s = b ++ rest s'
    | Finished => rest s = [] /\ rest s' = []
    | _ => rest s' = rest s
    end.
  Proof.
    intros s p s' H. destruct H as [s' Hi Hl|e s' Hi Hl|s' Hi Hi' Hl Hl'|got s' Hi Hl].
    - rewrite (rest_cons s _ _ Hi). unfold rest. rewrite Hl. reflexivity.
    - rewrite (rest_cons s _ _ Hi). unfold rest. rewrite Hl. reflexivity.
    - unfold rest. rewrite Hi, Hi', Hl, Hl'. unfold points_of, batches_of, selected.
      destruct predicate; split; reflexivity.
    - assert (E : rest s = (leftovers s ++ got) ++ points_of grid predicate (input s')).
      { destruct Hi as [(Hi & Hg & _)|[(b & Hi & Hg)|(Hi & Hi' & Hg & _)]]; subst got.
        - rewrite app_nil_r. unfold rest. rewrite Hi. reflexivity.
        - rewrite (rest_cons s _ _ Hi), app_assoc. reflexivity.
        - rewrite app_nil_r. unfold rest. rewrite Hi, Hi'. reflexivity. }
      rewrite E. unfold rest. rewrite Hl, app_assoc, firstn_skipn. reflexivity.
  Qed.

  Lemma polled_measure : forall s p s', 0 < batch_size s -> polled s p s' ->
    match p with Finished => True | _ => measure s' < measure s end.
  Proof.
    intros s p s' Hb H. assert (R := polled_rest s p s' H). unfold measure.
    destruct H as [s' Hi Hl|e s' Hi Hl|s' Hi Hi' Hl Hl'|got s' Hi Hl].
    - rewrite R, Hi. cbn [length]. lia.
    - rewrite R, Hi. cbn [length]. lia.
    - exact I.
    - rewrite R, app_length, firstn_length, app_length.
      destruct Hi as [(Hi & Hg & Hn)|[(b & Hi & Hg)|(Hi & Hi' & Hg & Hn)]].
      + rewrite Hi. lia.
      + rewrite Hi. cbn [length]. lia.
      + rewrite Hi, Hi'. destruct (leftovers s); [contradiction|]. cbn [length]. lia.
  Qed.

  (** A consumer gets what the input provides until its first error. *)
  Lemma consume_prefix : forall n s, sane s -> unfinished (input s) ->
    exists bs e, consume (grid_next grid predicate) n s = Ok (bs, e)
      /\ (exists more, rest s = concat bs ++ more)
      /\ Forall (fun b => length b <= batch_size s) bs
      /\ match e with
         | Done => rest s = concat bs /\ first_error (input s) = None
         | Error k => first_error (input s) = Some k
         | Running => True
         end.
  Proof.
    induction n as [|n IH]; intros s Hs Hu; cbn [consume].
    - exists [], Running. split; [reflexivity|]. split; [exists (rest s); reflexivity|].
      split; [constructor|exact I].
    - unfold grid_next at 1. assert (H := grid_poll_spec s Hs Hu).
      destruct (grid_poll grid predicate s) as [p s']. destruct H as (H & Hs' & Hb' & Hu').
      cbn [bind]. assert (R := polled_rest s p s' H).
      destruct (IH s' Hs' Hu') as (bs & e & E & (more & Hm) & HF & He).
      assert (Herr : match p with
                     | Failed k => first_error (input s) = Some k
                     | Finished => first_error (input s) = None
                     | _ => first_error (input s) = first_error (input s')
                     end).
      { destruct H as [s' Hi Hl|k s' Hi Hl|s' Hi Hi' Hl Hl'|got s' Hi Hl];
          try (rewrite Hi; reflexivity).
        destruct Hi as [(Hi & _)|[(b & Hi & _)|(Hi & Hi' & _)]].
        - rewrite Hi. reflexivity.
        - rewrite Hi. reflexivity.
        - rewrite Hi, Hi'. reflexivity. }
      rewrite Hb' in HF.
      destruct p as [|b|k|].
      + exists bs, e. rewrite R in *. split; [exact E|]. split; [exists more; exact Hm|].
        split; [exact HF|]. rewrite Herr. exact He.
      + rewrite E. cbn [bind]. exists (b :: bs), e. split; [reflexivity|]. cbn [concat]. rewrite R.
        split; [exists more; rewrite Hm, app_assoc; reflexivity|]. split.
        * constructor; [|exact HF].
          inversion H as [| | |got s'' Hi Hl]; subst. rewrite firstn_length. lia.
        * rewrite Herr. destruct e as [| |k]; [exact I| |exact He].
          destruct He as [He1 He2]. rewrite He1. split; [reflexivity|exact He2].
      + exists [], (Error k). split; [reflexivity|]. split; [exists (rest s); reflexivity|].
        split; [constructor|exact Herr].
      + exists [], Done. split; [reflexivity|]. destruct R as [R _].
        split; [exists []; exact R|]. split; [constructor|]. split; [exact R|exact Herr].
  Qed.

  Lemma consume_ends : forall n s, sane s -> unfinished (input s) -> 0 < batch_size s ->
    measure s < n ->
    exists bs e, consume (grid_next grid predicate) n s = Ok (bs, e) /\ e <> Running.
  Proof.
    induction n as [|n IH]; intros s Hs Hu Hb Hn; [lia|]. cbn [consume].
    unfold grid_next at 1. assert (H := grid_poll_spec s Hs Hu).
    destruct (grid_poll grid predicate s) as [p s']. destruct H as (H & Hs' & Hb' & Hu').
    cbn [bind]. assert (M := polled_measure s p s' Hb H).
    destruct p as [|b|k|].
    - apply IH; [exact Hs'|exact Hu'|lia|lia].
    - destruct (IH s' Hs' Hu') as (bs & e & E & He); [lia|lia|].
      rewrite E. cbn [bind]. exists (b :: bs), e. split; [reflexivity|exact He].
    - exists [], (Error k). split; [reflexivity|discriminate].
    - exists [], Done. split; [reflexivity|discriminate].
  Qed.

  Lemma new_sane : forall limit (i : stream (list S)) size,
    sane (grid_stream_new (P := P) limit i size).
  Proof.
    intros limit i size. split; [|apply Nat.le_refl]. cbn. unfold selected.
    destruct predicate; reflexivity.
  Qed.

  Lemma new_rest : forall limit i size,
    rest (grid_stream_new (P := P) limit i size) = points_of grid predicate i.
  Proof. reflexivity. Qed.

  (** The claims. *)
  Lemma fine_unfinished : forall i : stream (list S), fine i ->
    unfinished i /\ first_error i = None.
  Proof.
    intros i. unfold fine, unfinished. induction i as [|p i IH]; intros H; [split; reflexivity|].
    cbn [forallb first_error] in *. apply andb_prop in H. destruct H as [Hp H].
    destruct (IH H) as [H1 H2]. destruct p; try discriminate; split; assumption.
  Qed.

  Lemma grid_prefix : forall limit i size n, fine i ->
    exists bs e, consume (grid_next grid predicate) n (grid_stream_new limit i size) = Ok (bs, e)
      /\ (e = Running \/ e = Done)
      /\ (exists more, points_of grid predicate i = concat bs ++ more)
      /\ Forall (fun b => length b <= size) bs
      /\ (e = Done -> concat bs = points_of grid predicate i).
  Proof.
    intros limit i size n Hf. destruct (fine_unfinished i Hf) as [Hu Herr].
    destruct (consume_prefix n (grid_stream_new limit i size) (new_sane _ _ _) Hu)
      as (bs & e & E & Hm & HF & He).
    rewrite new_rest in *. change (input (grid_stream_new limit i size)) with i in He.
    exists bs, e. split; [exact E|]. split; [destruct e; [tauto|tauto|congruence]|].
    split; [exact Hm|]. split.
    - eapply Forall_impl; [|exact HF]. cbn beta. intros b Hb.
      cbn [grid_stream_new batch_size] in Hb. destruct limit; lia.
    - intros ->. symmetry. exact (proj1 He).
  Qed.

  Lemma grid_completes : forall limit i size n, fine i -> 0 < size -> limit <> Some 0 ->
    length i + length (points_of grid predicate i) < n ->
    exists bs, consume (grid_next grid predicate) n (grid_stream_new limit i size) = Ok (bs, Done)
      /\ concat bs = points_of grid predicate i.
  Proof.
    intros limit i size n Hf Hsize Hlimit Hn. destruct (fine_unfinished i Hf) as [Hu Herr].
    destruct (consume_ends n (grid_stream_new limit i size) (new_sane _ _ _) Hu) as (bs & e & E & He).
    - cbn [grid_stream_new batch_size]. destruct limit as [[|l]|]; [congruence|lia|lia].
    - exact Hn.
    - destruct (grid_prefix limit i size n Hf) as (bs' & e' & E' & He' & _ & _ & Hc).
      rewrite E in E'. injection E' as <- <-. destruct He' as [->| ->]; [congruence|].
      exists bs. split; [exact E|exact (Hc eq_refl)].
  Qed.

  Lemma grid_reports : forall limit i size n k, unfinished i -> 0 < size -> limit <> Some 0 ->
    first_error i = Some k -> length i + length (points_of grid predicate i) < n ->
    exists bs, consume (grid_next grid predicate) n (grid_stream_new limit i size)
               = Ok (bs, Error k).
  Proof.
    intros limit i size n k Hu Hsize Hlimit Hk Hn.
    destruct (consume_ends n (grid_stream_new limit i size) (new_sane _ _ _) Hu) as (bs & e & E & He).
    - cbn [grid_stream_new batch_size]. destruct limit as [[|l]|]; [congruence|lia|lia].
    - exact Hn.
    - destruct (consume_prefix n (grid_stream_new limit i size) (new_sane _ _ _) Hu)
        as (bs' & e' & E' & _ & _ & He').
      rewrite E in E'. injection E' as <- <-. exists bs.
      change (input (grid_stream_new limit i size)) with i in He'.
      destruct e as [| |k']; [congruence|destruct He'; congruence|].
      rewrite Hk in He'. injection He' as <-. exact E.
  Qed.

  Lemma grid_limit_zero : forall i size n,
    consume (grid_next grid predicate) n (grid_stream_new (Some 0) i size)
    = Ok (repeat [] n, Running).
  Proof.
    intros i size n. induction n as [|n IH]; [reflexivity|]. cbn [consume repeat].
    assert (E : grid_next grid predicate (grid_stream_new (Some 0) i size)
                = Ok (Batch [], grid_stream_new (Some 0) i size)) by reflexivity.
    rewrite E. cbn [bind]. rewrite IH. reflexivity.
  Qed.
End Grid.
