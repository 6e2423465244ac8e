(** Errors in joined streams, and witnesses. *)
From Coq Require Import ZArith Bool String List Lia Permutation.
From Verif Require Import Model.Base Model.Streams Spec.StreamsSpec
  Proofs.GridStreamProofs Proofs.JoinStreamProofs.
Import ListNotations.
Open Scope nat_scope.
Open Scope list_scope.

Section Errors.
  Context {I : Type}.
  Variable poll_input : I -> poll (list point) * I.
  Variable order : list column_type.
  Variable tags : list string.

  Lemma poll_all_reason : forall inputs batches k e i,
    nth_error inputs k = Some i -> nth_error batches k = Some None ->
    fst (poll_input i) = Failed e ->
    (forall j i', k < j -> nth_error inputs j = Some i' -> nth_error batches j = Some None ->
       exists b, fst (poll_input i') = Batch b) ->
    snd (poll_all poll_input inputs batches) = Some (Failed e).
  Proof.
    intros inputs. induction inputs as [|a inputs IH]; intros batches k e i Hi Hb He Hlater.
    - destruct k; discriminate.
    - destruct batches as [|b batches]; [destruct k; discriminate|]. cbn [poll_all].
      destruct k as [|k].
      + injection Hi as ->. injection Hb as ->.
        assert (N : snd (poll_all poll_input inputs batches) = None).
        { assert (Hl : forall j i', nth_error inputs j = Some i' -> nth_error batches j = Some None ->
            exists b, fst (poll_input i') = Batch b)
            by (intros j i' H1 H2; apply (Hlater (S j) i'); [lia|exact H1|exact H2]).
          clear -Hl. revert batches Hl. induction inputs as [|a inputs IH]; intros batches Hl;
            [reflexivity|].
          destruct batches as [|b batches]; [reflexivity|]. cbn [poll_all].
          assert (N : snd (poll_all poll_input inputs batches) = None)
            by (apply IH; intros j i' H1 H2; apply (Hl (S j) i' H1 H2)).
          destruct (poll_all poll_input inputs batches) as [[is bs] r]. cbn [snd] in N. subst r.
          destruct b as [b|]; [reflexivity|].
          destruct (Hl 0 a eq_refl eq_refl) as (b & E).
          destruct (poll_input a) as [p a']. cbn [fst] in E. subst p. reflexivity. }
        destruct (poll_all poll_input inputs batches) as [[is bs] r]. cbn [snd] in N. subst r.
        destruct (poll_input i) as [p i']. cbn [fst] in He. subst p. reflexivity.
      + assert (N : snd (poll_all poll_input inputs batches) = Some (Failed e)).
        { apply (IH batches k e i Hi Hb He). intros j i' Hj H1 H2.
          apply (Hlater (S j) i'); [lia|exact H1|exact H2]. }
        destruct (poll_all poll_input inputs batches) as [[is bs] r]. cbn [snd] in N. subst r.
        destruct b as [b|]; [reflexivity|].
        destruct (poll_input a) as [[|x|x|] a']; reflexivity.
  Qed.

  Lemma error_returned : forall inputs batches k e i,
    nth_error inputs k = Some i -> nth_error batches k = Some None ->
    fst (poll_input i) = Failed e ->
    (forall j i', k < j -> nth_error inputs j = Some i' -> nth_error batches j = Some None ->
       exists b, fst (poll_input i') = Batch b) ->
    exists s, join_poll poll_input order tags (JoinStream inputs batches) = Ok (Failed e, s).
  Proof.
    intros ins bs k e i Hi Hb He Hl.
    assert (E := poll_all_reason ins bs k e i Hi Hb He Hl).
    unfold join_poll. cbn [inputs batches].
    destruct (poll_all poll_input ins bs) as [[is bs'] r]. cbn [snd] in E. subst r.
    eexists. reflexivity.
  Qed.

  (** With one input everything is passed on. *)
  Definition one_field (b : list point) : list (list cell) := expected order tags b [b].

  Lemma single_join : forall b, order_fits order tags 1 ->
    sorted_join order tags [b] = Ok (one_field b).
  Proof.
    intros b (Hne & Hf & Ht). unfold sorted_join, one_field. destruct order; [congruence|].
    apply join_columns_ok; assumption.
  Qed.

  Lemma consume_single : forall n i, order_fits order tags 1 ->
    forall bs e, consume (fun i => Ok (poll_input i)) n i = Ok (bs, e) ->
    consume (join_poll poll_input order tags) n (JoinStream [i] [None])
    = Ok (map one_field bs, e).
  Proof.
    intros n. induction n as [|n IH]; intros i Ho bs e H; cbn [consume] in *.
    - injection H as <- <-. reflexivity.
    - unfold join_poll at 1. cbn [inputs batches poll_all bind] in *.
      destruct (poll_input i) as [[|b|k|] i'].
      + cbn [bind]. exact (IH i' Ho bs e H).
      + destruct (consume (fun i => Ok (poll_input i)) n i') as [[bs' e']| |] eqn:E;
          cbn [bind] in H; try discriminate.
        injection H as <- <-. cbn [all_read option_map set_to_smallest forallb].
        rewrite Nat.eqb_refl. cbn [andb]. rewrite (single_join b Ho). cbn [bind length repeat].
        rewrite (IH i' Ho bs' e' E). reflexivity.
      + injection H as <- <-. reflexivity.
      + injection H as <- <-. reflexivity.
  Qed.
End Errors.

(** A query of one field: [GridStream] and [SortedJoinStream]. *)
Lemma single_reports : forall (S : Type) (grid : S -> list point) predicate limit size order tags
    (i : stream (list S)) n k,
  unfinished i -> 0 < size -> limit <> Some 0 -> order_fits order tags 1 ->
  first_error i = Some k -> length i + length (points_of grid predicate i) < n ->
  exists bs, consume (join_poll (grid_poll grid predicate) order tags) n
               (join_stream_new [grid_stream_new limit i size]) = Ok (bs, Error k).
Proof.
  intros S grid predicate limit size order tags i n k Hu Hs Hl Ho Hk Hn.
  destruct (grid_reports grid predicate limit i size n k Hu Hs Hl Hk Hn) as (bs & E).
  exists (map (one_field order tags) bs).
  exact (consume_single (grid_poll grid predicate) order tags n _ Ho bs (Error k) E).
Qed.

(** Witnesses: segments are lists of data points, field [a] has the value [t] at time [t] and field
    [b] the value [10 * t]. *)
Definition a_at (t : Z) : point := Point t t [].
Definition b_at (t : Z) : point := Point t (10 * t) [].
Definition id_grid (s : list point) : list point := s.
Definition two_fields : list column_type := [Timestamp; Field; Field].

Definition failing : stream (list (list point)) := [Batch [[a_at 1]]; Failed 7].
Definition delayed : stream (list (list point)) := [Batch [[b_at 1]]; Pending; Batch [[b_at 2]]].

Lemma error_lost : exists (i j : stream (list (list point))) n k bs,
  unfinished i /\ fine j /\ first_error i = Some k
  /\ consume (join_poll (grid_poll id_grid None) two_fields []) n
       (join_stream_new [grid_stream_new None i 1; grid_stream_new None j 1]) = Ok (bs, Done)
  /\ all_columns 3 bs = [[Time_cell 1]; [Value_cell 1]; [Value_cell 10]]
  /\ length (points_of id_grid None j) = 2.
Proof.
  exists failing, delayed, 5, 7. eexists.
  split; [reflexivity|]. split; [reflexivity|]. split; [reflexivity|]. split; [reflexivity|].
  split; reflexivity.
Qed.

(** Two full batches of segments of field [a], one segment of field [b], and a predicate. *)
Definition from_two (p : point) : bool := (2 <=? p_time p)%Z.
Definition short_segments : stream (list (list point)) :=
  [Batch [[a_at 1]; [a_at 2]]; Batch [[a_at 3; a_at 4]]].
Definition long_segment : stream (list (list point)) :=
  [Batch [[b_at 1; b_at 2; b_at 3; b_at 4]]].

Lemma filter_misaligns : exists (i j : stream (list (list point))) predicate n bs,
  fine i /\ fine j /\ full 2 (batches_of i) /\ full 2 (batches_of j)
  /\ same_points (points_of id_grid (Some predicate) i) (points_of id_grid (Some predicate) j)
  /\ consume (join_poll (grid_poll id_grid (Some predicate)) two_fields []) n
       (join_stream_new [grid_stream_new None i 2; grid_stream_new None j 2]) = Ok (bs, Done)
  /\ all_columns 3 bs = [[Time_cell 2; Time_cell 3]; [Value_cell 2; Value_cell 3];
                         [Value_cell 20; Value_cell 40]]
  /\ length (points_of id_grid (Some predicate) i) = 3
  /\ (forall p, In p (points_of id_grid (Some predicate) j) -> p_time p = 3%Z -> p_value p = 30%Z).
Proof.
  exists short_segments, long_segment, from_two, 5. eexists.
  split; [reflexivity|]. split; [reflexivity|]. split; [split; [apply Nat.le_refl|exact I]|].
  split; [exact I|]. split; [reflexivity|]. split; [reflexivity|]. split; [reflexivity|].
  split; [reflexivity|].
  cbn. intros p Hp Ht. repeat (destruct Hp as [<-|Hp]; [cbn in Ht |- *; congruence|]). contradiction.
Qed.

(** The data points 1 and 4, and then 2 and 3, have been ingested. Segments are sorted by their
    first timestamp. *)
Definition overlapping : stream (list (list point)) :=
  [Batch [[a_at 1; a_at 4]; [a_at 2; a_at 3]]].
Definition separate : stream (list (list point)) :=
  [Batch [[b_at 1]; [b_at 2; b_at 3]; [b_at 4]]].

Lemma overlap_misaligns : exists (i j : stream (list (list point))) n bs,
  fine i /\ fine j /\ full 8 (batches_of i) /\ full 8 (batches_of j)
  /\ Permutation (map (fun p => (p_time p, p_tags p)) (points_of id_grid None i))
                 (map (fun p => (p_time p, p_tags p)) (points_of id_grid None j))
  /\ consume (join_poll (grid_poll id_grid None) two_fields []) n
       (join_stream_new [grid_stream_new None i 8; grid_stream_new None j 8]) = Ok (bs, Done)
  /\ all_columns 3 bs
     = [[Time_cell 1; Time_cell 4; Time_cell 2; Time_cell 3];
        [Value_cell 1; Value_cell 4; Value_cell 2; Value_cell 3];
        [Value_cell 10; Value_cell 20; Value_cell 30; Value_cell 40]]
  /\ (forall p, In p (points_of id_grid None j) -> p_time p = 4%Z -> p_value p = 40%Z).
Proof.
  exists overlapping, separate, 5. eexists.
  split; [reflexivity|]. split; [reflexivity|]. split; [exact I|]. split; [exact I|].
  split.
  { cbn. apply perm_skip. apply (Permutation_app_comm [_] [_; _]). }
  split; [reflexivity|]. split; [reflexivity|].
  cbn. intros p Hp Ht. repeat (destruct Hp as [<-|Hp]; [cbn in Ht |- *; congruence|]). contradiction.
Qed.

(** An example that meets the hypotheses: batches of two, pending polls at different times. *)
Definition waiting_a : stream (list (list point)) :=
  [Pending; Batch [[a_at 1]; [a_at 2; a_at 3]]; Pending; Batch [[a_at 4]]].
Definition waiting_b : stream (list (list point)) :=
  [Batch [[b_at 1; b_at 2]; [b_at 3; b_at 4]]; Pending; Pending].

Lemma join_example :
  let streams := [waiting_a; waiting_b] in
  Forall fine streams
  /\ (forall i, In i streams -> full 2 (batches_of i))
  /\ (forall i b s, In i streams -> In b (batches_of i) -> In s b -> selected None (id_grid s) <> [])
  /\ (forall i j, In i streams -> In j streams ->
        same_points (points_of id_grid None i) (points_of id_grid None j))
  /\ order_fits two_fields [] (length streams)
  /\ exists bs,
       consume (join_poll (grid_poll id_grid None) two_fields []) 16
         (join_stream_new (map (fun i => grid_stream_new None i 2) streams)) = Ok (bs, Done)
       /\ all_columns 3 bs
          = [map Time_cell [1; 2; 3; 4]; map Value_cell [1; 2; 3; 4];
             map Value_cell [10; 20; 30; 40]]%Z.
Proof.
  cbn zeta. split; [repeat constructor|]. split.
  { intros i [<-|[<-|[]]]; cbn; [split; [lia|exact I]|exact I]. }
  split.
  { intros i b s [<-|[<-|[]]] Hb Hs; cbn in Hb, Hs;
      repeat (destruct Hb as [<-|Hb]; [|]); try contradiction; cbn in Hs;
      repeat (destruct Hs as [<-|Hs]; [discriminate|]); contradiction. }
  split; [intros i j [<-|[<-|[]]] [<-|[<-|[]]]; reflexivity|].
  split; [split; [discriminate|split; [apply Nat.le_refl|intros name H; cbn in H; intuition discriminate]]|].
  eexists. split; reflexivity.
Qed.
