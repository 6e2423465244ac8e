(** The batches that are returned by joining fields: consecutive data points. *)
From Coq Require Import ZArith Bool String List Lia.
From Verif Require Import Model.Base Model.Streams Spec.StreamsSpec
  Proofs.GridStreamProofs Proofs.JoinStreamProofs.
Import ListNotations.
Open Scope nat_scope.
Open Scope list_scope.

Definition chunk {A} (size i : nat) (l : list A) : list A := firstn size (skipn (i * size) l).

Lemma chunk_next : forall A size i (l : list A), chunk size i (skipn size l) = chunk size (S i) l.
Proof.
  intros A size i l. unfold chunk. f_equal.
  replace (S i * size) with (size + i * size) by lia. now rewrite skipn_add.
Qed.
Lemma chunk_map : forall A B (f : A -> B) size i l, chunk size i (map f l) = map f (chunk size i l).
Proof. intros A B f size i l. unfold chunk. now rewrite skipn_map, firstn_map. Qed.

Lemma concat_chunks : forall A size k j (l : list A),
  concat (map (fun i => chunk size i l) (seq j k)) = firstn (k * size) (skipn (j * size) l).
Proof.
  intros A size. induction k as [|k IH]; intros j l; [reflexivity|].
  cbn [seq map concat]. rewrite IH. unfold chunk.
  assert (E : skipn (S j * size) l = skipn size (skipn (j * size) l)).
  { replace (S j * size) with (j * size + size) by lia. apply skipn_add. }
  rewrite E. generalize (skipn (j * size) l). intros r.
  cbn [Nat.mul]. revert r. generalize (k * size). clear.
  induction size as [|size IH]; intros n r; [reflexivity|].
  destruct r as [|a r]; [now rewrite !firstn_nil|].
  cbn [firstn skipn Nat.add app]. f_equal. apply IH.
Qed.

Section Join.
  Context {I : Type}.
  Variable poll_input : I -> poll (list point) * I.
  Variable order : list column_type.
  Variable tags : list string.
  Variable size : nat.
  Variable R : I -> list point -> Prop.
  Variable mu : I -> nat.
  Hypothesis HR : forall i rest, R i rest ->
    let (p, i') := poll_input i in
    match p with
    | Pending => R i' rest /\ mu i' < mu i
    | Batch b => b = firstn size rest /\ R i' (skipn size rest) /\ mu i' < mu i
    | Finished => rest = [] /\ R i' [] /\ mu i' <= mu i
    | Failed _ => False
    end.

  Definition joined (rests : list (list point)) (i : nat) : list (list cell) :=
    expected order tags (chunk size i (hd [] rests)) (map (chunk size i) rests).

  Lemma consume_chunks : forall n s rests,
    order_fits order tags (length rests) -> 0 < length rests -> aligned rests ->
    slots size R (inputs s) (batches s) rests -> some_unread (batches s) ->
    exists k e, consume (join_poll poll_input order tags) n s
                = Ok (map (joined rests) (seq 0 k), e)
      /\ (e = Running \/ e = Done)
      /\ (e = Done -> forall r, In r rests -> length r <= k * size)
      /\ (total mu (inputs s) < n -> e = Done).
  Proof.
    induction n as [|n IH]; intros s rests Ho Hn Ha Hs Hu; cbn [consume].
    - exists 0, Running. split; [reflexivity|]. split; [now left|]. split; [discriminate|lia].
    - unfold join_poll at 1. assert (P := poll_all_spec poll_input size R mu HR _ _ _ Hs).
      destruct (poll_all poll_input (inputs s) (batches s)) as [[inputs' batches'] reason].
      destruct P as (Hs' & Ht & P).
      destruct reason as [[|b|e|]|]; cbn [bind].
      + destruct P as [Hu' Ht'].
        destruct (IH (JoinStream inputs' batches') rests Ho Hn Ha Hs' Hu')
          as (k & e & E & He & Hd & Hl).
        exists k, e. split; [exact E|]. split; [exact He|].
        split; [exact Hd|]. intros H. apply Hl. cbn [inputs]. lia.
      + contradiction.
      + contradiction.
      + destruct P as (r & Hr & Er). subst r.
        exists 0, Done. split; [reflexivity|]. split; [now right|]. split; [|reflexivity].
        intros _ f Hf. assert (L := same_points_length _ _ (Ha f [] Hf Hr)). cbn in *. lia.
      + destruct P as (Hread & Hs'' & Hdec). rewrite Hread.
        destruct (aligned_step size rests Ha) as [Ha1 Ha2].
        rewrite (set_to_smallest_same _ _ (aligned_lengths _ Ha1)).
        destruct Ho as (Hne & Hf & Htags).
        assert (Ej : sorted_join order tags (map (firstn size) rests)
                     = Ok (expected order tags (firstn size (hd [] rests)) (map (firstn size) rests))).
        { unfold sorted_join. destruct rests as [|r rests]; [cbn [length] in Hn; lia|].
          cbn [map hd]. destruct order as [|c o]; [congruence|].
          rewrite join_columns_ok; [reflexivity| |exact Htags].
          cbn [length map] in *. rewrite map_length. exact Hf. }
        rewrite Ej. cbn [bind].
        destruct (IH (JoinStream inputs' (repeat None (length batches'))) (map (skipn size) rests))
          as (k & e & E & He & Hd & Hl).
        * split; [exact Hne|]. rewrite map_length. split; assumption.
        * rewrite map_length. exact Hn.
        * exact Ha2.
        * exact Hs''.
        * unfold some_unread. cbn [batches].
          assert (Hlen : length batches' = length rests).
          { clear -Hs'. induction Hs'; [reflexivity|]. cbn [length]. f_equal. assumption. }
          destruct batches' as [|b' batches']; [cbn [length] in Hlen; lia|left; reflexivity].
        * rewrite E. cbn [bind]. exists (S k), e.
          split; [|split; [exact He|split]].
          -- f_equal. f_equal. cbn [seq map]. f_equal.
             rewrite <- seq_shift, map_map. apply map_ext. intros i. unfold joined.
             rewrite (hd_map _ (skipn size)) by apply skipn_nil.
             rewrite chunk_next, map_map. f_equal. apply map_ext. intros r. apply chunk_next.
          -- intros He' r Hr. specialize (Hd He' (skipn size r) (in_map _ _ _ Hr)).
             rewrite skipn_length in Hd. cbn [Nat.mul]. lia.
          -- intros H. apply Hl. cbn [inputs]. specialize (Hdec Hu). lia.
  Qed.
End Join.

Lemma join_grids_chunks :
  forall (S : Type) (grid : S -> list point) predicate limit size order tags streams,
  0 < size -> limit <> Some 0 -> streams <> [] -> Forall fine streams ->
  (forall i, In i streams ->
     full (match limit with Some l => Nat.min l size | None => size end) (batches_of i)) ->
  (forall i b s, In i streams -> In b (batches_of i) -> In s b ->
     selected predicate (grid s) <> []) ->
  (forall i j, In i streams -> In j streams ->
     same_points (points_of grid predicate i) (points_of grid predicate j)) ->
  order_fits order tags (length streams) ->
  let points := map (points_of grid predicate) streams in
  let size' := match limit with Some l => Nat.min l size | None => size end in
  forall n, exists k e,
    consume (join_poll (grid_poll grid predicate) order tags) n
      (join_stream_new (map (fun i => grid_stream_new limit i size) streams))
    = Ok (map (joined order tags size' points) (seq 0 k), e)
    /\ (e = Running \/ e = Done)
    /\ (e = Done -> forall r, In r points -> length r <= k * size')
    /\ (list_sum (map (fun i => length i + length (points_of grid predicate i)) streams) < n ->
        e = Done).
Proof.
  intros S grid predicate limit size order tags streams Hsize Hlimit Hne Hf Hfull Hseg Hsame Ho
    points size' n.
  assert (Hsize' : 0 < size') by (subst size'; destruct limit as [[|l]|]; [congruence|lia|lia]).
  assert (Hlen : length points = length streams) by apply map_length.
  assert (Hpos : 0 < length streams) by (destruct streams; [congruence|cbn [length]; lia]).
  destruct (consume_chunks (grid_poll grid predicate) order tags size' (chunked grid predicate size')
              (measure grid predicate) (chunked_poll grid predicate size' Hsize') n
              (join_stream_new (map (fun i => grid_stream_new limit i size) streams)) points)
    as (k & e & E & He & Hd & Hl).
  - rewrite Hlen. exact Ho.
  - lia.
  - intros a b Ha Hb. apply in_map_iff in Ha. apply in_map_iff in Hb.
    destruct Ha as (i & <- & Hi). destruct Hb as (j & <- & Hj). exact (Hsame i j Hi Hj).
  - subst points. cbn [join_stream_new inputs batches]. rewrite map_length.
    clear Hpos Hlen Ho Hsame Hne.
    induction streams as [|i streams IH]; cbn [map repeat length]; constructor.
    + apply Forall_cons_iff in Hf. destruct Hf as [Hf _].
      split; [apply new_sane|]. split; [exact Hf|]. split; [reflexivity|]. split; [reflexivity|].
      split; [apply Hfull; left; reflexivity|].
      intros b s Hb Hs. apply (Hseg i b s); [left; reflexivity|exact Hb|exact Hs].
    + apply Forall_cons_iff in Hf. destruct Hf as [_ Hf]. apply IH.
      * exact Hf.
      * intros j Hj. apply Hfull. right. exact Hj.
      * intros j b s Hj. apply Hseg. right. exact Hj.
  - cbn [join_stream_new batches]. rewrite map_length.
    destruct streams; [congruence|]. left. reflexivity.
  - exists k, e. split; [exact E|]. split; [exact He|]. split; [exact Hd|].
    intros H. apply Hl. cbn [join_stream_new inputs]. rewrite total_new. exact H.
Qed.
