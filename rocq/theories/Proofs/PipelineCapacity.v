(** No buffer of the pipeline of Model/Pipeline.v has more data points than its capacity. *)
From Coq Require Import ZArith List Bool String Permutation Lia.
From Verif Require Import Model.Pipeline Spec.PipelineSpec Proofs.PipelineMaps Proofs.PipelineInvariant
  Proofs.PipelineSteps.
Import ListNotations.
Open Scope nat_scope.

Lemma nodup_put {A} k (m : list (Z * A)) a : NoDup (map fst m) -> NoDup (map fst (put Z.eqb k a m)).
Proof.
  intros H. destruct (get Z.eqb k m) as [b|] eqn:E.
  - rewrite (keys_put Z.eqb Z.eqb_eq k m a b E). exact H.
  - rewrite (put_none Z.eqb k m a E), map_app. cbn [map fst].
    apply (Permutation_NoDup (Permutation_cons_append _ _)). constructor; [|exact H].
    apply (get_none Z.eqb Z.eqb_eq). exact E.
Qed.

Lemma nodup_keys_filter {A} f (m : list (Z * A)) : NoDup (map fst m) -> NoDup (map fst (filter f m)).
Proof.
  induction m as [|[k a] m IH]; cbn [map fst filter]; intros H; [exact H|]. inversion H as [|x l H1 H2]; subst.
  destruct (f (k, a)); [|exact (IH H2)]. cbn [map fst]. constructor; [|exact (IH H2)].
  intros Hin. apply H1. apply in_map_iff in Hin. destruct Hin as [[k' a'] [E Hin]]. cbn in E. subst k'.
  apply filter_In in Hin. apply in_map_iff. exists (k, a'). split; [reflexivity|apply Hin].
Qed.

Lemma remove_gone {A} k (m : list (Z * A)) b : ~ In (k, b) (remove Z.eqb k m).
Proof. intros H. apply filter_In in H. destruct H as [_ H]. cbn [fst] in H. rewrite Z.eqb_refl in H. discriminate H. Qed.

Section Capacity.
  Variable hash : string -> Z.
  Variable capacity : nat.
  Variable sort : list point -> list point.
  Variable logging : bool.
  Hypothesis Hsort : sorts_points sort.
  Hypothesis Hcapacity : 2 <= capacity.

  Notation step := (step hash capacity sort logging).
  Notation run := (run hash capacity sort logging).
  Notation start := (start logging).

  Definition size (l : list point) : nat := List.length l.

  (** No buffer is full except the one about to be sent. *)
  Definition not_full (s : state) : Prop :=
    (forall h b, In (h, b) (s_memory s) -> (exists x l, s_ingestion s = Full h x l) \/ size (m_points b) < capacity)
    /\ (forall p f, In (p, f) (s_files s) -> size (f_points f) < capacity)
    /\ (forall c b, s_client s = Spilling c b -> size (m_points b) < capacity).
  (** The buffer that should be sent was spilled. *)
  Definition stuck (s : state) : Prop :=
    exists h x l, s_ingestion s = Full h x l /\ get Z.eqb h (s_memory s) = None.

  Record open_small (s : state) : Prop := {
    os_keys : NoDup (map fst (s_memory s));
    os_memory : forall h b, In (h, b) (s_memory s) -> size (m_points b) <= capacity;
    os_files : forall p f, In (p, f) (s_files s) -> size (f_points f) <= capacity;
    os_client : forall c b, s_client s = Spilling c b -> size (m_points b) <= capacity;
    os_full : not_full s \/ stuck s }.

  Lemma open_keep s s' : s_memory s' = s_memory s -> incl (s_files s') (s_files s) ->
    (forall c b, s_client s' = Spilling c b -> s_client s = Spilling c b) ->
    (forall h x l, s_ingestion s = Full h x l <-> s_ingestion s' = Full h x l) ->
    open_small s -> open_small s'.
  Proof.
    intros Em Ef Ec Ei [H1 H2 H3 H4 H5]. constructor.
    - rewrite Em. exact H1.
    - rewrite Em. exact H2.
    - intros p f H. exact (H3 p f (Ef _ H)).
    - intros c b H. exact (H4 c b (Ec c b H)).
    - destruct H5 as [(A & B & C)|(h & x & l & A & B)].
      + left. split; [|split].
        * rewrite Em. intros h b H. destruct (A h b H) as [(x & l & E)|E]; [left|right; exact E].
          exists x, l. apply Ei. exact E.
        * intros p f H. exact (B p f (Ef _ H)).
        * intros c b H. exact (C c b (Ec c b H)).
      + right. exists h, x, l. rewrite Em. split; [apply Ei; exact A|exact B].
  Qed.

  Lemma sorted_size l : size (sort l) = size l.
  Proof. unfold size. apply Permutation_length. apply Hsort. Qed.

  Lemma add_size i r id b : size (m_points (add_point i r id b)) = S (size (m_points b)).
  Proof. unfold size. cbn [add_point m_points]. rewrite app_length. cbn [List.length]. lia. Qed.

  (** A buffer is taken out of the map. *)
  Lemma take_open s b s1 : open_small s -> take_buffer s = Some (b, s1) ->
    size (m_points b) <= capacity /\ s_ingestion s1 = s_ingestion s /\ s_client s1 = s_client s /\ s_files s1 = s_files s
    /\ NoDup (map fst (s_memory s1)) /\ incl (s_memory s1) (s_memory s)
    /\ (not_full s -> size (m_points b) < capacity \/ stuck s1)
    /\ (stuck s -> stuck s1).
  Proof.
    intros [H1 H2 H3 H4 H5] H. unfold take_buffer in H. destruct (s_memory s) as [|[h c] rest] eqn:Em; [discriminate H|].
    injection H as -> <-. fields. cbn [map fst] in H1. inversion H1 as [|? ? Hn Hr]; subst.
    split; [exact (H2 h b (or_introl eq_refl))|]. split; [reflexivity|]. split; [reflexivity|]. split; [reflexivity|].
    split; [exact Hr|]. split; [intros e He; right; exact He|]. split.
    - intros (A & _). rewrite Em in A. destruct (A h b (or_introl eq_refl)) as [(x & l & E)|E]; [right|left; exact E].
      exists h, x, l. fields. split; [exact E|]. apply (get_none Z.eqb Z.eqb_eq). exact Hn.
    - intros (h' & x & l & E1 & E2). exists h', x, l. fields. split; [exact E1|]. rewrite Em in E2.
      cbn [get] in E2. destruct (Z.eqb h' h); [discriminate E2|exact E2].
  Qed.

  (** While data points are inserted no buffer is full. *)
  Lemma points_not_full s b l w : open_small s -> s_ingestion s = Points b l w ->
    (forall h c, In (h, c) (s_memory s) -> size (m_points c) < capacity)
    /\ (forall p f, In (p, f) (s_files s) -> size (f_points f) < capacity)
    /\ (forall c b, s_client s = Spilling c b -> size (m_points b) < capacity).
  Proof.
    intros H E. destruct (os_full _ H) as [(A & B & C)|(h & x & k & E1 & _)]; [|congruence].
    split; [|split; [exact B|exact C]]. intros h c Hin. destruct (A h c Hin) as [(x & k & E1)|E1]; [congruence|exact E1].
  Qed.

  Lemma files_put p f (files : list (path * file)) n : size (f_points f) <= n ->
    (forall q g, In (q, g) files -> size (f_points g) <= n) ->
    forall q g, In (q, g) (put path_eqb p f files) -> size (f_points g) <= n.
  Proof. intros Hf H q g Hin. apply (in_put path_eqb) in Hin. destruct Hin as [[_ ->]|Hin]; [exact Hf|exact (H q g Hin)]. Qed.

  Lemma open_strict s : NoDup (map fst (s_memory s)) ->
    (forall h c, In (h, c) (s_memory s) -> size (m_points c) < capacity) ->
    (forall p f, In (p, f) (s_files s) -> size (f_points f) < capacity) ->
    (forall c b, s_client s = Spilling c b -> size (m_points b) < capacity) -> open_small s.
  Proof.
    intros H1 H2 H3 H4. constructor; [exact H1| | | |].
    - intros h b H. specialize (H2 h b H). lia.
    - intros p f H. specialize (H3 p f H). lia.
    - intros c b H. specialize (H4 c b H). lia.
    - left. split; [|split; [exact H3|exact H4]]. intros h b H. right. exact (H2 h b H).
  Qed.

  Lemma reserve_open w m s s1 ok b l v : open_small s -> s_ingestion s = Points b l v ->
    reserve capacity sort w m s = Some (s1, ok) ->
    (NoDup (map fst (s_memory s1))
     /\ (forall h c, In (h, c) (s_memory s1) -> size (m_points c) < capacity)
     /\ (forall p f, In (p, f) (s_files s1) -> size (f_points f) < capacity)
     /\ (forall c b, s_client s1 = Spilling c b -> size (m_points b) < capacity))
    /\ exists v', s_ingestion s1 = Points b l v'.
  Proof.
    intros Hs Ei E. pose proof (points_not_full s b l v Hs Ei) as (A & B & C). pose proof (os_keys _ Hs) as K.
    unfold reserve in E. destruct (Z.leb _ _).
    { injection E as <- _. fields. split; [auto|]. exists v. exact Ei. }
    destruct (s_uncompressed s); [|discriminate E].
    destruct (take_buffer s) as [[x s2]|] eqn:Et.
    2:{ injection E as <- _. split; [auto|]. exists v. exact Ei. }
    destruct (take_open s x s2 Hs Et) as (T1 & T2 & T3 & T4 & T5 & T6 & T7 & _).
    assert (Hx : size (m_points x) < capacity).
    { destruct (os_full _ Hs) as [N|(h & y & k & E1 & _)]; [|congruence].
      destruct (T7 N) as [T|(h & y & k & E1 & _)]; [exact T|congruence]. }
    destruct w; injection E as <- _; unfold spill, spill_failed; fields.
    - split; [|rewrite T2, Ei; exists false; reflexivity].
      split; [exact T5|]. split; [intros h c H; exact (A h c (T6 _ H))|]. split.
      + intros p f H. rewrite T4 in H. apply (in_put path_eqb) in H. destruct H as [[_ ->]|H]; [|exact (B p f H)].
        cbn [spilled_file f_points]. rewrite sorted_size. exact Hx.
      + rewrite T3. exact C.
    - split; [|rewrite T2; exists v; exact Ei].
      split; [apply nodup_put; exact T5|]. split; [|split].
      + intros h c H. apply (in_put Z.eqb) in H. destruct H as [[_ ->]|H]; [|exact (A h c (T6 _ H))].
        cbn [m_points]. unfold size. cbn [List.length]. lia.
      + rewrite T4. exact B.
      + rewrite T3. exact C.
  Qed.

  (** A data point is added to a buffer that is not full. *)
  Lemma inserted_open s h i r id buffer b l (full : bool) : 
    NoDup (map fst (s_memory s)) ->
    (forall h c, In (h, c) (s_memory s) -> size (m_points c) < capacity) ->
    (forall p f, In (p, f) (s_files s) -> size (f_points f) < capacity) ->
    (forall c b, s_client s = Spilling c b -> size (m_points b) < capacity) ->
    size (m_points buffer) < capacity ->
    (full = false -> size (m_points (add_point i r id buffer)) < capacity) ->
    open_small (inserted h full (add_point i r id buffer) b l s).
  Proof.
    intros K A B C Hb Hf. pose proof (add_size i r id buffer) as Hn.
    constructor; unfold inserted; fields.
    - apply nodup_put. exact K.
    - intros h' c H. apply (in_put Z.eqb) in H. destruct H as [[_ ->]|H]; [rewrite Hn; lia|specialize (A h' c H); lia].
    - intros p f H. specialize (B p f H). lia.
    - intros c x H. specialize (C c x H). lia.
    - left. split; [|split; [exact B|exact C]]. fields. intros h' c H. apply (in_put Z.eqb) in H.
      destruct H as [[-> ->]|H]; [|right; exact (A h' c H)].
      destruct full; [left; exists b, l; reflexivity|right; apply Hf; reflexivity].
  Qed.

  Lemma is_full_not i r id buffer : size (m_points buffer) < capacity ->
    is_full capacity (add_point i r id buffer) = false -> size (m_points (add_point i r id buffer)) < capacity.
  Proof.
    intros H E. apply Nat.eqb_neq in E. pose proof (add_size i r id buffer). unfold size in *. lia.
  Qed.

  Lemma step_open e s s' : open_small s -> step e s = Next s' -> open_small s'.
  Proof.
    intros Hs H. destruct e; cbn [Pipeline.step] in H.
    (* Adjust *)
    9:{ destruct (s_client s) as [| | | | |c|c b|c|c t b|] eqn:Ec; try discriminate H.
      - destruct (Z.ltb _ _).
        + destruct (take_buffer s) as [[b s1]|] eqn:Et; injection H as <-.
          * destruct (take_open s b s1 Hs Et) as (T1 & T2 & T3 & T4 & T5 & T6 & T7 & T8).
            pose proof (os_memory _ Hs) as M. pose proof (os_files _ Hs) as Fi.
            constructor; fields.
            -- exact T5.
            -- intros h x Hx. exact (M h x (T6 _ Hx)).
            -- rewrite T4. exact Fi.
            -- intros c' b' E. injection E as _ <-. exact T1.
            -- destruct (os_full _ Hs) as [N|N].
               ++ destruct (T7 N) as [T|T].
                  ** left. destruct N as (A & B & _). split; [|split]; fields.
                     --- intros h x Hx. rewrite T2. exact (A h x (T6 _ Hx)).
                     --- rewrite T4. exact B.
                     --- intros c' b' E. injection E as _ <-. exact T.
                  ** right. exact T.
               ++ right. exact (T8 N).
          * revert Hs. apply open_keep; fields; [reflexivity|apply incl_refl|discriminate|].
            intros h x l. destruct (s_ingestion s); cbn [wake]; split; congruence.
        + injection H as <-. revert Hs. apply open_keep; fields; [reflexivity|apply incl_refl|discriminate|].
          intros h x l. reflexivity.
      - injection H as <-. destruct Hs as [H1 H2 H3 H4 H5]. specialize (H4 c b Ec) as Hb.
        constructor; unfold spill; fields.
        + exact H1.
        + exact H2.
        + apply files_put; [cbn [spilled_file f_points]; rewrite sorted_size; exact Hb|exact H3].
        + discriminate.
        + destruct H5 as [(A & B & C)|(h & x & l & A & B)].
          * left. specialize (C c b Ec). split; [|split]; fields.
            -- intros h x Hx. destruct (A h x Hx) as [(y & l & E)|E]; [left|right; exact E]. rewrite E. exists y, l. reflexivity.
            -- intros p f Hf. apply (in_put path_eqb) in Hf. destruct Hf as [[_ ->]|Hf]; [|exact (B p f Hf)].
               cbn [spilled_file f_points]. rewrite sorted_size. exact C.
            -- discriminate.
          * right. exists h, x, l. fields. rewrite A. split; [reflexivity|exact B].
      - destruct (Z.ltb _ _).
        + destruct (pop_buffer s) as [[[t b] s1]|] eqn:Ep; [|discriminate H]. injection H as <-.
          unfold pop_buffer in Ep. destruct (s_queue s); [discriminate Ep|]. destruct (get _ _ _); [|discriminate Ep].
          injection Ep as -> -> <-. revert Hs. apply open_keep; fields; [reflexivity|apply incl_refl|discriminate|].
          intros h x l0. reflexivity.
        + injection H as <-. revert Hs. apply open_keep; fields; [reflexivity|apply incl_refl|discriminate|].
          intros h x l. reflexivity.
      - injection H as <-. revert Hs. apply open_keep; unfold save; fields; [reflexivity|apply incl_refl|discriminate|].
        intros h x l. reflexivity. }
    (* Receive *)
    10:{ destruct (s_ingestion s) eqn:Ei; try discriminate H.
      destruct (s_ingested s) as [|m rest]; [discriminate H|].
      assert (N : not_full s).
      { destruct (os_full _ Hs) as [N|(h & x & l & E & _)]; [exact N|congruence]. }
      destruct N as (A & B & C). destruct Hs as [H1 H2 H3 H4 H5].
      destruct m as [b| |]; injection H as <-; apply open_strict; unfold finish_all, finish_buffers; fields;
        try assumption; try apply nodup_keys_filter; try exact H1;
        intros h b' Hin; try (apply filter_In in Hin; destruct Hin as [Hin _]);
        destruct (A h b' Hin) as [(x & l & E)|E]; try congruence; exact E. }
    (* Point *)
    10:{ destruct (s_ingestion s) as [|b l w| | |] eqn:Ei; try discriminate H. destruct l as [|r l]; [discriminate H|].
      destruct w; [discriminate H|]. unfold insert_data_point in H. cbv zeta in H.
      pose proof (points_not_full s b (r :: l) false Hs Ei) as (A & B & C). pose proof (os_keys _ Hs) as K.
      destruct (get Z.eqb _ (s_memory s)) as [buffer|] eqn:Eg.
      { injection H as <-. assert (Hb : size (m_points buffer) < capacity).
        { apply (A (tag_hash hash (t_name (b_meta b)) (r_tags r))). apply (get_in Z.eqb Z.eqb_eq). exact Eg. }
        apply inserted_open; try assumption. apply is_full_not. exact Hb. }
      destruct (reserve _ _ _ _ s) as [[s1 ok]|] eqn:Er.
      2:{ injection H as <-. revert Hs. apply open_keep; fields; [reflexivity|apply incl_refl|auto|].
          intros h x k. rewrite Ei. split; discriminate. }
      destruct (reserve_open _ _ _ _ _ _ _ _ Hs Ei Er) as ((K1 & A1 & B1 & C1) & v & Ei1).
      destruct ok; [|injection H as <-; apply open_strict; fields; assumption].
      destruct (get Z.eqb _ (s_disk s1)) as [d|].
      - destruct (get path_eqb _ (s_files s1)) as [f|] eqn:Ef; injection H as <-.
        2:{ apply open_strict; fields; assumption. }
        assert (Hf : size (f_points f) < capacity).
        { apply (B1 (d_path d)). apply (get_in path_eqb path_eqb_eq). exact Ef. }
        apply inserted_open; fields; try assumption.
        + intros p g Hg. apply (B1 p). apply (in_remove path_eqb (d_path d)). exact Hg.
        + apply is_full_not. exact Hf.
      - injection H as <-. apply inserted_open; try assumption.
        + unfold size. cbn [new_buffer m_points List.length]. lia.
        + intros _. rewrite add_size. unfold size. cbn [new_buffer m_points List.length]. lia. }
    (* Send_full *)
    10:{ destruct (s_ingestion s) as [| |h b l| |] eqn:Ei; try discriminate H.
      destruct (get Z.eqb h (s_memory s)) as [buffer|] eqn:Eg; [|discriminate H]. injection H as <-.
      assert (N : not_full s).
      { destruct (os_full _ Hs) as [N|(h' & x & k & E & E')]; [exact N|]. rewrite Ei in E. injection E as <- _ _. congruence. }
      destruct N as (A & B & C). destruct Hs as [H1 H2 H3 H4 H5].
      apply open_strict; fields; try assumption.
      - apply nodup_keys_filter. exact H1.
      - intros h' c Hin. assert (Hne : h' <> h).
        { intros ->. exact (remove_gone h (s_memory s) c Hin). }
        apply in_remove in Hin. destruct (A h' c Hin) as [(x & k & E)|E]; [|exact E]. rewrite Ei in E. congruence. }
    (* Finish *)
    10:{ destruct (s_ingestion s) as [|b l w| | |] eqn:Ei; try discriminate H. destruct l as [|r l]; [|discriminate H].
      injection H as <-. pose proof (points_not_full s b [] w Hs Ei) as (A & B & C).
      apply open_strict; unfold finish_buffers; fields; try assumption.
      - apply nodup_keys_filter. apply Hs.
      - intros h c Hin. apply filter_In in Hin. exact (A h c (proj1 Hin)). }
    (* Crash *)
    15:{ injection H as <-. apply open_strict; unfold Pipeline.start; fields; try (intros; contradiction); [constructor|discriminate]. }
    (* Reorder_memory *)
    15:{ injection H as <-. pose proof (to_front_perm n (s_memory s)) as Hp. destruct Hs as [H1 H2 H3 H4 H5].
      constructor; fields; try assumption.
      - apply (Permutation_NoDup (Permutation_map fst (Permutation_sym Hp))). exact H1.
      - intros h b Hin. exact (H2 h b (Permutation_in _ Hp Hin)).
      - destruct H5 as [(A & B & C)|(h & x & l & A & B)].
        + left. split; [|split; [exact B|exact C]]. fields. intros h b Hin. exact (A h b (Permutation_in _ Hp Hin)).
        + right. exists h, x, l. fields. split; [exact A|]. apply (get_none Z.eqb Z.eqb_eq).
          apply (get_none Z.eqb Z.eqb_eq) in B. intros Hin. apply B. exact (Permutation_in _ (Permutation_map fst Hp) Hin). }
    all: repeat match type of H with
      | context [match pop_buffer ?x with _ => _ end] =>
          let E := fresh "E" in destruct (pop_buffer x) as [[[? ?] ?]|] eqn:E; [unfold pop_buffer in E|]
      | context [match ?x with _ => _ end] =>
          match x with
          | context [match _ with _ => _ end] => fail 1
          | _ => let E := fresh "E" in destruct x eqn:E
          end
      end; try discriminate H; injection H as <-.
    all: repeat match goal with E : match ?x with _ => _ end = Some _ |- _ => destruct x eqn:?; [discriminate E || idtac|discriminate E || idtac] end.
    all: repeat match goal with E : Some _ = Some _ |- _ => injection E as <- <- <- end.
    all: revert Hs; apply open_keep; unfold save; fields;
      try reflexivity; try apply incl_refl; try discriminate; try (intros; assumption); try (intros; congruence).
    all: try (intros e He; exact (in_remove path_eqb _ _ _ He)).
    all: try (intros h x l; destruct (s_ingestion s); cbn [wake]; split; congruence).
  Qed.

  (** ** Buffers that were sent *)
  Definition all_small (l : list segments) : Prop := forall g, In g l -> size (g_points g) <= capacity.

  Record sent_small (s : state) : Prop := {
    ss_uncompressed : forall b, In (Data (InMemory b)) (s_uncompressed s) -> size (m_points b) <= capacity;
    ss_busy : forall n m tags points ids, s_compressor s = Busy n m tags points ids -> size points <= capacity;
    ss_channel : forall g, In (Data g) (s_compressed s) -> size (g_points g) <= capacity;
    ss_buffers : forall t b, In (t, b) (s_buffers s) -> all_small (c_segments b);
    ss_saving : forall c t b, s_client s = Saving c t b -> all_small (c_segments b);
    ss_writer : forall t b k, s_writer s = Committing t b k -> all_small (c_segments b);
    ss_table : forall k, In k (s_table s) -> all_small (k_segments k) }.

  Lemma append_small g b : size (g_points g) <= capacity -> all_small (c_segments b) ->
    all_small (c_segments (append_segments g b)).
  Proof.
    intros Hg Hb x Hx. cbn [append_segments c_segments] in Hx. apply in_app_iff in Hx.
    destruct Hx as [Hx|[<-|[]]]; [exact (Hb x Hx)|exact Hg].
  Qed.

  Lemma pop_small s t b s1 : sent_small s -> pop_buffer s = Some (t, b, s1) ->
    sent_small s1 /\ all_small (c_segments b).
  Proof.
    intros Hs H. unfold pop_buffer in H. destruct (s_queue s) as [|t' q]; [discriminate H|].
    destruct (get String.eqb t' (s_buffers s)) as [b'|] eqn:E; [|discriminate H].
    injection H as -> -> <-. destruct Hs as [H1 H2 H3 H4 H5 H6 H7]. split.
    - constructor; fields; try assumption. intros t' b' H. apply (H4 t'). apply (in_remove String.eqb t). exact H.
    - apply (H4 t). apply (get_in String.eqb String.eqb_eq). exact E.
  Qed.

  Lemma save_small t b s : sent_small s -> all_small (c_segments b) -> sent_small (save t b s).
  Proof.
    intros [H1 H2 H3 H4 H5 H6 H7] Hb. constructor; unfold save; fields; try assumption.
    intros k H. apply in_app_iff in H. destruct H as [H|[<-|[]]]; [exact (H7 k H)|exact Hb].
  Qed.

  Lemma reserve_small w m s s1 ok : sent_small s -> reserve capacity sort w m s = Some (s1, ok) -> sent_small s1.
  Proof.
    intros Hs E. unfold reserve, take_buffer, spill_failed, spill in E.
    destruct (Z.leb _ _).
    { injection E as <- _. destruct Hs; constructor; assumption. }
    destruct (s_uncompressed s) eqn:Eu; [|discriminate E].
    destruct (s_memory s) as [|[h c] k]; [injection E as <- _; exact Hs|].
    destruct w; injection E as <- _; destruct Hs; constructor; fields; assumption.
  Qed.

  Lemma finish_small f g s : open_small s -> sent_small s -> sent_small (finish_buffers f g s).
  Proof.
    intros Ho [H1 H2 H3 H4 H5 H6 H7]. constructor; unfold finish_buffers; fields; try assumption.
    intros b H. apply in_app_iff in H. destruct H as [H|H]; [exact (H1 b H)|].
    apply in_app_iff in H. destruct H as [H|H]; apply in_map_iff in H; destruct H as [[h x] [E H]]; [|discriminate E].
    injection E as <-. apply filter_In in H. apply (os_memory _ Ho h). apply H.
  Qed.

  Ltac into := destruct_all; constructor; fields; try assumption; try (intros; congruence)
  with destruct_all := match goal with Hx : sent_small _ |- _ => destruct Hx end.

  Lemma step_sent e s s' : open_small s -> sent_small s -> step e s = Next s' -> sent_small s'.
  Proof.
    intros Ho Hs H. destruct e; cbn [Pipeline.step] in H.
    (* Adjust *)
    9:{ destruct (s_client s) as [| | | | |c|c b|c|c t b|] eqn:Ec; try discriminate H.
      - unfold take_buffer in H. destruct (Z.ltb _ _); [destruct (s_memory s) as [|[? ?] ?]|]; injection H as <-; into.
      - injection H as <-. unfold spill. into.
      - destruct (Z.ltb _ _).
        + destruct (pop_buffer s) as [[[t b] s1]|] eqn:Ep; [|discriminate H]. injection H as <-.
          apply pop_small in Ep; [|exact Hs]. destruct Ep as [Ep Hb]. destruct Ep. constructor; fields; try assumption.
          intros ? ? ? E. injection E as _ _ <-. exact Hb.
        + injection H as <-. into.
      - injection H as <-. pose proof (save_small t b s Hs (ss_saving _ Hs _ _ _ Ec)) as Hx.
        destruct Hx. constructor; fields; try assumption. discriminate. }
    (* Receive *)
    10:{ destruct (s_ingestion s) eqn:Ei; try discriminate H.
      destruct (s_ingested s) as [|m rest]; [discriminate H|].
      pose proof (finish_small (fun _ => true) (fun _ => true) s Ho Hs) as Hf.
      destruct m as [b| |]; injection H as <-.
      - clear Hf. into.
      - destruct Hf as [F1 F2 F3 F4 F5 F6 F7]. constructor; unfold finish_all, finish_buffers in *; fields; try assumption.
        intros b Hb. apply in_app_iff in Hb. destruct Hb as [Hb|[Hb|[]]]; [exact (F1 b Hb)|discriminate Hb].
      - destruct Hf as [F1 F2 F3 F4 F5 F6 F7]. constructor; unfold finish_all, finish_buffers in *; fields; try assumption.
        intros b Hb. apply in_app_iff in Hb. destruct Hb as [Hb|[Hb|[]]]; [exact (F1 b Hb)|discriminate Hb]. }
    (* Point *)
    10:{ destruct (s_ingestion s) as [|b l w| | |] eqn:Ei; try discriminate H. destruct l as [|r l]; [discriminate H|].
      destruct w; [discriminate H|]. unfold insert_data_point in H. cbv zeta in H.
      destruct (get Z.eqb _ (s_memory s)) as [buffer|]; [injection H as <-; unfold inserted; into|].
      destruct (reserve _ _ _ _ s) as [[s1 ok]|] eqn:Er; [|injection H as <-; into].
      apply reserve_small in Er; [|exact Hs]. clear Hs Ho.
      destruct ok; [|injection H as <-; into].
      destruct (get Z.eqb _ (s_disk s1)) as [d|]; [destruct (get path_eqb _ (s_files s1))|]; injection H as <-; unfold inserted; into. }
    (* Send_full *)
    10:{ destruct (s_ingestion s) as [| |h b l| |] eqn:Ei; try discriminate H.
      destruct (get Z.eqb h (s_memory s)) as [buffer|] eqn:Eg; [|discriminate H]. injection H as <-.
      destruct Hs as [H1 H2 H3 H4 H5 H6 H7]. constructor; fields; try assumption.
      intros x Hx. apply in_app_iff in Hx. destruct Hx as [Hx|[Hx|[]]]; [exact (H1 x Hx)|]. injection Hx as <-.
      apply (os_memory _ Ho h). apply (get_in Z.eqb Z.eqb_eq). exact Eg. }
    (* Finish *)
    10:{ destruct (s_ingestion s) as [|b l w| | |] eqn:Ei; try discriminate H. destruct l as [|r l]; [|discriminate H].
      injection H as <-. cbv zeta. set (f := fun u => is_unused u (s_index s)).
      pose proof (finish_small f f s Ho Hs) as Hf. clear Hs. revert Hf. generalize (finish_buffers f f s). intros x Hf. into. }
    (* Compress *)
    10:{ destruct (s_compressor s) as [| | |] eqn:Ek; try discriminate H.
      destruct (s_uncompressed s) as [|x rest] eqn:Eu; [discriminate H|].
      destruct Hs as [H1 H2 H3 H4 H5 H6 H7]. rewrite Eu in H1.
      assert (Hsub : forall b, In (Data (InMemory b)) rest -> size (m_points b) <= capacity).
      { intros b Hb. apply H1. right. exact Hb. }
      destruct x as [[b|d]| |].
      - injection H as <-. constructor; fields; try assumption. intros n m tags points ids E.
        injection E as <- <- <- <- <-. rewrite sorted_size. apply H1. left. reflexivity.
      - destruct (get path_eqb (d_path d) (s_files s)) as [f|] eqn:Ef; injection H as <-;
          constructor; fields; try assumption; try discriminate.
        intros n m tags points ids E. injection E as <- <- <- <- <-.
        apply (os_files _ Ho (d_path d)). apply (get_in path_eqb path_eqb_eq). exact Ef.
      - injection H as <-. constructor; fields; try assumption.
        intros g Hg. apply in_app_iff in Hg. destruct Hg as [Hg|[Hg|[]]]; [exact (H3 g Hg)|discriminate Hg].
      - injection H as <-. constructor; fields; try assumption; try discriminate.
        intros g Hg. apply in_app_iff in Hg. destruct Hg as [Hg|[Hg|[]]]; [exact (H3 g Hg)|discriminate Hg]. }
    (* Send_segments *)
    10:{ destruct (s_compressor s) as [|mem m tags points ids| |] eqn:Ek; try discriminate H.
      destruct (Nat.eqb _ _ && _); [|discriminate H]. injection H as <-.
      destruct Hs as [H1 H2 H3 H4 H5 H6 H7]. constructor; fields; try assumption; try discriminate.
      intros g Hg. apply in_app_iff in Hg. destruct Hg as [Hg|[Hg|[]]]; [exact (H3 g Hg)|].
      injection Hg as <-. cbn [g_points]. exact (H2 _ _ _ _ _ Ek). }
    (* Write *)
    10:{ destruct (s_writer s) eqn:Ew; try discriminate H.
      destruct (s_compressed s) as [|m rest] eqn:Em; [discriminate H|].
      destruct Hs as [H1 H2 H3 H4 H5 H6 H7]. rewrite Em in H3.
      assert (Hsub : forall g, In (Data g) rest -> size (g_points g) <= capacity).
      { intros g Hg. apply H3. right. exact Hg. }
      destruct m as [g| |]; fields.
      - assert (Hg : size (g_points g) <= capacity) by (apply H3; left; reflexivity).
        destruct (get String.eqb (t_name (g_meta g)) (s_buffers s)) as [b|] eqn:Eg; injection H as <-;
          (constructor; fields; try assumption; [|intros; discriminate]);
          intros t c Hin; apply (in_put String.eqb) in Hin; (destruct Hin as [[_ ->]|Hin]; [|exact (H4 t c Hin)]);
          (apply append_small; [exact Hg|]).
        + apply (H4 (t_name (g_meta g))). apply (get_in String.eqb String.eqb_eq). exact Eg.
        + intros x [].
      - injection H as <-. constructor; fields; try assumption. intros; discriminate.
      - injection H as <-. constructor; fields; try assumption. intros; discriminate. }
    (* Work *)
    10:{ destruct (s_writer s) as [|t| | |] eqn:Ew; try discriminate H.
      assert (Hp : forall t b s1 t', pop_buffer s = Some (t, b, s1) -> sent_small (with_writer (Committing t b t') s1)).
      { intros t0 b s1 t' Ep. apply pop_small in Ep; [|exact Hs]. destruct Ep as [Ep Hb].
        destruct Ep. constructor; fields; try assumption. intros ? ? ? E. injection E as _ <- _. exact Hb. }
      destruct t as [n| |].
      - destruct (Z.leb _ _); [injection H as <-; into|].
        destruct (pop_buffer s) as [[[t b] s1]|] eqn:Ep; [|discriminate H]. injection H as <-. apply Hp. reflexivity.
      - destruct (s_queue s); [injection H as <-; into|].
        destruct (pop_buffer s) as [[[t b] s1]|] eqn:Ep; [|discriminate H]. injection H as <-. apply Hp. reflexivity.
      - destruct (s_queue s); [injection H as <-; into|].
        destruct (pop_buffer s) as [[[t b] s1]|] eqn:Ep; [|discriminate H]. injection H as <-. apply Hp. reflexivity. }
    (* Commit *)
    10:{ destruct (s_writer s) as [| |t b k| |] eqn:Ew; try discriminate H. destruct written.
      - injection H as <-. pose proof (save_small t b s Hs (ss_writer _ Hs _ _ _ Ew)) as Hx.
        destruct Hx. constructor; fields; try assumption. intros; discriminate.
      - destruct k; injection H as <-; into. }
    (* Crash *)
    10:{ injection H as <-. pose proof (ss_table _ Hs). constructor; unfold Pipeline.start; fields;
      try (intros; contradiction); try discriminate. assumption. }
    all: repeat match type of H with
      | context [match ?x with _ => _ end] =>
          match x with
          | context [match _ with _ => _ end] => fail 1
          | _ => let E := fresh "E" in destruct x eqn:E
          end
      end; try discriminate H; injection H as <-; into.
  Qed.

  Lemma run_small events : forall s s', open_small s -> sent_small s -> run events s = Next s' -> sent_small s'.
  Proof.
    induction events as [|e events IH]; intros s s' Ho Hs H; cbn [Pipeline.run] in H.
    - injection H as <-. exact Hs.
    - destruct (step e s) as [| |s1] eqn:E; try discriminate H.
      exact (IH s1 s' (step_open e s s1 Ho E) (step_sent e s s1 Ho Hs E) H).
  Qed.

  (** No buffer that was committed has more data points than fit. *)
  Lemma committed_small events limits s : run events (start limits [] []) = Next s ->
    forall k g, In k (s_table s) -> In g (k_segments k) -> List.length (g_points g) <= capacity.
  Proof.
    intros H k g Hk Hg.
    assert (H1 : open_small (start limits [] [])).
    { apply open_strict; unfold Pipeline.start; fields; try (intros; contradiction); [constructor|discriminate]. }
    assert (H2 : sent_small (start limits [] [])).
    { constructor; unfold Pipeline.start; fields; try (intros; contradiction); discriminate. }
    exact (ss_table _ (run_small events _ _ H1 H2 H) k Hk g Hg).
  Qed.
End Capacity.
