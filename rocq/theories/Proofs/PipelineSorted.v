(** The data points of everything the pipeline of Model/Pipeline.v has written, is about to write or
    has spilled are sorted by time. *)
From Coq Require Import ZArith List Bool String Permutation Sorted Lia.
From Verif Require Import Model.Pipeline Spec.PipelineSpec Proofs.PipelineMaps Proofs.PipelineInvariant
  Proofs.PipelineSteps.
Import ListNotations.
Open Scope Z_scope.

Definition in_order (points : list point) : Prop := StronglySorted earlier points.
Definition all_in_order (l : list segments) : Prop := forall g, In g l -> in_order (g_points g).

Record sorted_ok (s : state) : Prop := {
  so_files : forall p f, In (p, f) (s_files s) -> in_order (f_points f);
  so_busy : forall n m tags points ids, s_compressor s = Busy n m tags points ids -> in_order points;
  so_channel : forall g, In (Data g) (s_compressed s) -> in_order (g_points g);
  so_buffers : forall t b, In (t, b) (s_buffers s) -> all_in_order (c_segments b);
  so_saving : forall c t b, s_client s = Saving c t b -> all_in_order (c_segments b);
  so_writer : forall t b k, s_writer s = Committing t b k -> all_in_order (c_segments b);
  so_table : forall k, In k (s_table s) -> all_in_order (k_segments k) }.

Section Sorted.
  Variable hash : string -> Z.
  Variable capacity : nat.
  Variable sort : list point -> list point.
  Variable logging : bool.
  Hypothesis Hsort : sorts_points sort.

  Notation step := (step hash capacity sort logging).
  Notation run := (run hash capacity sort logging).
  Notation start := (start logging).

  Lemma append_order g b : in_order (g_points g) -> all_in_order (c_segments b) ->
    all_in_order (c_segments (append_segments g b)).
  Proof.
    intros Hg Hb x Hx. cbn [append_segments c_segments] in Hx. apply in_app_iff in Hx.
    destruct Hx as [Hx|[<-|[]]]; [exact (Hb x Hx)|exact Hg].
  Qed.

  Lemma pop_order s t b s1 : sorted_ok s -> pop_buffer s = Some (t, b, s1) ->
    sorted_ok s1 /\ all_in_order (c_segments b).
  Proof.
    intros Hs H. unfold pop_buffer in H. destruct (s_queue s) as [|t' q]; [discriminate H|].
    destruct (get String.eqb t' (s_buffers s)) as [b'|] eqn:E; [|discriminate H].
    injection H as -> -> <-. destruct Hs as [H1 H2 H3 H4 H5 H6 H7]. split.
    - constructor; fields; try assumption. intros t' b' H. apply (H4 t'). apply (in_remove String.eqb t). exact H.
    - apply (H4 t). apply (get_in String.eqb String.eqb_eq). exact E.
  Qed.

  Lemma spill_order s b : sorted_ok s -> sorted_ok (spill capacity sort b s).
  Proof.
    intros [H1 H2 H3 H4 H5 H6 H7]. constructor; unfold spill; fields; try assumption.
    intros p f H. apply (in_put path_eqb) in H. destruct H as [[_ ->]|H]; [|exact (H1 p f H)].
    cbn [spilled_file f_points]. apply Hsort.
  Qed.

  Lemma save_order t b s : sorted_ok s -> all_in_order (c_segments b) -> sorted_ok (save t b s).
  Proof.
    intros [H1 H2 H3 H4 H5 H6 H7] Hb. constructor; unfold save; fields; try assumption.
    intros k H. apply in_app_iff in H. destruct H as [H|[<-|[]]]; [exact (H7 k H)|exact Hb].
  Qed.

  Lemma reserve_order w m s s1 ok : sorted_ok s -> reserve capacity sort w m s = Some (s1, ok) -> sorted_ok s1.
  Proof.
    intros Hs E. unfold reserve, take_buffer, spill_failed in E.
    destruct (memory_size capacity m <=? uncompressed (s_pool s)).
    { injection E as <- _. destruct Hs; constructor; assumption. }
    destruct (s_uncompressed s); [|discriminate E].
    destruct (s_memory s) as [|[h c] k]; [injection E as <- _; exact Hs|].
    destruct w; injection E as <- _; [apply spill_order|]; destruct Hs; constructor; assumption.
  Qed.

  Lemma step_order e s s' : sorted_ok s -> step e s = Next s' -> sorted_ok s'.
  Proof.
    intros Hs H.
    destruct e; cbn [Pipeline.step] in H.
    12:{ destruct (s_ingestion s) as [|b l w| | |] eqn:Ei; try discriminate H. destruct l as [|r l]; [discriminate H|].
      destruct w; [discriminate H|]. unfold insert_data_point in H. cbv zeta in H.
      destruct (get Z.eqb _ (s_memory s)) as [buffer|].
      { injection H as <-. destruct Hs; constructor; assumption. }
      destruct (reserve _ _ _ _ s) as [[s1 ok]|] eqn:Er.
      2:{ injection H as <-. destruct Hs; constructor; assumption. }
      apply reserve_order in Er; [|exact Hs].
      destruct ok; [|injection H as <-; destruct Er; constructor; assumption].
      destruct (get Z.eqb _ (s_disk s1)) as [d|];
        [destruct (get path_eqb _ (s_files s1))|]; injection H as <-; destruct Er as [H1 H2 H3 H4 H5 H6 H7];
        constructor; unfold inserted; fields; try assumption.
      intros p f0 Hf. apply (H1 p). apply (in_remove path_eqb (d_path d)). exact Hf. }
    14:{ destruct (s_compressor s) as [| | |] eqn:Ek; try discriminate H.
      destruct (s_uncompressed s) as [|x rest] eqn:Eu; [discriminate H|].
      destruct Hs as [H1 H2 H3 H4 H5 H6 H7].
      destruct x as [[b|d]| |].
      - injection H as <-. constructor; fields; try assumption. intros n m tags points ids E.
        injection E as <- <- <- <- <-. apply Hsort.
      - destruct (get path_eqb (d_path d) (s_files s)) as [f|] eqn:Ef; injection H as <-;
          constructor; fields; try assumption; try discriminate.
        + intros p f0 Hf. apply (H1 p). apply (in_remove path_eqb (d_path d)). exact Hf.
        + intros n m tags points ids E. injection E as <- <- <- <- <-.
          apply (H1 (d_path d)). apply (get_in path_eqb path_eqb_eq). exact Ef.
      - injection H as <-. constructor; fields; try assumption.
        intros g Hg. apply in_app_iff in Hg. destruct Hg as [Hg|[Hg|[]]]; [exact (H3 g Hg)|discriminate Hg].
      - injection H as <-. constructor; fields; try assumption; try discriminate.
        intros g Hg. apply in_app_iff in Hg. destruct Hg as [Hg|[Hg|[]]]; [exact (H3 g Hg)|discriminate Hg]. }
    14:{ destruct (s_compressor s) as [|mem m tags points ids| |] eqn:Ek; try discriminate H.
      destruct (Nat.eqb (List.length sizes) (t_fields m) && forallb (Z.leb 0) sizes) eqn:E; [|discriminate H].
      injection H as <-.
      destruct Hs as [H1 H2 H3 H4 H5 H6 H7]. constructor; fields; try assumption; try discriminate.
      intros g Hg. apply in_app_iff in Hg. destruct Hg as [Hg|[Hg|[]]]; [exact (H3 g Hg)|].
      injection Hg as <-. cbn [g_points]. exact (H2 _ _ _ _ _ Ek). }
    14:{ destruct (s_writer s) eqn:Ew; try discriminate H.
      destruct (s_compressed s) as [|m rest] eqn:Em; [discriminate H|].
      destruct Hs as [H1 H2 H3 H4 H5 H6 H7].
      assert (Hsub : forall g, In (Data g) rest -> in_order (g_points g)).
      { intros g Hg. apply H3. rewrite Em. right. exact Hg. }
      destruct m as [g| |]; fields.
      - assert (Hg : in_order (g_points g)) by (apply H3; rewrite Em; left; reflexivity).
        destruct (get String.eqb (t_name (g_meta g)) (s_buffers s)) as [b|] eqn:Eg; injection H as <-;
          (constructor; fields; try assumption; [|intros; discriminate]);
          intros t c Hin; apply (in_put String.eqb) in Hin; (destruct Hin as [[_ ->]|Hin]; [|exact (H4 t c Hin)]);
          (apply append_order; [exact Hg|]).
        + apply (H4 (t_name (g_meta g))). apply (get_in String.eqb String.eqb_eq). exact Eg.
        + intros x [].
      - injection H as <-. constructor; fields; try assumption. intros; discriminate.
      - injection H as <-. constructor; fields; try assumption. intros; discriminate. }
    all: unfold take_buffer in H; repeat match type of H with
      | context [match pop_buffer ?x with _ => _ end] =>
          let E := fresh "E" in destruct (pop_buffer x) as [[[? ?] ?]|] eqn:E;
          [apply pop_order in E; [destruct E|exact Hs]|]
      | context [match ?x with _ => _ end] =>
          match x with
          | context [match _ with _ => _ end] => fail 1
          | _ => let E := fresh "E" in destruct x eqn:E
          end
      end; try discriminate H; injection H as <-.
    all: try (destruct Hs as [H1 H2 H3 H4 H5 H6 H7]; constructor; unfold finish_all, finish_buffers; fields;
      try assumption; try (intros; congruence);
      try (intros g Hg; apply in_app_iff in Hg; destruct Hg as [Hg|[Hg|[]]]; [apply H3; exact Hg|discriminate Hg])).
    all: try (match goal with Hx : sorted_ok _ |- _ => destruct Hx as [G1 G2 G3 G4 G5 G6 G7]; constructor; fields;
      try assumption; intros; congruence end).
    all: try (constructor; unfold Pipeline.start; fields; intros; try contradiction; discriminate).
    all: try exact (so_files _ (spill_order s b (Build_sorted_ok s H1 H2 H3 H4 H5 H6 H7))).
    all: try (match goal with Hx : all_in_order (c_segments ?c), Hy : sorted_ok ?s1 |- sorted_ok (_ ?s1) =>
      destruct Hy; constructor; fields; try assumption; intros ? ? ? Ex; injection Ex; intros; subst; exact Hx end).
    - pose proof (spill_order s b Hs) as Hx.
      destruct Hx as [G1 G2 G3 G4 G5 G6 G7]. constructor; [exact G1|exact G2|exact G3|exact G4| |exact G6|exact G7].
      fields. discriminate.
    - pose proof (save_order table b s Hs (so_saving _ Hs _ _ _ E)) as Hx.
      destruct Hx as [G1 G2 G3 G4 G5 G6 G7]. constructor; [exact G1|exact G2|exact G3|exact G4| |exact G6|exact G7].
      fields. discriminate.
    - exact (so_table _ (save_order table b s (Build_sorted_ok s H1 H2 H3 H4 H5 H6 H7) (H5 _ _ _ E0))).
    - exact (so_table _ (save_order table b s (Build_sorted_ok s H1 H2 H3 H4 H5 H6 H7) (H6 _ _ _ E))).
    - intros p f [].
    - discriminate.
    - intros g [].
    - intros t b [].
    - discriminate.
    - discriminate.
  Qed.

  Lemma run_order events : forall s s', sorted_ok s -> run events s = Next s' -> sorted_ok s'.
  Proof.
    induction events as [|e events IH]; intros s s' Hs H; cbn [Pipeline.run] in H.
    - injection H as <-. exact Hs.
    - destruct (step e s) as [| |s1] eqn:E; try discriminate H. exact (IH s1 s' (step_order e s s1 Hs E) H).
  Qed.

  Lemma start_order limits : sorted_ok (start limits [] []).
  Proof. constructor; unfold Pipeline.start; fields; try contradiction; discriminate. Qed.
End Sorted.
