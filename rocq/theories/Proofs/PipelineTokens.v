(** Where the message of a flush or a stop is in the pipeline of Model/Pipeline.v, and what that says
    about everything before it. *)
From Coq Require Import ZArith List Bool String Permutation Sorted Lia.
From Verif Require Import Model.Pipeline Spec.PipelineSpec Proofs.PipelineMaps Proofs.PipelineInvariant
  Proofs.PipelineSteps Proofs.PipelineIds Proofs.PipelineRuns Proofs.PipelineMemory.
Import ListNotations.
Open Scope Z_scope.

Definition is_data {A : Type} (m : message A) : Prop := match m with Data _ => True | _ => False end.
Definition token {A : Type} (stop : bool) : message A := if stop then Stop else Flush.

Definition reserving (w : writer) : Prop :=
  match w with Waiting | Working (Reserve _) | Committing _ _ (Reserve _) | Writer_failed => True | _ => False end.
Definition flushing (stop : bool) (w : writer) : Prop :=
  match w with
  | Working Flush_all | Committing _ _ Flush_all => stop = false
  | Working Stop_all | Committing _ _ Stop_all => stop = true
  | _ => False
  end.

Definition ahead3 (s : state) : Prop := reserving (s_writer s) /\ s_results s = O.
Definition ahead2 (s : state) : Prop :=
  s_compressor s <> Compressor_stopped /\ Forall is_data (s_compressed s) /\ ahead3 s.
Definition ahead1 (s : state) : Prop :=
  s_ingestion s <> Stopped /\ Forall is_data (s_uncompressed s) /\ ahead2 s.
Definition calm (s : state) : Prop := Forall is_data (s_ingested s) /\ ahead1 s.

Definition drained1 (stop : bool) (s : state) : Prop :=
  s_ingested s = [] /\ s_ingestion s = (if stop then Stopped else Receiving) /\ s_memory s = [] /\ s_disk s = [].
Definition drained2 (stop : bool) (s : state) : Prop :=
  drained1 stop s /\ s_uncompressed s = [] /\ s_compressor s = (if stop then Compressor_stopped else Ready).
Definition drained3 (stop : bool) (s : state) : Prop := drained2 stop s /\ s_compressed s = [].

Definition placed {A : Type} (stop : bool) (c : list (message A)) : Prop :=
  exists pre, c = pre ++ [token stop] /\ Forall is_data pre.

Definition finished (stop : bool) (s : state) : Prop :=
  drained3 stop s /\ s_writer s = (if stop then Writer_stopped else Waiting) /\ s_buffers s = [] /\ s_queue s = [].

Inductive position (stop : bool) (s : state) : Prop :=
| In_ingested : placed stop (s_ingested s) -> ahead1 s -> position stop s
| In_uncompressed : drained1 stop s -> placed stop (s_uncompressed s) -> ahead2 s -> position stop s
| In_compressed : drained2 stop s -> placed stop (s_compressed s) -> ahead3 s -> position stop s
| At_writer : drained3 stop s -> flushing stop (s_writer s) -> s_results s = O -> position stop s
| Answered : finished stop s -> s_results s = 1%nat -> position stop s.

Definition tokens (s : state) : Prop :=
  match s_client s with
  | Flushing => position false s
  | Closing => position true s
  | Closed => finished true s /\ s_results s = O
  | _ => calm s
  end.

Lemma placed_snoc {A} stop (c : list (message A)) : Forall is_data c -> placed stop (c ++ [token stop]).
Proof. intros H. exists c. split; [reflexivity|exact H]. Qed.

Lemma placed_cons {A} stop (m : message A) c :
  placed stop (m :: c) -> (is_data m /\ placed stop c) \/ (m = token stop /\ c = []).
Proof.
  intros [pre [E H]]. destruct pre as [|m' pre]; cbn [app] in E.
  - right. injection E as -> ->. split; reflexivity.
  - left. injection E as -> ->. apply Forall_cons_iff in H. destruct H as [H1 H2].
    split; [exact H1|]. exists pre. split; [reflexivity|exact H2].
Qed.

Lemma placed_nil {A} stop : ~ placed stop (@nil (message A)).
Proof. intros [pre [E _]]. destruct pre; discriminate E. Qed.

Lemma placed_none {A} stop (c : list (message A)) : placed stop c -> c <> [].
Proof. intros H ->. apply (placed_nil stop H). Qed.

Section Tokens.
  Variable hash : string -> Z.
  Variable capacity : nat.
  Variable sort : list point -> list point.
  Variable logging : bool.

  Notation step := (step hash capacity sort logging).
  Notation wf := (wf hash).

  (** Nothing relevant changes but what the ingestion thread does to its own buffers. *)
  Lemma tokens_same s s' :
    s_client s' = s_client s -> s_ingested s' = s_ingested s -> s_uncompressed s' = s_uncompressed s ->
    s_compressed s' = s_compressed s -> s_results s' = s_results s -> s_compressor s' = s_compressor s ->
    s_writer s' = s_writer s -> s_buffers s' = s_buffers s -> s_queue s' = s_queue s ->
    (s_ingestion s = Stopped -> s_ingestion s' = Stopped /\ s_memory s' = s_memory s /\ s_disk s' = s_disk s) ->
    (s_ingestion s = Receiving -> s_ingestion s' = Receiving /\ s_memory s' = s_memory s /\ s_disk s' = s_disk s) ->
    (s_ingestion s <> Stopped -> s_ingestion s' <> Stopped) ->
    tokens s -> tokens s'.
  Proof.
    intros E1 E2 E3 E4 E5 E6 E7 E8 E9 E10 E11 E12.
    assert (H3 : ahead3 s -> ahead3 s') by (unfold ahead3; rewrite E7, E5; tauto).
    assert (H2 : ahead2 s -> ahead2 s') by (unfold ahead2; rewrite E4, E6; tauto).
    assert (H1 : ahead1 s -> ahead1 s') by (unfold ahead1; rewrite E3; tauto).
    assert (D1 : forall stop, drained1 stop s -> drained1 stop s').
    { intros stop [G1 [G2 [G3 G4]]]. unfold drained1. rewrite E2.
      destruct stop; [destruct (E10 G2) as [F1 [F2 F3]]|destruct (E11 G2) as [F1 [F2 F3]]];
        rewrite F1, F2, F3; tauto. }
    assert (D2 : forall stop, drained2 stop s -> drained2 stop s').
    { intros stop [G1 G2]. unfold drained2. rewrite E3, E6. split; [apply D1; exact G1|exact G2]. }
    assert (D3 : forall stop, drained3 stop s -> drained3 stop s').
    { intros stop [G1 G2]. unfold drained3. rewrite E4. split; [apply D2; exact G1|exact G2]. }
    assert (D4 : forall stop, finished stop s -> finished stop s').
    { intros stop [G1 G2]. unfold finished. rewrite E7, E8, E9. split; [apply D3; exact G1|exact G2]. }
    assert (D : forall stop, position stop s -> position stop s').
    { intros stop [P Q|P Q R|P Q R|P Q R|P Q].
      - apply In_ingested; [rewrite E2; exact P|apply H1; exact Q].
      - apply In_uncompressed; [apply D1; exact P|rewrite E3; exact Q|apply H2; exact R].
      - apply In_compressed; [apply D2; exact P|rewrite E4; exact Q|apply H3; exact R].
      - apply At_writer; [apply D3; exact P|rewrite E7; exact Q|rewrite E5; exact R].
      - apply Answered; [apply D4; exact P|rewrite E5; exact Q]. }
    unfold tokens. rewrite E1. destruct (s_client s); try (unfold calm; rewrite E2; tauto); try apply D.
    intros [F G]. split; [apply D4; exact F|rewrite E5; exact G].
  Qed.

  Lemma calm_or s : tokens s ->
    calm s \/ (exists stop, position stop s /\ s_client s = (if stop then Closing else Flushing))
    \/ (finished true s /\ s_results s = O /\ s_client s = Closed).
  Proof.
    unfold tokens. destruct (s_client s); intros H; try (left; exact H).
    - right. left. exists false. split; [exact H|reflexivity].
    - right. left. exists true. split; [exact H|reflexivity].
    - right. right. tauto.
  Qed.

  (** Leaving the client as it is. *)
  Lemma tokens_intro s s' :
    s_client s' = s_client s ->
    (calm s -> calm s') ->
    (forall stop, position stop s -> position stop s') ->
    (finished true s -> s_results s = O -> finished true s' /\ s_results s' = O) ->
    tokens s -> tokens s'.
  Proof.
    intros E1 H1 H2 H3. unfold tokens. rewrite E1. destruct (s_client s); try exact H1; try apply H2.
    intros [G1 G2]. apply H3; assumption.
  Qed.

  Lemma tokens_reordered s memory disk :
    (s_memory s = [] -> s_disk s = [] -> memory = [] /\ disk = []) ->
    tokens s -> tokens (with_memory memory (with_disk disk s)).
  Proof.
    intros H.
    assert (D1 : forall stop, drained1 stop s -> drained1 stop (with_memory memory (with_disk disk s))).
    { intros stop [G1 [G2 [G3 G4]]]. destruct (H G3 G4) as [F1 F2]. unfold drained1. fields. tauto. }
    assert (D2 : forall stop, drained2 stop s -> drained2 stop (with_memory memory (with_disk disk s))).
    { intros stop [G1 G2]. split; [apply D1; exact G1|exact G2]. }
    assert (D3 : forall stop, drained3 stop s -> drained3 stop (with_memory memory (with_disk disk s))).
    { intros stop [G1 G2]. split; [apply D2; exact G1|exact G2]. }
    assert (D4 : forall stop, finished stop s -> finished stop (with_memory memory (with_disk disk s))).
    { intros stop [G1 G2]. split; [apply D3; exact G1|exact G2]. }
    apply tokens_intro; [reflexivity|tauto| |].
    - intros stop [P Q|P Q R|P Q R|P Q R|P Q].
      + apply In_ingested; assumption.
      + apply In_uncompressed; [apply D1|..]; assumption.
      + apply In_compressed; [apply D2|..]; assumption.
      + apply At_writer; [apply D3|..]; assumption.
      + apply Answered; [apply D4|]; assumption.
    - intros P Q. split; [apply D4; exact P|exact Q].
  Qed.

  Lemma pop_fields s t b s1 : pop_buffer s = Some (t, b, s1) ->
    s1 = with_queue (tl (s_queue s)) (with_buffers (remove String.eqb t (s_buffers s)) s)
    /\ exists q, s_queue s = t :: q.
  Proof.
    unfold pop_buffer. destruct (s_queue s) as [|t' q]; [discriminate|].
    destruct (get String.eqb t' (s_buffers s)); [|discriminate].
    intros H. injection H as -> -> <-. split; [reflexivity|]. exists q. reflexivity.
  Qed.

  Lemma tokens_step e s s' :
    wf s -> tokens s -> commits_written e -> step e s = Next s' -> tokens s'.
  Proof.
    intros Hw Ht Hcw H. destruct e.
    12:{ pose proof (point_same hash capacity sort logging _ _ _ (ex_intro _ spilled eq_refl) H)
        as [E1 [E2 [E3 [E4 [E5 [E6 [E7 [E8 [E9 [E10 E11]]]]]]]]]].
      cbn [Pipeline.step] in H. destruct (s_ingestion s) as [|b l w| | |] eqn:Ei; try discriminate H.
      destruct l as [|r l]; [discriminate H|]. destruct w; [discriminate H|].
      apply (tokens_same s); try assumption; try (rewrite Ei; discriminate).
      intros _. unfold insert_data_point in H. cbv zeta in H.
      repeat match type of H with
        | context [match ?x with _ => _ end] =>
            match x with
            | context [match _ with _ => _ end] => fail 1
            | _ => destruct x
            end
        end; try discriminate H; injection H as <-; unfold inserted; fields; try discriminate;
        destruct (is_full _ _); discriminate. }
    all: cbn [Pipeline.step] in H.
    - destruct (s_client s) eqn:Ec; try discriminate H. destruct (0 <=? size); [|discriminate H].
      injection H as <-. unfold tokens in *. rewrite Ec in Ht. fields. exact Ht.
    - destruct (s_client s) eqn:Ec; try discriminate H.
      destruct (b_size b <=? ingested (s_pool s)); [|discriminate H]. injection H as <-.
      unfold tokens in *. rewrite Ec in Ht. fields. destruct Ht as [H1 H2]. split; [|exact H2].
      apply Forall_app. split; [exact H1|]. constructor; [exact I|constructor].
    - destruct (s_client s) eqn:Ec; try discriminate H. injection H as <-.
      unfold tokens in *. rewrite Ec in Ht. fields. destruct Ht as [H1 H2].
      apply In_ingested; [|exact H2]. fields. apply (placed_snoc false). exact H1.
    - destruct (s_client s) eqn:Ec; try discriminate H. injection H as <-.
      unfold tokens in *. rewrite Ec in Ht. fields. destruct Ht as [H1 H2].
      apply In_ingested; [|exact H2]. fields. apply (placed_snoc true). exact H1.
    - (* Return *)
      destruct (s_client s) eqn:Ec; try discriminate H; destruct (s_results s) as [|n] eqn:Er; try discriminate H.
      + injection H as <-. unfold tokens in *. rewrite Ec in Ht. fields.
        destruct Ht as [P Q|P Q R|P Q R|P Q R|P Q]; unfold ahead1, ahead2, ahead3 in *; try (exfalso; intuition congruence).
        rewrite Er in Q. injection Q as ->.
        destruct P as [[[[P1 [P2 [P3 P4]]] [P5 P6]] P7] [P8 [P9 P10]]].
        unfold calm, ahead1, ahead2, ahead3. fields. rewrite P1, P2, P5, P6, P7, P8.
        repeat split; try discriminate; constructor.
      + destruct (is_finished s); [|discriminate H]. injection H as <-. unfold tokens in *. rewrite Ec in Ht. fields.
        destruct Ht as [P Q|P Q R|P Q R|P Q R|P Q]; unfold ahead1, ahead2, ahead3 in *; try (exfalso; intuition congruence).
        rewrite Er in Q. injection Q as ->. split; [exact P|reflexivity].
    - destruct (s_client s) eqn:Ec; try discriminate H.
      destruct (0 <=? ingested (s_limits s) + change); [|discriminate H]. injection H as <-.
      apply (tokens_same s); try reflexivity; tauto.
    - destruct (s_client s) eqn:Ec; try discriminate H.
      destruct (0 <=? uncompressed (s_limits s) + change); [|discriminate H]. injection H as <-.
      unfold tokens in *. rewrite Ec in Ht. fields. unfold calm, ahead1, ahead2, ahead3 in *. fields.
      destruct (s_ingestion s); cbn [wake]; intuition congruence.
    - destruct (s_client s) eqn:Ec; try discriminate H.
      destruct (0 <=? compressed (s_limits s) + change); [|discriminate H]. injection H as <-.
      unfold tokens in *. rewrite Ec in Ht. fields. exact Ht.
    - destruct (s_client s) eqn:Ec; try discriminate H; unfold tokens in *; rewrite Ec in Ht.
      + unfold take_buffer in H. destruct (uncompressed (s_pool s) <? 0).
        * destruct (s_memory s) as [|[h b] l]; injection H as <-; fields; [|exact Ht].
          unfold calm, ahead1, ahead2, ahead3 in *. fields. destruct (s_ingestion s); cbn [wake]; intuition congruence.
        * injection H as <-. exact Ht.
      + injection H as <-. unfold spill. fields. unfold calm, ahead1, ahead2, ahead3 in *. fields.
        destruct (s_ingestion s); cbn [wake]; intuition congruence.
      + destruct (compressed (s_pool s) <? 0).
        * destruct (pop_buffer s) as [[[t b] s1]|] eqn:E; [|discriminate H]. injection H as <-.
          apply pop_fields in E. destruct E as [-> _]. exact Ht.
        * injection H as <-. exact Ht.
      + injection H as <-. exact Ht.
    - destruct (s_client s) as [| | | | | | | | |l] eqn:Ec; try discriminate H. unfold tokens in *. rewrite Ec in Ht.
      destruct l as [|b l].
      + injection H as <-. exact Ht.
      + destruct (b_size b <=? ingested (s_pool s)); [|discriminate H]. injection H as <-. fields.
        destruct Ht as [H1 H2]. split; [|exact H2].
        apply Forall_app. split; [exact H1|]. constructor; [exact I|constructor].
    - (* Receive *)
      destruct (s_ingestion s) eqn:Ei; try discriminate H.
      destruct (s_ingested s) as [|m rest] eqn:Em; [discriminate H|].
      assert (Hnd : forall stop, ~ drained1 stop s) by (intros stop [C _]; congruence).
      assert (Hsent : forall A B (f : A -> B) l, Forall is_data (map (fun a => Data (f a)) l)).
      { intros A B f l. apply Forall_forall. intros x Hx. apply in_map_iff in Hx. destruct Hx as [a [<- _]]. exact I. }
      revert Ht. destruct m as [b| |]; injection H as <-; apply tokens_intro; try reflexivity.
      + intros [H1 [H2 H3]]. unfold calm, ahead1. fields. rewrite Em in H1. apply Forall_cons_iff in H1.
        split; [apply H1|]. split; [discriminate|exact H3].
      + intros stop [P Q|P Q R|P Q R|P Q R|P Q]; try (exfalso; unfold finished, drained3, drained2 in *; apply (Hnd stop); tauto).
        rewrite Em in P. apply placed_cons in P. destruct P as [[_ P]|[P _]]; [|destruct stop; discriminate P].
        apply In_ingested; [exact P|]. destruct Q as [Q1 Q2]. split; [fields; discriminate|exact Q2].
      + intros P. exfalso. unfold finished, drained3, drained2 in P. apply (Hnd true). tauto.
      + intros [H1 _]. rewrite Em in H1. apply Forall_cons_iff in H1. destruct H1 as [[] _].
      + intros stop [P Q|P Q R|P Q R|P Q R|P Q]; try (exfalso; unfold finished, drained3, drained2 in *; apply (Hnd stop); tauto).
        rewrite Em in P. apply placed_cons in P. destruct P as [[[] _]|[P ->]].
        destruct stop; [discriminate P|]. destruct Q as [Q1 [Q2 Q3]].
        apply In_uncompressed.
        * unfold drained1, finish_all, finish_buffers. fields. rewrite Ei. cbn [negb]. rewrite !filter_none. tauto.
        * unfold finish_all, finish_buffers. fields. apply (placed_snoc false).
          apply Forall_app. split; [exact Q2|]. apply Forall_app. split; apply Hsent.
        * exact Q3.
      + intros P. exfalso. unfold finished, drained3, drained2 in P. apply (Hnd true). tauto.
      + intros [H1 _]. rewrite Em in H1. apply Forall_cons_iff in H1. destruct H1 as [[] _].
      + intros stop [P Q|P Q R|P Q R|P Q R|P Q]; try (exfalso; unfold finished, drained3, drained2 in *; apply (Hnd stop); tauto).
        rewrite Em in P. apply placed_cons in P. destruct P as [[[] _]|[P ->]].
        destruct stop; [|discriminate P]. destruct Q as [Q1 [Q2 Q3]].
        apply In_uncompressed.
        * unfold drained1, finish_all, finish_buffers. fields. cbn [negb]. rewrite !filter_none. tauto.
        * unfold finish_all, finish_buffers. fields. apply (placed_snoc true).
          apply Forall_app. split; [exact Q2|]. apply Forall_app. split; apply Hsent.
        * exact Q3.
      + intros P. exfalso. unfold finished, drained3, drained2 in P. apply (Hnd true). tauto.
    - (* Send_full *)
      destruct (s_ingestion s) as [| |h b rest| |] eqn:Ei; try discriminate H.
      destruct (get Z.eqb h (s_memory s)) as [buffer|]; [|discriminate H]. injection H as <-.
      assert (Hnd : forall stop, ~ drained1 stop s).
      { intros stop [_ [C _]]. rewrite Ei in C. destruct stop; discriminate C. }
      assert (H1 : ahead1 s -> ahead1 (with_ingestion (Points b rest false)
        (with_memory (remove Z.eqb h (s_memory s))
          (with_uncompressed (s_uncompressed s ++ [Data (InMemory buffer)]) s)))).
      { intros [Q1 [Q2 Q3]]. split; [fields; discriminate|]. split; [|exact Q3]. fields.
        apply Forall_app. split; [exact Q2|]. constructor; [exact I|constructor]. }
      revert Ht. apply tokens_intro; [reflexivity| | |].
      + intros [Q1 Q2]. split; [exact Q1|apply H1; exact Q2].
      + intros stop [P Q|P Q R|P Q R|P Q R|P Q]; try (exfalso; unfold finished, drained3, drained2 in *; apply (Hnd stop); tauto).
        apply In_ingested; [exact P|apply H1; exact Q].
      + intros P. exfalso. unfold finished, drained3, drained2 in P. apply (Hnd true). tauto.
    - (* Finish *)
      destruct (s_ingestion s) as [|b l w| | |] eqn:Ei; try discriminate H. destruct l; [|discriminate H].
      injection H as <-.
      assert (Hnd : forall stop, ~ drained1 stop s).
      { intros stop [_ [C _]]. rewrite Ei in C. destruct stop; discriminate C. }
      assert (Hsent : forall A B (f : A -> B) l, Forall is_data (map (fun a => Data (f a)) l)).
      { intros A B f l. apply Forall_forall. intros x Hx. apply in_map_iff in Hx. destruct Hx as [a [<- _]]. exact I. }
      match goal with |- tokens ?x => assert (H1 : ahead1 s -> ahead1 x) end.
      { intros [Q1 [Q2 Q3]]. split; [fields; discriminate|]. split; [|exact Q3]. unfold finish_buffers. fields.
        apply Forall_app. split; [exact Q2|]. apply Forall_app. split; apply Hsent. }
      revert Ht. apply tokens_intro; [reflexivity| | |].
      + intros [Q1 Q2]. split; [exact Q1|apply H1; exact Q2].
      + intros stop [P Q|P Q R|P Q R|P Q R|P Q]; try (exfalso; unfold finished, drained3, drained2 in *; apply (Hnd stop); tauto).
        apply In_ingested; [exact P|apply H1; exact Q].
      + intros P. exfalso. unfold finished, drained3, drained2 in P. apply (Hnd true). tauto.
    - (* Compress *)
      destruct (s_compressor s) eqn:Ek; try discriminate H.
      destruct (s_uncompressed s) as [|m rest] eqn:Eu; [discriminate H|].
      assert (Hnd : forall stop, ~ drained2 stop s) by (intros stop [_ [C _]]; congruence).
      assert (Hdata : forall s', is_data m -> s_client s' = s_client s -> s_ingested s' = s_ingested s ->
        s_ingestion s' = s_ingestion s -> s_memory s' = s_memory s -> s_disk s' = s_disk s ->
        s_uncompressed s' = rest -> s_compressor s' <> Compressor_stopped -> s_compressed s' = s_compressed s ->
        s_writer s' = s_writer s -> s_results s' = s_results s -> tokens s').
      { intros s1 Hm E1 E2 E3 E4 E5 E6 E7 E8 E9 E10. revert Ht.
        assert (A3 : ahead3 s -> ahead3 s1) by (unfold ahead3; rewrite E9, E10; tauto).
        assert (A2 : ahead2 s -> ahead2 s1) by (unfold ahead2; rewrite E8; tauto).
        assert (A1 : ahead1 s -> ahead1 s1).
        { unfold ahead1. rewrite E3, E6, Eu. intros [Q1 [Q2 Q3]]. apply Forall_cons_iff in Q2. tauto. }
        apply tokens_intro; [exact E1| | |].
        - unfold calm. rewrite E2. tauto.
        - intros stop [P Q|P Q R|P Q R|P Q R|P Q]; try (exfalso; unfold finished, drained3 in *; apply (Hnd stop); tauto).
          + apply In_ingested; [rewrite E2; exact P|apply A1; exact Q].
          + apply In_uncompressed; [unfold drained1 in *; rewrite E2, E3, E4, E5; exact P| |apply A2; exact R].
            rewrite E6. rewrite Eu in Q. apply placed_cons in Q. destruct Q as [[_ Q]|[Q _]]; [exact Q|].
            subst m. destruct stop; contradiction.
        - intros P. exfalso. unfold finished, drained3 in P. apply (Hnd true). tauto. }
      assert (Htok : forall stop, m = token stop ->
        position stop s /\ drained1 stop s /\ rest = [] /\ ahead2 s
        /\ s_client s = (if stop then Closing else Flushing)).
      { intros stop ->. apply calm_or in Ht. destruct Ht as [Ht|[[stop' [Ht Hcl]]|[Ht _]]].
        - exfalso. destruct Ht as [_ [_ [Q _]]]. rewrite Eu in Q. apply Forall_cons_iff in Q. destruct Q as [Q _].
          destruct stop; exact Q.
        - pose proof Ht as Ht0. destruct Ht as [P Q|P Q R|P Q R|P Q R|P Q]; try (exfalso; unfold finished, drained3 in *; apply (Hnd stop'); tauto).
          + exfalso. destruct Q as [_ [Q _]]. rewrite Eu in Q. apply Forall_cons_iff in Q. destruct Q as [Q _].
            destruct stop; exact Q.
          + rewrite Eu in Q. apply placed_cons in Q. destruct Q as [[Q _]|[Q ->]]; [destruct stop; contradiction|].
            assert (stop' = stop) by (destruct stop, stop'; try reflexivity; discriminate Q). subst stop'. tauto.
        - exfalso. unfold finished, drained3 in Ht. apply (Hnd true). tauto. }
      destruct m as [[b|d]| |].
      + injection H as <-. apply Hdata; try reflexivity; fields; discriminate.
      + destruct (get path_eqb (d_path d) (s_files s)); injection H as <-; apply Hdata; try reflexivity; fields; discriminate.
      + injection H as <-. destruct (Htok false eq_refl) as [P [Q [-> [R Hcl]]]].
        unfold tokens. fields. rewrite Hcl. apply In_compressed.
        * split; [exact Q|]. fields. split; [reflexivity|exact Ek].
        * fields. apply (placed_snoc false). apply R.
        * apply R.
      + injection H as <-. destruct (Htok true eq_refl) as [P [Q [-> [R Hcl]]]].
        unfold tokens. fields. rewrite Hcl. apply In_compressed.
        * split; [exact Q|]. fields. split; reflexivity.
        * fields. apply (placed_snoc true). apply R.
        * apply R.
    - (* Send_segments *)
      destruct (s_compressor s) as [|mem m tags points ids| |] eqn:Ek; try discriminate H.
      destruct (Nat.eqb (List.length sizes) (t_fields m) && forallb (Z.leb 0) sizes); [|discriminate H].
      injection H as <-.
      assert (Hnd : forall stop, ~ drained2 stop s).
      { intros stop [_ [_ C]]. rewrite Ek in C. destruct stop; discriminate C. }
      match goal with |- tokens ?x => assert (A2 : ahead2 s -> ahead2 x) end.
      { intros [Q1 [Q2 Q3]]. split; [fields; discriminate|]. split; [|exact Q3]. fields.
        apply Forall_app. split; [exact Q2|]. constructor; [exact I|constructor]. }
      match goal with |- tokens ?x => assert (A1 : ahead1 s -> ahead1 x) end.
      { intros [Q1 [Q2 Q3]]. split; [fields; destruct (s_ingestion s); cbn [wake]; congruence|].
        split; [exact Q2|apply A2; exact Q3]. }
      revert Ht. apply tokens_intro; [reflexivity| | |].
      + intros [Q1 Q2]. split; [exact Q1|apply A1; exact Q2].
      + intros stop [P Q|P Q R|P Q R|P Q R|P Q]; try (exfalso; unfold finished, drained3 in *; apply (Hnd stop); tauto).
        * apply In_ingested; [exact P|apply A1; exact Q].
        * apply In_uncompressed; [|exact Q|apply A2; exact R]. unfold drained1 in *. fields.
          destruct P as [P1 [P2 P3]]. rewrite P2. destruct stop; cbn [wake]; tauto.
      + intros P. exfalso. unfold finished, drained3 in P. apply (Hnd true). tauto.
    - (* Write *)
      destruct (s_writer s) eqn:Ew; try discriminate H.
      destruct (s_compressed s) as [|m rest] eqn:Em; [discriminate H|].
      assert (Hnd : forall stop, ~ drained3 stop s) by (intros stop [_ C]; congruence).
      assert (Hdata : forall s1, is_data m -> s_client s1 = s_client s -> s_ingested s1 = s_ingested s ->
        s_ingestion s1 = s_ingestion s -> s_memory s1 = s_memory s -> s_disk s1 = s_disk s ->
        s_uncompressed s1 = s_uncompressed s -> s_compressor s1 = s_compressor s -> s_compressed s1 = rest ->
        reserving (s_writer s1) -> s_results s1 = s_results s -> tokens s1).
      { intros s1 Hm E1 E2 E3 E4 E5 E6 E7 E8 E9 E10. revert Ht.
        assert (A3 : ahead3 s -> ahead3 s1) by (unfold ahead3; rewrite E10; tauto).
        assert (A2 : ahead2 s -> ahead2 s1).
        { unfold ahead2. rewrite E7, E8, Em. intros [Q1 [Q2 Q3]]. apply Forall_cons_iff in Q2. tauto. }
        assert (A1 : ahead1 s -> ahead1 s1) by (unfold ahead1; rewrite E3, E6; tauto).
        apply tokens_intro; [exact E1| | |].
        - unfold calm. rewrite E2. tauto.
        - intros stop [P Q|P Q R|P Q R|P Q R|P Q]; try (exfalso; unfold finished in *; apply (Hnd stop); tauto).
          + apply In_ingested; [rewrite E2; exact P|apply A1; exact Q].
          + apply In_uncompressed; [unfold drained1 in *; rewrite E2, E3, E4, E5; exact P|rewrite E6; exact Q|apply A2; exact R].
          + apply In_compressed; [unfold drained2, drained1 in *; rewrite E2, E3, E4, E5, E6, E7; exact P| |apply A3; exact R].
            rewrite E8. rewrite Em in Q. apply placed_cons in Q. destruct Q as [[_ Q]|[Q _]]; [exact Q|].
            subst m. destruct stop; contradiction.
        - intros P. exfalso. unfold finished in P. apply (Hnd true). tauto. }
      assert (Htok : forall stop, m = token stop ->
        drained2 stop s /\ rest = [] /\ ahead3 s /\ s_client s = (if stop then Closing else Flushing)).
      { intros stop ->. apply calm_or in Ht.
        assert (Hc : ~ Forall is_data (s_compressed s)).
        { rewrite Em. intros Q. apply Forall_cons_iff in Q. destruct Q as [Q _]. destruct stop; exact Q. }
        destruct Ht as [Ht|[[stop' [Ht Hcl]]|[Ht _]]].
        - exfalso. unfold calm, ahead1, ahead2 in Ht. tauto.
        - destruct Ht as [P Q|P Q R|P Q R|P Q R|P Q]; try (exfalso; unfold finished in *; apply (Hnd stop'); tauto);
            try (exfalso; unfold ahead1, ahead2 in *; tauto).
          rewrite Em in Q. apply placed_cons in Q. destruct Q as [[Q _]|[Q ->]]; [destruct stop; contradiction|].
          assert (stop' = stop) by (destruct stop, stop'; try reflexivity; discriminate Q). subst stop'. tauto.
        - exfalso. unfold finished in Ht. apply (Hnd true). tauto. }
      destruct m as [g| |].
      + fields. destruct (get String.eqb (t_name (g_meta g)) (s_buffers s)); injection H as <-;
          apply Hdata; try reflexivity; exact I.
      + injection H as <-. destruct (Htok false eq_refl) as [Q [-> [[R1 R2] Hcl]]].
        unfold tokens. fields. rewrite Hcl. apply At_writer; fields; [|reflexivity|exact R2].
        split; [exact Q|reflexivity].
      + injection H as <-. destruct (Htok true eq_refl) as [Q [-> [[R1 R2] Hcl]]].
        unfold tokens. fields. rewrite Hcl. apply At_writer; fields; [|reflexivity|exact R2].
        split; [exact Q|reflexivity].
    - (* Work *)
      destruct (s_writer s) as [|t| | |] eqn:Ew; try discriminate H.
      assert (Hfin : forall stop, ~ finished stop s).
      { intros stop [_ [C _]]. rewrite Ew in C. destruct stop; discriminate C. }
      destruct t as [size| |].
      + assert (Hdata : forall s1, s_client s1 = s_client s -> s_ingested s1 = s_ingested s ->
          s_ingestion s1 = s_ingestion s -> s_memory s1 = s_memory s -> s_disk s1 = s_disk s ->
          s_uncompressed s1 = s_uncompressed s -> s_compressor s1 = s_compressor s -> s_compressed s1 = s_compressed s ->
          reserving (s_writer s1) -> s_results s1 = s_results s -> tokens s1).
        { intros s1 E1 E2 E3 E4 E5 E6 E7 E8 E9 E10. revert Ht.
          assert (A3 : ahead3 s -> ahead3 s1) by (unfold ahead3; rewrite E10; tauto).
          assert (A2 : ahead2 s -> ahead2 s1) by (unfold ahead2; rewrite E7, E8; tauto).
          assert (A1 : ahead1 s -> ahead1 s1) by (unfold ahead1; rewrite E3, E6; tauto).
          apply tokens_intro; [exact E1| | |].
          - unfold calm. rewrite E2. tauto.
          - intros stop [P Q|P Q R|P Q R|P Q R|P Q]; try (exfalso; apply (Hfin stop); tauto).
            + apply In_ingested; [rewrite E2; exact P|apply A1; exact Q].
            + apply In_uncompressed; [unfold drained1 in *; rewrite E2, E3, E4, E5; exact P|rewrite E6; exact Q|apply A2; exact R].
            + apply In_compressed; [unfold drained2, drained1 in *; rewrite E2, E3, E4, E5, E6, E7; exact P|rewrite E8; exact Q|apply A3; exact R].
            + exfalso. rewrite Ew in Q. exact Q.
          - intros P. exfalso. apply (Hfin true). exact P. }
        destruct (size <=? compressed (s_pool s)).
        * injection H as <-. apply Hdata; try reflexivity; exact I.
        * destruct (pop_buffer s) as [[[t' b] s1]|] eqn:E; [|discriminate H]. injection H as <-.
          apply pop_fields in E. destruct E as [-> _]. apply Hdata; try reflexivity; exact I.
      + assert (Hpos : drained3 false s /\ s_results s = O /\ s_client s = Flushing).
        { apply calm_or in Ht. destruct Ht as [Ht|[[stop [Ht Hcl]]|[Ht _]]].
          - exfalso. destruct Ht as [_ [_ [_ [_ [_ [C _]]]]]]. rewrite Ew in C. exact C.
          - destruct Ht as [P Q|P Q R|P Q R|P Q R|P Q]; try (exfalso; unfold ahead1, ahead2, ahead3 in *; rewrite Ew in *; cbn [reserving] in *; tauto).
            + rewrite Ew in Q. cbn [flushing] in Q. subst stop. tauto.
            + exfalso. apply (Hfin stop P).
          - exfalso. apply (Hfin true Ht). }
        destruct Hpos as [P [R Hcl]]. destruct (s_queue s) eqn:Eq.
        * injection H as <-. unfold tokens. fields. rewrite Hcl. apply Answered; fields; [|rewrite R; reflexivity].
          split; [exact P|]. fields. split; [reflexivity|]. pose proof (wf_buffers _ _ Hw) as Hb. rewrite Eq in Hb.
          split; [destruct (s_buffers s); [reflexivity|discriminate Hb]|exact Eq].
        * destruct (pop_buffer s) as [[[t' b] s1]|] eqn:E; [|discriminate H]. injection H as <-.
          apply pop_fields in E. destruct E as [-> _]. unfold tokens. fields. rewrite Hcl.
          apply At_writer; fields; [exact P|reflexivity|exact R].
      + assert (Hpos : drained3 true s /\ s_results s = O /\ s_client s = Closing).
        { apply calm_or in Ht. destruct Ht as [Ht|[[stop [Ht Hcl]]|[Ht _]]].
          - exfalso. destruct Ht as [_ [_ [_ [_ [_ [C _]]]]]]. rewrite Ew in C. exact C.
          - destruct Ht as [P Q|P Q R|P Q R|P Q R|P Q]; try (exfalso; unfold ahead1, ahead2, ahead3 in *; rewrite Ew in *; cbn [reserving] in *; tauto).
            + rewrite Ew in Q. cbn [flushing] in Q. subst stop. tauto.
            + exfalso. apply (Hfin stop P).
          - exfalso. apply (Hfin true Ht). }
        destruct Hpos as [P [R Hcl]]. destruct (s_queue s) eqn:Eq.
        * injection H as <-. unfold tokens. fields. rewrite Hcl. apply Answered; fields; [|rewrite R; reflexivity].
          split; [exact P|]. fields. split; [reflexivity|]. pose proof (wf_buffers _ _ Hw) as Hb. rewrite Eq in Hb.
          split; [destruct (s_buffers s); [reflexivity|discriminate Hb]|exact Eq].
        * destruct (pop_buffer s) as [[[t' b] s1]|] eqn:E; [|discriminate H]. injection H as <-.
          apply pop_fields in E. destruct E as [-> _]. unfold tokens. fields. rewrite Hcl.
          apply At_writer; fields; [exact P|reflexivity|exact R].
    - (* Commit *)
      destruct (s_writer s) as [| |table b t| |] eqn:Ew; try discriminate H.
      destruct written; [|contradiction Hcw; reflexivity]. injection H as <-.
      assert (Hfin : forall stop, ~ finished stop s).
      { intros stop [_ [C _]]. rewrite Ew in C. destruct stop; discriminate C. }
      match goal with |- tokens ?x => assert (A3 : ahead3 s -> ahead3 x) end.
      { unfold ahead3, save. fields. rewrite Ew. destruct t; tauto. }
      match goal with |- tokens ?x => assert (A2 : ahead2 s -> ahead2 x) end.
      { intros [Q1 [Q2 Q3]]. split; [exact Q1|]. split; [exact Q2|apply A3; exact Q3]. }
      match goal with |- tokens ?x => assert (A1 : ahead1 s -> ahead1 x) end.
      { intros [Q1 [Q2 Q3]]. split; [exact Q1|]. split; [exact Q2|apply A2; exact Q3]. }
      revert Ht. apply tokens_intro; [reflexivity| | |].
      + intros [Q1 Q2]. split; [exact Q1|apply A1; exact Q2].
      + intros stop [P Q|P Q R|P Q R|P Q R|P Q]; try (exfalso; apply (Hfin stop); tauto).
        * apply In_ingested; [exact P|apply A1; exact Q].
        * apply In_uncompressed; [exact P|exact Q|apply A2; exact R].
        * apply In_compressed; [exact P|exact Q|apply A3; exact R].
        * apply At_writer; [exact P| |exact R]. unfold save. fields. rewrite Ew in Q. destruct t; exact Q.
      + intros P. exfalso. apply (Hfin true P).
    - injection H as <-. unfold tokens, start, calm, ahead1, ahead2, ahead3. fields.
      repeat split; try discriminate; constructor.
    - injection H as <-. change (tokens (with_memory (to_front n (s_memory s)) (with_disk (s_disk s) s))).
      apply tokens_reordered; [|exact Ht]. intros E1 E2. rewrite E1.
      split; [destruct n; reflexivity|exact E2].
    - injection H as <-. change (tokens (with_memory (s_memory s) (with_disk (to_front n (s_disk s)) s))).
      apply tokens_reordered; [|exact Ht]. intros E1 E2. rewrite E2.
      split; [exact E1|destruct n; reflexivity].
  Qed.
End Tokens.
