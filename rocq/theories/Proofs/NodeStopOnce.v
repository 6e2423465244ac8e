(** A node does not multiply rows. *)
From Coq Require Import ZArith Bool String List Lia.
From Verif Require Import Model.NodeStop Spec.NodeStopSpec Proofs.NodeStopProofs.
Import ListNotations.
Open Scope list_scope.

Lemma times_app : forall x a b, times x (a ++ b) = times x a + times x b.
Proof. intros x a b. apply count_occ_app. Qed.
Lemma times_filter : forall x f l, times x (filter f l) <= times x l.
Proof.
  intros x f l. unfold times. induction l as [|a l IH]; cbn; [lia|].
  destruct (f a); cbn; destruct (row_dec a x); lia.
Qed.
Lemma times_split : forall x f l,
  times x l = times x (filter f l) + times x (filter (fun r => negb (f r)) l).
Proof.
  intros x f l. unfold times. induction l as [|a l IH]; [reflexivity|].
  cbn [filter]. destruct (f a); cbn; destruct (row_dec a x); lia.
Qed.
Lemma times_cons : forall x a l, times x (a :: l) = times x [a] + times x l.
Proof. intros x a l. change (a :: l) with ([a] ++ l). apply times_app. Qed.
Lemma times_put : forall x r l, times x (concat (put r l)) = times x [r] + times x (concat l).
Proof.
  intros x r l. induction l as [|b l IH]; cbn [put concat].
  - now rewrite app_nil_r.
  - destruct (existsb (of_table (fst r)) b); cbn [concat]; rewrite !times_app; [|rewrite IH]; lia.
Qed.
Lemma times_puts : forall x rows l,
  times x (concat (fold_left (fun l r => put r l) rows l)) = times x rows + times x (concat l).
Proof.
  intros x rows. induction rows as [|r rows IH]; intros l; cbn [fold_left]; [reflexivity|].
  rewrite IH, times_put, (times_cons x r rows). lia.
Qed.
Lemma times_none : forall x l, ~ In x l -> times x l = 0.
Proof. intros x l H. apply count_occ_not_In. exact H. Qed.

Record once (past : list event) (n : node) : Prop := {
  on_rows : forall x, times x (in_memory n) + times x (counted n) + times x (uncounted n)
              + times x (remote n) <= times x (inserted past);
  on_log : forall x, times x (log n) <= times x (inserted past);
  on_committed : incl (counted n ++ uncounted n ++ remote n) (committed n)
}.

Lemma once_same : forall past past' n n',
  inserted past' = inserted past -> log n' = log n -> committed n' = committed n ->
  counted n' = counted n -> uncounted n' = uncounted n -> remote n' = remote n ->
  (buffers n' = buffers n \/ buffers n' = []) -> once past n -> once past' n'.
Proof.
  intros past past' n n' E L C D U R B [H1 H2 H3].
  constructor; unfold in_memory in *; rewrite ?E, ?L, ?C, ?D, ?U, ?R.
  - intros x. destruct B as [-> | ->]; [exact (H1 x)|]. specialize (H1 x). cbn. lia.
  - exact H2.
  - exact H3.
Qed.

Lemma once_step : forall logging k past e n n', once past n -> e <> Move Not_deleted ->
  step logging k e n = Some n' -> once (past ++ [e]) n'.
Proof.
  intros logging k past e n n' H He S.
  assert (Ei : (forall t z, e <> Insert t z) -> inserted (past ++ [e]) = inserted past).
  { intros X. rewrite inserted_app. destruct e; try (cbn; apply app_nil_r). now destruct (X t z). }
  destruct e as [t z|r|o| |o|ok| |]; cbn [step] in S.
  - destruct (running n); [|discriminate]. destruct (doing n); [discriminate|]. injection S as <-.
    destruct H as [H1 H2 H3].
    constructor; unfold in_memory in *; cbn [buffers log committed counted uncounted remote].
    + intros x. rewrite times_put, inserted_app, times_app. specialize (H1 x). cbn [inserted]. unfold row in *. lia.
    + intros x. rewrite inserted_app, !times_app. specialize (H2 x). cbn [inserted]. unfold row in *.
      unfold logged. destruct logging; [lia|]. cbn. lia.
    + exact H3.
  - destruct (running n); [|discriminate]. destruct (doing n); [discriminate|]. injection S as <-.
    eapply once_same; [apply Ei; discriminate| | | | | | |exact H]; try reflexivity. now left.
  - destruct (doing n) as [[r [|[] rest]]|]; try discriminate.
    destruct (buffers n) as [|b l] eqn:B; [discriminate|]. injection S as <-.
    destruct H as [H1 H2 H3]. unfold in_memory in H1. rewrite B in H1. cbn [concat] in H1.
    destruct o; constructor; unfold in_memory; cbn [buffers log committed counted uncounted remote];
      rewrite ?Ei by discriminate; try exact H2;
      try (intros x; specialize (H1 x); rewrite ?times_app in *; lia).
    + intros x. specialize (H2 x). pose proof (times_filter x (fun r => negb (member r b)) (log n)).
      unfold minus. lia.
    + rewrite <- app_assoc. apply incl_app; [apply incl_appl, incl_refl | apply incl_appr, H3].
    + exact H3.
    + intros x Hx. rewrite !in_app_iff in Hx. apply in_or_app.
      destruct Hx as [Hx|[[Hx|Hx]|Hx]]; [right|left; exact Hx|right|right];
        apply H3; rewrite !in_app_iff; tauto.
  - destruct (doing n) as [[r [|[| |[|] | | |] rest]]|]; try discriminate.
    + destruct (buffers n) eqn:B; [|discriminate]. injection S as <-.
      eapply once_same; [apply Ei; discriminate| | | | | | |exact H]; try reflexivity. now left.
    + destruct k; injection S as <-;
        try (eapply once_same; [apply Ei; discriminate| | | | | | |exact H]; try reflexivity; now left).
      eapply once_same; [apply Ei; discriminate| | | | | | |exact H]; destruct r; try reflexivity;
        cbn; auto.
    + injection S as <-.
      eapply once_same; [apply Ei; discriminate| | | | | | |exact H]; try reflexivity. now left.
    + destruct k; try discriminate. injection S as <-.
      eapply once_same; [apply Ei; discriminate| | | | | | |exact H]; try reflexivity. now left.
    + injection S as <-.
      eapply once_same; [apply Ei; discriminate| | | | | | |exact H]; try reflexivity. now right.
    + injection S as <-.
      eapply once_same; [apply Ei; discriminate| | | | | | |exact H]; try reflexivity. now left.
  - destruct (doing n) as [[r [|[| |[|t tables] | | |] rest]]|]; try discriminate.
    destruct o; [| |contradiction]; injection S as <-.
    + destruct H as [H1 H2 H3]. constructor; unfold in_memory in *;
        cbn [buffers log committed counted uncounted remote]; rewrite ?Ei by discriminate.
      * intros x. specialize (H1 x). rewrite times_app, filter_app, times_app.
        rewrite (times_split x (of_table t) (counted n)) in H1.
        rewrite (times_split x (of_table t) (uncounted n)) in H1. unfold outside. lia.
      * exact H2.
      * intros x Hx. apply H3. rewrite !in_app_iff in *. rewrite !in_outside in Hx.
        rewrite in_of_table, in_app_iff in Hx. tauto.
    + eapply once_same; [apply Ei; discriminate| | | | | | |exact H]; destruct r; try reflexivity;
        cbn; auto.
  - destruct (doing n) as [[r [|[] rest]]|]; try discriminate; destruct k; try discriminate;
      destruct ok; injection S as <-;
      (eapply once_same; [apply Ei; discriminate| | | | | | |exact H]; destruct r; try reflexivity;
       cbn; auto).
  - destruct (running n); [|discriminate]. injection S as <-.
    eapply once_same; [apply Ei; discriminate| | | | | | |exact H]; try reflexivity. now right.
  - destruct (running n); [discriminate|]. injection S as <-. destruct H as [H1 H2 H3].
    constructor; unfold in_memory in *; cbn [buffers log committed counted uncounted remote];
      rewrite ?Ei by discriminate.
    + intros x. specialize (H1 x). specialize (H2 x). unfold replayed. rewrite times_puts, times_app.
      cbn [concat times count_occ]. destruct (in_dec row_dec x (committed n)) as [Hc|Hc].
      * rewrite (times_none x (logged logging (minus (log n) (committed n)))); [lia|].
        unfold logged. destruct logging; [|intros []]. rewrite in_minus. tauto.
      * rewrite (times_none x (counted n)), (times_none x (uncounted n)), (times_none x (remote n)).
        -- assert (times x (logged logging (minus (log n) (committed n))) <= times x (log n)).
           { unfold logged. destruct logging; [apply times_filter | cbn; lia]. }
           cbn. lia.
        -- intros X. apply Hc, H3. rewrite !in_app_iff. tauto.
        -- intros X. apply Hc, H3. rewrite !in_app_iff. tauto.
        -- intros X. apply Hc, H3. rewrite !in_app_iff. tauto.
    + exact H2.
    + intros x Hx. apply H3. rewrite !in_app_iff in *. cbn in Hx. tauto.
Qed.

Lemma once_run : forall logging k events past n n', once past n -> ~ In (Move Not_deleted) events ->
  run logging k events n = Some n' -> once (past ++ events) n'.
Proof.
  intros logging k events. induction events as [|e events IH]; intros past n n' H N R.
  - injection R as <-. now rewrite app_nil_r.
  - cbn [run] in R. destruct (step logging k e n) as [n1|] eqn:S; [|discriminate].
    change (e :: events) with ([e] ++ events). rewrite app_assoc. apply (IH _ n1).
    + apply (fun X => once_step logging k past e n n1 H X S). intros ->. apply N. now left.
    + intros Hi. apply N. now right.
    + exact R.
Qed.

Lemma rows_once : forall logging k events n r, run logging k events new = Some n ->
  ~ In (Move Not_deleted) events ->
  times r (in_memory n ++ local n ++ remote n) <= times r (inserted events).
Proof.
  intros logging k events n r R N.
  assert (H0 : once [] new) by (constructor; [intros x; cbn; lia | intros x; cbn; lia | intros x []]).
  destruct (once_run _ _ _ _ _ _ H0 N R) as [H _ _]. specialize (H r). cbn [app] in H.
  unfold local. rewrite !times_app. lia.
Qed.
