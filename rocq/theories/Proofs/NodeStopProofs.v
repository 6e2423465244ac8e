(** Lemmas about flushing and stopping a node. *)
From Coq Require Import ZArith Bool String List.
From Verif Require Import Model.NodeStop Spec.NodeStopSpec.
Import ListNotations.
Open Scope list_scope.

(** ** Rows *)

Lemma row_eqb_iff : forall a b, row_eqb a b = true <-> a = b.
Proof.
  intros [t x] [u y]. unfold row_eqb. cbn [fst snd]. rewrite andb_true_iff, String.eqb_eq, Z.eqb_eq.
  split; [intros [-> ->]; reflexivity | intros E; injection E as -> ->; auto].
Qed.
Lemma member_iff : forall r l, member r l = true <-> In r l.
Proof.
  intros r l. unfold member. rewrite existsb_exists. split.
  - intros (x & Hx & E). apply row_eqb_iff in E. subst x. exact Hx.
  - intros H. exists r. split; [exact H | apply row_eqb_iff; reflexivity].
Qed.
Lemma in_minus : forall r l m, In r (minus l m) <-> In r l /\ ~ In r m.
Proof.
  intros r l m. unfold minus. rewrite filter_In, negb_true_iff.
  rewrite <- (member_iff r m). rewrite not_true_iff_false. tauto.
Qed.
Lemma minus_split : forall r l m, In r l -> In r (minus l m) \/ In r m.
Proof.
  intros r l m H. destruct (member r m) eqn:E.
  - right. apply member_iff. exact E.
  - left. apply in_minus. split; [exact H|]. rewrite <- member_iff. congruence.
Qed.
Lemma in_put : forall r x l, In x (concat (put r l)) <-> x = r \/ In x (concat l).
Proof.
  intros r x l. induction l as [|b l IH]; cbn [put concat].
  - rewrite app_nil_r. cbn. intuition congruence.
  - destruct (existsb (of_table (fst r)) b); cbn [concat]; rewrite !in_app_iff.
    + cbn. intuition congruence.
    + rewrite IH. tauto.
Qed.
Lemma in_puts : forall rows x l,
  In x (concat (fold_left (fun l r => put r l) rows l)) <-> In x rows \/ In x (concat l).
Proof.
  intros rows. induction rows as [|r rows IH]; intros x l; cbn [fold_left].
  - cbn. tauto.
  - rewrite IH, in_put. cbn. intuition congruence.
Qed.
Lemma in_outside : forall t r l, In r (outside t l) <-> In r l /\ fst r <> t.
Proof.
  intros t r l. unfold outside. rewrite filter_In. unfold of_table.
  rewrite negb_true_iff, String.eqb_neq. tauto.
Qed.
Lemma in_of_table : forall t r l, In r (filter (of_table t) l) <-> In r l /\ fst r = t.
Proof. intros t r l. rewrite filter_In. unfold of_table. rewrite String.eqb_eq. tauto. Qed.

Lemma inserted_app : forall a b, inserted (a ++ b) = inserted a ++ inserted b.
Proof.
  intros a b. induction a as [|e a IH]; [reflexivity|]. destruct e; cbn; rewrite ?IH; reflexivity.
Qed.
Lemma since_start_app : forall a e,
  since_start (a ++ [e]) = match e with Restart => [] | _ => since_start a ++ [e] end.
Proof. intros a e. unfold since_start. rewrite fold_left_app. reflexivity. Qed.

Lemma safe_before : forall logging past e,
  e <> Restart -> safe logging (past ++ [e]) -> safe logging past.
Proof.
  intros logging past e He H. unfold safe in *. destruct logging.
  - rewrite since_start_app in H. intros o Ho. apply H.
    destruct e; try (apply in_or_app; left; exact Ho). contradiction.
  - destruct H as [H Hc]. split.
    + intros o Ho. apply H. apply in_or_app. left. exact Ho.
    + intros Hi. apply Hc. apply in_or_app. left. exact Hi.
Qed.
Lemma safe_saved : forall logging past o, safe logging (past ++ [Save o]) -> o = Saved.
Proof.
  intros logging past o H. unfold safe in H. destruct logging.
  - rewrite since_start_app in H. apply H. apply in_or_app. right. left. reflexivity.
  - apply (proj1 H). apply in_or_app. right. left. reflexivity.
Qed.
Lemma safe_ended : forall past e, safe false (past ++ [e]) -> e <> Crash /\ safe false past.
Proof.
  intros past e [H Hc]. split.
  - intros ->. apply Hc. apply in_or_app. right. left. reflexivity.
  - split.
    + intros o Ho. apply H. apply in_or_app. left. exact Ho.
    + intros Hi. apply Hc. apply in_or_app. left. exact Hi.
Qed.

(** ** The invariant *)

(** What has been achieved when [l] is left to do of a request, if all saves succeed. *)
Definition ready (S : Prop) (r : request) (l : list act) (n : node) : Prop :=
  match r, l with
  | Flush_memory, [Flush; Answer] | Flush_node, [Flush; Begin_transfer; Answer]
  | Kill_node, [Flush; Begin_transfer; Remove; Exit] | Ctrl_c, [Flush; Remove; Exit] => True
  | Flush_memory, [Answer] | Flush_node, [Begin_transfer; Answer]
  | Kill_node, [Begin_transfer; Remove; Exit] | Ctrl_c, [Remove; Exit] => S -> buffers n = []
  | Flush_node, [Transfer tables; Answer] | Kill_node, [Transfer tables; Remove; Exit] =>
      (forall x, In x (counted n) -> In (fst x) tables) /\ (S -> buffers n = [])
  | Flush_node, [Answer] | Kill_node, [Remove; Exit] => counted n = [] /\ (S -> buffers n = [])
  | Kill_node, [Exit] => listed n = 0 /\ counted n = [] /\ (S -> buffers n = [])
  | Ctrl_c, [Exit] => listed n = 0 /\ (S -> buffers n = [])
  | _, _ => False
  end.

Inductive shape : request -> list act -> Prop :=
| M1 : shape Flush_memory [Flush; Answer]
| M2 : shape Flush_memory [Answer]
| F1 : shape Flush_node [Flush; Begin_transfer; Answer]
| F2 : shape Flush_node [Begin_transfer; Answer]
| F3 : forall tables, shape Flush_node [Transfer tables; Answer]
| F4 : shape Flush_node [Answer]
| K1 : shape Kill_node [Flush; Begin_transfer; Remove; Exit]
| K2 : shape Kill_node [Begin_transfer; Remove; Exit]
| K3 : forall tables, shape Kill_node [Transfer tables; Remove; Exit]
| K4 : shape Kill_node [Remove; Exit]
| K5 : shape Kill_node [Exit]
| C1 : shape Ctrl_c [Flush; Remove; Exit]
| C2 : shape Ctrl_c [Remove; Exit]
| C3 : shape Ctrl_c [Exit].

Lemma ready_shape : forall S r l n, ready S r l n -> shape r l.
Proof.
  intros S r l n R. destruct r.
  - destruct l as [|[] [|[] [|]]]; try contradiction; constructor.
  - destruct l as [|[] [|[] [|[] [|]]]]; try contradiction; constructor.
  - destruct l as [|[] [|[] [|[] [|[] [|]]]]]; try contradiction; constructor.
  - destruct l as [|[] [|[] [|[] [|]]]]; try contradiction; constructor.
Qed.
Ltac shapes R :=
  let Sh := fresh "Sh" in pose proof (ready_shape _ _ _ _ R) as Sh; inversion Sh; subst;
  clear Sh; cbn in R.

Lemma ready_weaken : forall (S S' : Prop) r l n, (S' -> S) -> ready S r l n -> ready S' r l n.
Proof.
  intros S S' r l n H R. shapes R; cbn; tauto.
Qed.

Record inv (logging : bool) (k : kind) (past : list event) (n : node) : Prop := {
  in_idle : running n = false -> doing n = None /\ buffers n = [];
  in_tables : incl (committed n) (counted n ++ uncounted n ++ remote n);
  in_log : logging = true -> incl (inserted past) (log n ++ committed n);
  in_held : safe logging past -> running n = true \/ logging = false ->
    incl (inserted past) (concat (buffers n) ++ committed n);
  in_counted : safe logging past -> running n = true -> uncounted n = [];
  in_ready : forall r l, doing n = Some (r, l) -> ready (safe logging past) r l n;
  in_single : k = Single -> listed n = 0 }.

Lemma inv_new : forall logging k, inv logging k [] new.
Proof.
  intros logging k. constructor; cbn; intros; try (apply incl_refl); try discriminate; auto.
Qed.

(** The rows that a step can lose sight of when a node stops. *)
Lemma inv_stop : forall logging k past e n l,
  inv logging k past n -> e <> Restart -> (forall t z, e <> Insert t z) ->
  (safe logging (past ++ [e]) -> logging = false -> buffers n = []) ->
  inv logging k (past ++ [e]) (stop l n).
Proof.
  intros logging k past e n l [I1 I2 I3 I4 I5 I6 I7] He Hi Hb.
  assert (Ei : inserted (past ++ [e]) = inserted past).
  { rewrite inserted_app. destruct e; cbn; try apply app_nil_r. destruct (Hi t z eq_refl). }
  constructor; cbn [stop running doing buffers log committed counted uncounted remote listed].
  - auto.
  - exact I2.
  - rewrite Ei. exact I3.
  - intros S [Hr|Hl]; [discriminate|]. rewrite Ei.
    pose proof (I4 (safe_before _ _ _ He S) (or_intror Hl)) as H. rewrite (Hb S Hl) in H. exact H.
  - discriminate.
  - discriminate.
  - exact I7.
Qed.

Lemma inv_error : forall logging k past e n r l,
  inv logging k past n -> e <> Restart -> (forall t z, e <> Insert t z) ->
  doing n = Some (r, l) -> (safe logging (past ++ [e]) -> r = Ctrl_c -> buffers n = []) ->
  inv logging k (past ++ [e]) (error r n).
Proof.
  intros logging k past e n r l I He Hi Hd Hb.
  assert (Hr : forall a, inv logging k (past ++ [e]) (reply r a n)).
  { intros a. destruct I as [I1 I2 I3 I4 I5 I6 I7].
    assert (Ei : inserted (past ++ [e]) = inserted past).
    { rewrite inserted_app. destruct e; cbn; try apply app_nil_r. destruct (Hi t z eq_refl). }
    constructor; cbn [reply running doing buffers log committed counted uncounted remote listed].
    - intros Hf. split; [reflexivity | exact (proj2 (I1 Hf))].
    - exact I2.
    - rewrite Ei. exact I3.
    - intros S. rewrite Ei. exact (I4 (safe_before _ _ _ He S)).
    - intros S. exact (I5 (safe_before _ _ _ He S)).
    - discriminate.
    - exact I7. }
  unfold error. destruct r; try apply Hr.
  apply inv_stop; try assumption. intros S _. exact (Hb S eq_refl).
Qed.

(** A step that changes what is left to do and nothing else. *)
Lemma inv_doing : forall logging k past e n r l,
  inv logging k past n -> e <> Restart -> (forall t z, e <> Insert t z) -> running n = true ->
  ready (safe logging (past ++ [e])) r l n ->
  inv logging k (past ++ [e]) (set_doing r l n).
Proof.
  intros logging k past e n r l [I1 I2 I3 I4 I5 I6 I7] He Hi Hrun R.
  assert (Ei : inserted (past ++ [e]) = inserted past).
  { rewrite inserted_app. destruct e; cbn; try apply app_nil_r. destruct (Hi t z eq_refl). }
  constructor; cbn [set_doing running doing buffers log committed counted uncounted remote listed].
  - intros Hf. congruence.
  - exact I2.
  - rewrite Ei. exact I3.
  - intros S. rewrite Ei. exact (I4 (safe_before _ _ _ He S)).
  - intros S. exact (I5 (safe_before _ _ _ He S)).
  - intros r' l' E. injection E as <- <-. exact R.
  - exact I7.
Qed.

Ltac no_restart := let H := fresh in intros H; discriminate H.

Lemma inv_step : forall logging k past e n n',
  inv logging k past n -> step logging k e n = Some n' -> inv logging k (past ++ [e]) n'.
Proof.
  intros logging k past e n n' I Hstep.
  assert (Hrun : forall r l, doing n = Some (r, l) -> running n = true).
  { intros r l E. destruct (running n) eqn:Er; [reflexivity|].
    rewrite (proj1 (in_idle _ _ _ _ I Er)) in E. discriminate. }
  assert (Hw : e <> Restart -> forall r l, ready (safe logging past) r l n ->
            ready (safe logging (past ++ [e])) r l n).
  { intros He r l. apply ready_weaken. exact (safe_before _ _ _ He). }
  destruct e; cbn [step] in Hstep.
  - (* Insert *)
    destruct (running n) eqn:Er; [|discriminate]. destruct (doing n) eqn:Ed; [discriminate|].
    injection Hstep as <-. destruct I as [I1 I2 I3 I4 I5 I6 I7].
    assert (Hs : safe logging (past ++ [Insert t z]) -> safe logging past)
      by (apply safe_before; discriminate).
    constructor; cbn [running doing buffers log committed counted uncounted remote listed].
    + discriminate.
    + exact I2.
    + intros ->. rewrite inserted_app. cbn [inserted logged app]. intros x Hx.
      apply in_app_or in Hx. destruct Hx as [Hx|[<-|[]]]; [right; exact (I3 eq_refl x Hx)|].
      left. reflexivity.
    + intros S _. rewrite inserted_app. cbn [inserted]. intros x Hx. apply in_or_app.
      rewrite in_put. apply in_app_or in Hx. destruct Hx as [Hx|[<-|[]]]; [|left; left; reflexivity].
      pose proof (I4 (Hs S) (or_introl Er) x Hx) as H. apply in_app_or in H. tauto.
    + intros S _. exact (I5 (Hs S) Er).
    + discriminate.
    + exact I7.
  - (* Request *)
    destruct (running n) eqn:Er; [|discriminate]. destruct (doing n) eqn:Ed; [discriminate|].
    injection Hstep as <-. apply inv_doing; try assumption; try discriminate.
    destruct r; exact Logic.I.
  - (* Save *)
    destruct (doing n) as [[r [|[] rest]]|] eqn:Ed; try discriminate.
    destruct (buffers n) as [|b bs] eqn:Eb; [discriminate|]. injection Hstep as <-.
    pose proof (Hrun _ _ eq_refl) as Er. pose proof (in_ready _ _ _ _ I _ _ Ed) as R.
    destruct I as [I1 I2 I3 I4 I5 I6 I7].
    assert (Hs : safe logging (past ++ [Save o]) -> safe logging past)
      by (apply safe_before; discriminate).
    assert (Ei : inserted (past ++ [Save o]) = inserted past)
      by (rewrite inserted_app; apply app_nil_r).
    destruct o; constructor;
      cbn [running doing buffers log committed counted uncounted remote listed]; rewrite ?Ei.
    + congruence.
    + intros x Hx. apply in_app_or in Hx. rewrite !in_app_iff.
      destruct Hx as [Hx|Hx]; [tauto|]. apply I2 in Hx. rewrite !in_app_iff in Hx. tauto.
    + intros Hl x Hx. specialize (I3 Hl x Hx). rewrite !in_app_iff in *.
      destruct I3 as [H|H]; [|tauto]. destruct (minus_split x _ b H); tauto.
    + intros S Ho x Hx. specialize (I4 (Hs S) Ho x Hx). rewrite Eb in I4. cbn [concat] in I4.
      rewrite !in_app_iff in *. tauto.
    + intros S Hf. exact (I5 (Hs S) Hf).
    + intros r' l' E. injection E as <- <-.
      shapes R; exact Logic.I.
    + exact I7.
    + congruence.
    + exact I2.
    + exact I3.
    + intros S. discriminate (safe_saved _ _ _ S).
    + intros S. discriminate (safe_saved _ _ _ S).
    + intros r' l' E. injection E as <- <-.
      shapes R; cbn;
        intros S; discriminate (safe_saved _ _ _ S).
    + exact I7.
    + congruence.
    + intros x Hx. apply in_app_or in Hx. rewrite !in_app_iff.
      destruct Hx as [Hx|Hx]; [tauto|]. apply I2 in Hx. rewrite !in_app_iff in Hx. tauto.
    + intros Hl x Hx. specialize (I3 Hl x Hx). rewrite !in_app_iff in *. tauto.
    + intros S. discriminate (safe_saved _ _ _ S).
    + intros S. discriminate (safe_saved _ _ _ S).
    + intros r' l' E. injection E as <- <-.
      shapes R; cbn;
        intros S; discriminate (safe_saved _ _ _ S).
    + exact I7.
  - (* Continue *)
    destruct (doing n) as [[r l]|] eqn:Ed; [|discriminate].
    pose proof (Hrun _ _ eq_refl) as Er. pose proof (in_ready _ _ _ _ I _ _ Ed) as R.
    apply (Hw ltac:(discriminate)) in R.
    destruct l as [|[] rest]; try discriminate.
    + destruct (buffers n) eqn:Eb; [|discriminate]. injection Hstep as <-.
      apply inv_doing; try assumption; try discriminate.
      shapes R; cbn; auto.
    + assert (Hb : safe logging (past ++ [Continue]) -> buffers n = []).
      { shapes R; exact R. }
      destruct k eqn:Ek; injection Hstep as <-;
        [eapply inv_error; try eassumption; try discriminate; auto|..];
        (apply inv_doing; try assumption; try discriminate;
         assert (Ht : forall x, In x (counted n) -> In (fst x) (sized_tables n))
           by (intros x Hx; unfold sized_tables; apply nodup_In, in_map; exact Hx);
         shapes R; cbn; auto).
    + destruct tables; [|discriminate]. injection Hstep as <-.
      apply inv_doing; try assumption; try discriminate.
      assert (Hc : (forall x, In x (counted n) -> In (fst x) []) -> counted n = []).
      { intros H. destruct (counted n) as [|x xs]; [reflexivity|]. destruct (H x). left. reflexivity. }
      shapes R; cbn in *;
        destruct R as [R1 R2]; auto.
    + destruct k eqn:Ek; try discriminate. injection Hstep as <-.
      apply inv_doing; try assumption; try discriminate.
      pose proof (in_single _ _ _ _ I eq_refl) as Hl.
      shapes R; cbn in *; auto.
    + injection Hstep as <-. apply inv_stop; try assumption; try discriminate.
      intros S _. shapes R; apply R; exact S.
    + injection Hstep as <-.
      assert (E : reply r Fine n = Node (running n) (buffers n) (log n) (committed n) (counted n)
                (uncounted n) (remote n) (listed n) None ((r, Fine) :: answers n)) by reflexivity.
      rewrite E. clear E. destruct I as [I1 I2 I3 I4 I5 I6 I7].
      assert (Hs : safe logging (past ++ [Continue]) -> safe logging past)
        by (apply safe_before; discriminate).
      assert (Ei : inserted (past ++ [Continue]) = inserted past)
        by (rewrite inserted_app; apply app_nil_r).
      constructor; cbn [running doing buffers log committed counted uncounted remote listed];
        rewrite ?Ei; try assumption; try congruence.
      * intros S. exact (I4 (Hs S)).
      * intros S. exact (I5 (Hs S)).
  - (* Move *)
    destruct (doing n) as [[r [|[| |[|t tables]| | |] rest]]|] eqn:Ed; try discriminate.
    pose proof (Hrun _ _ eq_refl) as Er. pose proof (in_ready _ _ _ _ I _ _ Ed) as R.
    assert (Hc : r <> Ctrl_c).
    { intros ->. shapes R. }
    cbv zeta in Hstep. set (rows := filter (of_table t) (counted n ++ uncounted n)) in *.
    destruct o; injection Hstep as <-.
    + destruct I as [I1 I2 I3 I4 I5 I6 I7].
      assert (Hs : safe logging (past ++ [Move Moved]) -> safe logging past)
        by (apply safe_before; discriminate).
      assert (Ei : inserted (past ++ [Move Moved]) = inserted past)
        by (rewrite inserted_app; apply app_nil_r).
      constructor; cbn [running doing buffers log committed counted uncounted remote listed];
        rewrite ?Ei.
      * congruence.
      * intros x Hx. apply I2 in Hx. unfold rows. rewrite !in_app_iff, !in_outside, in_of_table.
        rewrite !in_app_iff in Hx. rewrite in_app_iff.
        destruct (string_dec (fst x) t); tauto.
      * exact I3.
      * intros S. exact (I4 (Hs S)).
      * intros S Hf. rewrite (I5 (Hs S) Hf). reflexivity.
      * intros r' l' E. injection E as <- <-.
        assert (Ht : (forall x, In x (counted n) -> In (fst x) (t :: tables)) ->
                  forall x, In x (outside t (counted n)) -> In (fst x) tables).
        { intros H x Hx. apply in_outside in Hx. destruct Hx as [Hx Nx].
          destruct (H x Hx); [congruence | assumption]. }
        shapes R; cbn;
          destruct R as [R1 R2]; (split; [exact (Ht R1) | auto]).
      * exact I7.
    + eapply inv_error; try eassumption; try discriminate. intros _ E. contradiction.
    + match goal with |- inv _ _ _ (error _ ?m) => set (n1 := m) end.
      assert (J : inv logging k past n1).
      { destruct I as [I1 I2 I3 I4 I5 I6 I7]. subst n1.
        constructor; cbn [running doing buffers log committed counted uncounted remote listed];
          try assumption; try congruence.
        - intros x Hx. apply I2 in Hx. rewrite !in_app_iff in *. tauto.
        - intros r' l' E. pose proof (I6 r' l') as H. rewrite Ed in H. exact (H E). }
      apply (inv_error logging k past _ n1 r (Transfer (t :: tables) :: rest) J);
        [discriminate | discriminate | reflexivity | intros _ E; contradiction].
  - (* Unlist *)
    destruct (doing n) as [[r [|[] rest]]|] eqn:Ed; try discriminate.
    pose proof (Hrun _ _ eq_refl) as Er. pose proof (in_ready _ _ _ _ I _ _ Ed) as R.
    assert (Hb : safe logging past -> buffers n = []).
    { shapes R; apply R. }
    assert (Hk : k <> Single -> (if ok
              then Some (Node (running n) (buffers n) (log n) (committed n) (counted n)
                     (uncounted n) (remote n) 0 (Some (r, rest)) (answers n))
              else Some (error r n)) = Some n' -> inv logging k (past ++ [Unlist ok]) n').
    { intros Nk E. destruct ok; injection E as <-.
      - destruct I as [I1 I2 I3 I4 I5 I6 I7].
        assert (Hs : safe logging (past ++ [Unlist true]) -> safe logging past)
          by (apply safe_before; discriminate).
        assert (Ei : inserted (past ++ [Unlist true]) = inserted past)
          by (rewrite inserted_app; apply app_nil_r).
        constructor; cbn [running doing buffers log committed counted uncounted remote listed];
          rewrite ?Ei; try assumption; try congruence.
        + intros S. exact (I4 (Hs S)).
        + intros S. exact (I5 (Hs S)).
        + intros r' l' E. injection E as <- <-.
          shapes R; cbn; auto.
          * destruct R as [R1 R2]. auto.
      - eapply inv_error; try eassumption; try discriminate.
        intros S _. apply Hb. apply (safe_before _ _ (Unlist false)); [discriminate | exact S]. }
    destruct k; try discriminate; (apply Hk; [discriminate | exact Hstep]).
  - (* Crash *)
    destruct (running n); [|discriminate]. injection Hstep as <-.
    apply inv_stop; try assumption; try discriminate.
    intros S ->. destruct (safe_ended _ _ S) as [H _]. congruence.
  - (* Restart *)
    destruct (running n) eqn:Er; [discriminate|]. injection Hstep as <-.
    destruct I as [I1 I2 I3 I4 I5 I6 I7].
    assert (Ei : inserted (past ++ [Restart]) = inserted past)
      by (rewrite inserted_app; apply app_nil_r).
    constructor; cbn [running doing buffers log committed counted uncounted remote listed];
      rewrite ?Ei.
    + discriminate.
    + intros x Hx. apply I2 in Hx. cbn [app]. rewrite !in_app_iff in *. tauto.
    + exact I3.
    + intros S _ x Hx. unfold replayed. rewrite in_app_iff, in_puts. destruct logging eqn:El.
      * cbn [logged]. pose proof (I3 eq_refl x Hx) as H. apply in_app_or in H.
        destruct H as [H|H]; [|tauto]. destruct (minus_split x _ (committed n) H); tauto.
      * destruct (safe_ended _ _ S) as [_ S'].
        pose proof (I4 S' (or_intror eq_refl) x Hx) as H.
        rewrite (proj2 (I1 Er)) in H. cbn in H. tauto.
    + reflexivity.
    + discriminate.
    + destruct k; congruence.
Qed.

Lemma inv_run : forall logging k events n,
  run logging k events new = Some n -> inv logging k events n.
Proof.
  intros logging k events n Hr.
  assert (H : forall events past m, inv logging k past m -> run logging k events m = Some n ->
            inv logging k (past ++ events) n).
  { clear. intros events. induction events as [|e events IH]; intros past m I Hr.
    - injection Hr as <-. rewrite app_nil_r. exact I.
    - cbn [run] in Hr. destruct (step logging k e m) as [m'|] eqn:E; [|discriminate].
      replace (past ++ e :: events) with ((past ++ [e]) ++ events)
        by (rewrite <- app_assoc; reflexivity).
      exact (IH _ _ (inv_step _ _ _ _ _ _ I E) Hr). }
  exact (H events [] new (inv_new logging k) Hr).
Qed.

(** ** Theorems *)

(** Nothing is lost while the write-ahead log is enabled. *)
Theorem rows_kept : forall k events n,
  run true k events new = Some n -> incl (inserted events) (log n ++ local n ++ remote n).
Proof.
  intros k events n Hr x Hx. pose proof (inv_run _ _ _ _ Hr) as I.
  apply (in_log _ _ _ _ I eq_refl) in Hx. unfold local. rewrite !in_app_iff in *.
  destruct Hx as [Hx|Hx]; [tauto|]. apply (in_tables _ _ _ _ I) in Hx.
  rewrite !in_app_iff in Hx. tauto.
Qed.

(** What answers a request. *)
Lemma answering : forall logging k events n n' e r a,
  run logging k events new = Some n -> answers_with logging k e r a n n' ->
  (exists l, doing n = Some (r, l) /\ running n = true /\ ready (safe logging events) r l n)
  /\ ((a = Fine /\ e = Continue /\ doing n = Some (r, [Answer]) /\ n' = reply r Fine n)
      \/ (a = Exited /\ e = Continue /\ doing n = Some (r, [Exit]) /\ n' = stop [(r, Exited)] n)
      \/ a = Failed).
Proof.
  intros logging k events n n' e r a Hr [Hs Ha]. pose proof (inv_run _ _ _ _ Hr) as I.
  assert (Hne : forall (l : list (request * answer)) p, l <> p :: l).
  { intros l p E. apply (f_equal (@List.length _)) in E. cbn in E. exact (n_Sn _ E). }
  assert (Hrun : forall r l, doing n = Some (r, l) -> running n = true).
  { intros r' l E. destruct (running n) eqn:Er; [reflexivity|].
    rewrite (proj1 (in_idle _ _ _ _ I Er)) in E. discriminate. }
  assert (Herr : forall r' n0, n' = error r' n0 -> answers n0 = answers n ->
            r' = r /\ a = Failed).
  { intros r' n0 -> E0. destruct r'; cbn [error stop reply answers app] in Ha; rewrite E0 in Ha;
      try (injection Ha as <- <-; auto). destruct (Hne _ _ Ha). }
  destruct e; cbn [step] in Hs.
  - destruct (running n), (doing n); try discriminate. injection Hs as <-. destruct (Hne _ _ Ha).
  - destruct (running n), (doing n); try discriminate. injection Hs as <-. destruct (Hne _ _ Ha).
  - destruct (doing n) as [[r' [|[] rest]]|]; try discriminate. destruct (buffers n); [discriminate|].
    injection Hs as <-. destruct o; destruct (Hne _ _ Ha).
  - destruct (doing n) as [[r' l]|] eqn:Ed; [|discriminate].
    pose proof (in_ready _ _ _ _ I _ _ Ed) as R. pose proof (Hrun _ _ eq_refl) as Er.
    destruct l as [|[] rest]; try discriminate.
    + destruct (buffers n); [|discriminate]. injection Hs as <-. destruct (Hne _ _ Ha).
    + destruct k; injection Hs as <-; try (destruct (Hne _ _ Ha)).
      destruct (Herr r' n eq_refl eq_refl) as [-> ->].
      split; [|right; right; reflexivity]. eexists. split; [reflexivity|]. split; assumption.
    + destruct tables; [|discriminate]. injection Hs as <-. destruct (Hne _ _ Ha).
    + destruct k; try discriminate. injection Hs as <-. destruct (Hne _ _ Ha).
    + injection Hs as <-. cbn [stop answers app] in Ha. injection Ha as -> <-.
      assert (rest = []) as -> by (shapes R; reflexivity).
      split; [eexists; split; [reflexivity|split; assumption]|]. right. left. auto.
    + injection Hs as <-. cbn [reply answers] in Ha. injection Ha as -> <-.
      assert (rest = []) as -> by (shapes R; reflexivity).
      split; [eexists; split; [reflexivity|split; assumption]|]. left. auto.
  - destruct (doing n) as [[r' [|[| |[|t tables]| | |] rest]]|] eqn:Ed; try discriminate.
    pose proof (in_ready _ _ _ _ I _ _ Ed) as R. pose proof (Hrun _ _ eq_refl) as Er.
    destruct o; injection Hs as <-.
    + destruct (Hne _ _ Ha).
    + destruct (Herr r' _ eq_refl eq_refl) as [-> ->].
      split; [|right; right; reflexivity]. eexists. split; [reflexivity|]. split; assumption.
    + destruct (Herr r' _ eq_refl eq_refl) as [-> ->].
      split; [|right; right; reflexivity]. eexists. split; [reflexivity|]. split; assumption.
  - destruct (doing n) as [[r' [|[] rest]]|] eqn:Ed; try discriminate.
    pose proof (in_ready _ _ _ _ I _ _ Ed) as R. pose proof (Hrun _ _ eq_refl) as Er.
    assert (Hk : (if ok
              then Some (Node (running n) (buffers n) (log n) (committed n) (counted n)
                     (uncounted n) (remote n) 0 (Some (r', rest)) (answers n))
              else Some (error r' n)) = Some n' -> r' = r /\ a = Failed).
    { intros E. destruct ok; injection E as <-; [destruct (Hne _ _ Ha)|].
      exact (Herr r' n eq_refl eq_refl). }
    destruct k; try discriminate; destruct (Hk Hs) as [-> ->];
      (split; [|right; right; reflexivity]; eexists; split; [reflexivity|]; split; assumption).
  - destruct (running n); [|discriminate]. injection Hs as <-. destruct (Hne _ _ Ha).
  - destruct (running n); [discriminate|]. injection Hs as <-. destruct (Hne _ _ Ha).
Qed.

(** When nothing is in memory the rows are in the tables. *)
Lemma rows_saved : forall logging k events n,
  inv logging k events n -> safe logging events -> running n = true -> buffers n = [] ->
  incl (inserted events) (local n ++ remote n).
Proof.
  intros logging k events n I S Er Eb x Hx.
  pose proof (in_held _ _ _ _ I S (or_introl Er) x Hx) as H. rewrite Eb in H. cbn in H.
  apply (in_tables _ _ _ _ I) in H. unfold local. rewrite <- app_assoc. exact H.
Qed.

Theorem flush_memory_saves : forall logging k events n n' e,
  run logging k events new = Some n -> answers_with logging k e Flush_memory Fine n n' ->
  safe logging events ->
  in_memory n' = [] /\ incl (inserted events) (local n' ++ remote n').
Proof.
  intros logging k events n n' e Hr Ha S.
  destruct (answering _ _ _ _ _ _ _ _ Hr Ha) as [(l & Ed & Er & R) [(_ & _ & E & ->)|[(F & _)|F]]];
    try discriminate.
  rewrite Ed in E. injection E as ->. cbn in R.
  split; [unfold in_memory; cbn; rewrite (R S); reflexivity|].
  exact (rows_saved _ _ _ _ (inv_run _ _ _ _ Hr) S Er (R S)).
Qed.

Theorem flush_node_moves : forall logging k events n n' e,
  run logging k events new = Some n -> answers_with logging k e Flush_node Fine n n' ->
  safe logging events ->
  in_memory n' = [] /\ local n' = [] /\ incl (inserted events) (remote n').
Proof.
  intros logging k events n n' e Hr Ha S.
  destruct (answering _ _ _ _ _ _ _ _ Hr Ha) as [(l & Ed & Er & R) [(_ & _ & E & ->)|[(F & _)|F]]];
    try discriminate.
  rewrite Ed in E. injection E as ->. cbn in R. destruct R as [Rc Rb].
  pose proof (inv_run _ _ _ _ Hr) as I.
  assert (El : local n = []).
  { unfold local. rewrite Rc, (in_counted _ _ _ _ I S Er). reflexivity. }
  split; [unfold in_memory; cbn; rewrite (Rb S); reflexivity|]. split; [exact El|].
  pose proof (rows_saved _ _ _ _ I S Er (Rb S)) as H. rewrite El in H. exact H.
Qed.

Theorem kill_node_moves : forall logging k events n n' e,
  run logging k events new = Some n -> answers_with logging k e Kill_node Exited n n' ->
  safe logging events ->
  running n' = false /\ local n' = [] /\ incl (inserted events) (remote n').
Proof.
  intros logging k events n n' e Hr Ha S.
  destruct (answering _ _ _ _ _ _ _ _ Hr Ha) as [(l & Ed & Er & R) [(F & _)|[(_ & _ & E & ->)|F]]];
    try discriminate.
  rewrite Ed in E. injection E as ->. cbn in R. destruct R as (_ & Rc & Rb).
  pose proof (inv_run _ _ _ _ Hr) as I.
  assert (El : local n = []).
  { unfold local. rewrite Rc, (in_counted _ _ _ _ I S Er). reflexivity. }
  split; [reflexivity|]. split; [exact El|].
  pose proof (rows_saved _ _ _ _ I S Er (Rb S)) as H. rewrite El in H. exact H.
Qed.

Theorem ctrl_c_saves : forall logging k events n n' e,
  run logging k events new = Some n -> answers_with logging k e Ctrl_c Exited n n' ->
  safe logging events ->
  running n' = false /\ incl (inserted events) (local n' ++ remote n').
Proof.
  intros logging k events n n' e Hr Ha S.
  destruct (answering _ _ _ _ _ _ _ _ Hr Ha) as [(l & Ed & Er & R) [(F & _)|[(_ & _ & E & ->)|F]]];
    try discriminate.
  rewrite Ed in E. injection E as ->. cbn in R. destruct R as (_ & Rb).
  split; [reflexivity|].
  exact (rows_saved _ _ _ _ (inv_run _ _ _ _ Hr) S Er (Rb S)).
Qed.

(** A node that ends because it was asked to is not listed. *)
Theorem stopped_unlisted : forall logging k events n n' e r,
  run logging k events new = Some n -> answers_with logging k e r Exited n n' ->
  running n' = false /\ listed n' = 0.
Proof.
  intros logging k events n n' e r Hr Ha.
  destruct (answering _ _ _ _ _ _ _ _ Hr Ha) as [(l & Ed & Er & R) [(F & _)|[(_ & _ & E & ->)|F]]];
    try discriminate.
  rewrite Ed in E. injection E as ->. split; [reflexivity|].
  shapes R; [exact (proj1 R) | exact (proj1 R)].
Qed.

(** A node without a remote data folder neither confirms FlushNode nor ends by KillNode. *)
Lemma single_step : forall logging e n n',
  (forall r l, doing n = Some (r, l) -> r = Flush_node \/ r = Kill_node ->
   exists l', l = Flush :: Begin_transfer :: l' \/ l = Begin_transfer :: l') ->
  step logging Single e n = Some n' ->
  (forall r l, doing n' = Some (r, l) -> r = Flush_node \/ r = Kill_node ->
   exists l', l = Flush :: Begin_transfer :: l' \/ l = Begin_transfer :: l')
  /\ (answers n' = answers n
      \/ exists r a, answers n' = (r, a) :: answers n
         /\ (r = Flush_node \/ r = Kill_node -> a = Failed)).
Proof.
  intros logging e n n' H Hs. destruct e; cbn [step] in Hs.
  - destruct (running n), (doing n); try discriminate. injection Hs as <-.
    split; [discriminate | left; reflexivity].
  - destruct (running n), (doing n); try discriminate. injection Hs as <-.
    split; [|left; reflexivity]. intros r' l E [->| ->]; injection E as -> <-;
      eexists; left; reflexivity.
  - destruct (doing n) as [[r [|[] rest]]|] eqn:Ed; try discriminate.
    destruct (buffers n); [discriminate|]. injection Hs as <-.
    destruct o; (split; [|left; reflexivity]); cbn [doing]; intros r' l' E Hr; injection E as <- <-;
      destruct (H _ _ eq_refl Hr) as (l' & [E|E]); try discriminate; injection E as ->;
      eexists; auto.
  - destruct (doing n) as [[r [|[] rest]]|] eqn:Ed; try discriminate.
    + destruct (buffers n); [|discriminate]. injection Hs as <-. split; [|left; reflexivity].
      cbn [doing set_doing]. intros r' l' E Hr; injection E as <- <-.
      destruct (H _ _ eq_refl Hr) as (l' & [E|E]); try discriminate. injection E as ->.
      eexists. auto.
    + injection Hs as <-. destruct r; cbn [error stop reply doing answers app];
        (split; [discriminate|]); [right..|left; reflexivity]; eexists _, _; (split; [reflexivity|]);
        auto.
    + destruct tables; [|discriminate]. injection Hs as <-. split; [|left; reflexivity].
      cbn [doing set_doing]. intros r' l' E Hr; injection E as <- <-.
      destruct (H _ _ eq_refl Hr) as (l' & [E|E]); discriminate.
    + injection Hs as <-. split; [|left; reflexivity].
      cbn [doing set_doing]. intros r' l' E Hr; injection E as <- <-.
      destruct (H _ _ eq_refl Hr) as (l' & [E|E]); discriminate.
    + injection Hs as <-. cbn [stop doing answers app]. split; [discriminate|].
      right. eexists _, _. split; [reflexivity|]. intros Hr.
      destruct (H _ _ eq_refl Hr) as (l' & [E|E]); discriminate.
    + injection Hs as <-. cbn [reply doing answers]. split; [discriminate|].
      right. eexists _, _. split; [reflexivity|]. intros Hr.
      destruct (H _ _ eq_refl Hr) as (l' & [E|E]); discriminate.
  - destruct (doing n) as [[r [|[| |[|t tables]| | |] rest]]|] eqn:Ed; try discriminate.
    assert (Hr : r = Flush_node \/ r = Kill_node -> False).
    { intros Hr. destruct (H _ _ eq_refl Hr) as (l' & [E|E]); discriminate. }
    destruct o; injection Hs as <-.
    + split; [|left; reflexivity]. cbn [doing]. intros r' l' E Hr'. injection E as <- <-.
      destruct (Hr Hr').
    + destruct r; cbn [error stop reply doing answers app]; (split; [discriminate|]);
        [right..|left; reflexivity]; eexists _, _; (split; [reflexivity|]); auto.
    + destruct r; cbn [error stop reply doing answers app]; (split; [discriminate|]);
        [right..|left; reflexivity]; eexists _, _; (split; [reflexivity|]); auto.
  - destruct (doing n) as [[r [|[] rest]]|]; discriminate.
  - destruct (running n); [|discriminate]. injection Hs as <-.
    split; [discriminate | left; reflexivity].
  - destruct (running n); [discriminate|]. injection Hs as <-.
    split; [discriminate | left; reflexivity].
Qed.

Theorem single_never : forall logging events n,
  run logging Single events new = Some n ->
  ~ In (Flush_node, Fine) (answers n) /\ ~ In (Kill_node, Exited) (answers n).
Proof.
  intros logging events n Hr.
  assert (H : forall events m,
            (forall r l, doing m = Some (r, l) -> r = Flush_node \/ r = Kill_node ->
             exists l', l = Flush :: Begin_transfer :: l' \/ l = Begin_transfer :: l') ->
            (forall r a, In (r, a) (answers m) -> r = Flush_node \/ r = Kill_node -> a = Failed) ->
            run logging Single events m = Some n ->
            forall r a, In (r, a) (answers n) -> r = Flush_node \/ r = Kill_node -> a = Failed).
  { clear. intros events. induction events as [|e events IH]; intros m H1 H2 Hr.
    - injection Hr as <-. exact H2.
    - cbn [run] in Hr. destruct (step logging Single e m) as [m'|] eqn:E; [|discriminate].
      destruct (single_step _ _ _ _ H1 E) as [H1' Ha]. apply (IH m' H1'); [|exact Hr].
      destruct Ha as [-> |(r0 & a0 & -> & Ha)]; [exact H2|].
      intros r a [Hi|Hi] Hk; [injection Hi as -> ->; exact (Ha Hk) | exact (H2 r a Hi Hk)]. }
  assert (H0 := H events new ltac:(discriminate) ltac:(intros r a []) Hr).
  split; intros Hi.
  - discriminate (H0 _ _ Hi (or_introl eq_refl)).
  - discriminate (H0 _ _ Hi (or_intror eq_refl)).
Qed.

(** ** A request ends *)

Lemma run_app : forall logging k a b n n1,
  run logging k a n = Some n1 -> run logging k (a ++ b) n = run logging k b n1.
Proof.
  intros logging k a. induction a as [|e a IH]; intros b n n1 H.
  - injection H as <-. reflexivity.
  - cbn [run app] in *. destruct (step logging k e n); [|discriminate]. exact (IH b _ _ H).
Qed.

Lemma flush_ends : forall logging k bs n r rest,
  buffers n = bs -> doing n = Some (r, Flush :: rest) ->
  exists events n', forallb fine events = true /\ run logging k events n = Some n'
    /\ doing n' = Some (r, rest) /\ answers n' = answers n.
Proof.
  intros logging k bs. induction bs as [|b bs IH]; intros n r rest Eb Ed.
  - exists [Continue]. eexists. split; [reflexivity|]. cbn [run step]. rewrite Ed, Eb.
    split; [reflexivity|]. split; reflexivity.
  - assert (E : step logging k (Save Saved) n
              = Some (Node (running n) bs (minus (log n) b) (b ++ committed n) (b ++ counted n)
                        (uncounted n) (remote n) (listed n) (doing n) (answers n))).
    { cbn [step]. rewrite Ed, Eb. reflexivity. }
    destruct (IH (Node (running n) bs (minus (log n) b) (b ++ committed n) (b ++ counted n)
                    (uncounted n) (remote n) (listed n) (doing n) (answers n)) r rest eq_refl Ed)
      as (events & n' & Hf & Hr & Hd & Ha).
    exists (Save Saved :: events), n'. split; [exact Hf|].
    cbn [run]. rewrite E. split; [exact Hr|]. split; [exact Hd | exact Ha].
Qed.

Lemma moves_end : forall logging k tables n r rest,
  doing n = Some (r, Transfer tables :: rest) ->
  exists events n', forallb fine events = true /\ run logging k events n = Some n'
    /\ doing n' = Some (r, rest) /\ answers n' = answers n.
Proof.
  intros logging k tables. induction tables as [|t tables IH]; intros n r rest Ed.
  - exists [Continue]. eexists. split; [reflexivity|]. cbn [run step]. rewrite Ed.
    split; [reflexivity|]. split; reflexivity.
  - assert (E : exists n1, step logging k (Move Moved) n = Some n1
              /\ doing n1 = Some (r, Transfer tables :: rest) /\ answers n1 = answers n).
    { cbn [step]. rewrite Ed. eexists. split; [reflexivity|]. split; reflexivity. }
    destruct E as (n1 & E & Ed1 & Ea1).
    destruct (IH n1 r rest Ed1) as (events & n' & Hf & Hr & Hd & Ha).
    exists (Move Moved :: events), n'. split; [exact Hf|].
    cbn [run]. rewrite E. split; [exact Hr|]. split; [exact Hd | congruence].
Qed.

(** FlushNode and KillNode can always be completed by a node in a cluster. *)
Theorem flush_node_completes : forall logging k n,
  k <> Single -> running n = true -> doing n = None ->
  exists events n', forallb fine events = true
    /\ run logging k (Request Flush_node :: events) n = Some n'
    /\ answers n' = (Flush_node, Fine) :: answers n.
Proof.
  intros logging k n Hk Hr Hd.
  assert (E0 : step logging k (Request Flush_node) n
               = Some (set_doing Flush_node (program Flush_node) n)).
  { cbn [step]. rewrite Hr, Hd. reflexivity. }
  destruct (flush_ends logging k _ (set_doing Flush_node (program Flush_node) n) Flush_node
              [Begin_transfer; Answer] eq_refl eq_refl) as (e1 & n1 & F1' & R1 & D1 & A1).
  assert (E2 : step logging k Continue n1
               = Some (set_doing Flush_node [Transfer (sized_tables n1); Answer] n1)).
  { cbn [step]. rewrite D1. destruct k; [contradiction|reflexivity..]. }
  destruct (moves_end logging k _ _ Flush_node [Answer]
              (eq_refl : doing (set_doing Flush_node [Transfer (sized_tables n1); Answer] n1)
                         = Some (Flush_node, [Transfer (sized_tables n1); Answer])))
    as (e3 & n3 & F3' & R3 & D3 & A3).
  exists (e1 ++ Continue :: e3 ++ [Continue]), (reply Flush_node Fine n3).
  split; [rewrite forallb_app; cbn [forallb fine]; rewrite forallb_app, F1', F3'; reflexivity|].
  split.
  - cbn [run]. rewrite E0, (run_app _ _ _ _ _ _ R1). cbn [run]. rewrite E2.
    rewrite (run_app _ _ _ _ _ _ R3). cbn [run step]. rewrite D3. reflexivity.
  - cbn [reply answers]. rewrite A3. cbn [set_doing answers]. rewrite A1. reflexivity.
Qed.

Theorem kill_node_completes : forall logging k n,
  k <> Single -> running n = true -> doing n = None ->
  exists events n', forallb fine events = true
    /\ run logging k (Request Kill_node :: events) n = Some n'
    /\ answers n' = (Kill_node, Exited) :: answers n.
Proof.
  intros logging k n Hk Hr Hd.
  assert (E0 : step logging k (Request Kill_node) n
               = Some (set_doing Kill_node (program Kill_node) n)).
  { cbn [step]. rewrite Hr, Hd. reflexivity. }
  destruct (flush_ends logging k _ (set_doing Kill_node (program Kill_node) n) Kill_node
              [Begin_transfer; Remove; Exit] eq_refl eq_refl) as (e1 & n1 & F1' & R1 & D1 & A1).
  assert (E2 : step logging k Continue n1
               = Some (set_doing Kill_node [Transfer (sized_tables n1); Remove; Exit] n1)).
  { cbn [step]. rewrite D1. destruct k; [contradiction|reflexivity..]. }
  destruct (moves_end logging k _ _ Kill_node [Remove; Exit]
              (eq_refl : doing (set_doing Kill_node [Transfer (sized_tables n1); Remove; Exit] n1)
                         = Some (Kill_node, [Transfer (sized_tables n1); Remove; Exit])))
    as (e3 & n3 & F3' & R3 & D3 & A3).
  assert (E4 : exists n4, step logging k (Unlist true) n3 = Some n4
               /\ doing n4 = Some (Kill_node, [Exit]) /\ answers n4 = answers n3).
  { cbn [step]. rewrite D3. destruct k; [contradiction|..];
      (eexists; split; [reflexivity|]; split; reflexivity). }
  destruct E4 as (n4 & E4 & D4 & A4).
  exists (e1 ++ Continue :: e3 ++ [Unlist true; Continue]), (stop [(Kill_node, Exited)] n4).
  split; [rewrite forallb_app; cbn [forallb fine]; rewrite forallb_app, F1', F3'; reflexivity|].
  split.
  - cbn [run]. rewrite E0, (run_app _ _ _ _ _ _ R1). cbn [run]. rewrite E2.
    rewrite (run_app _ _ _ _ _ _ R3). cbn [run]. rewrite E4. cbn [run step]. rewrite D4. reflexivity.
  - cbn [stop answers app]. rewrite A4, A3. cbn [set_doing answers]. rewrite A1. reflexivity.
Qed.
