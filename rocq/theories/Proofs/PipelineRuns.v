(** Runs of the pipeline of Model/Pipeline.v, with and without crashes. *)
From Coq Require Import ZArith List Bool String Permutation Sorted Lia.
From Verif Require Import Model.Pipeline Spec.PipelineSpec Proofs.PipelineMaps Proofs.PipelineInvariant
  Proofs.PipelineSteps Proofs.PipelineIds.
Import ListNotations.
Open Scope Z_scope.

Lemma collision_free_app hash l k : collision_free hash (l ++ k) -> collision_free hash l.
Proof. intros H x y Hx Hy. apply H; apply in_app_iff; left; assumption. Qed.

Lemma distinct_times_app l k : distinct_times (l ++ k) -> distinct_times l.
Proof. unfold distinct_times. rewrite map_app, NoDup_app_iff. tauto. Qed.

(** Equal sums for all weights. *)
Lemma sum_indicator x l : sum (indicator x) l = Z.of_nat (count_occ item_dec l x).
Proof.
  induction l as [|y l IH]; cbn [sum count_occ]; [reflexivity|]. rewrite IH. unfold indicator.
  destruct (item_dec x y) as [E|E], (item_dec y x) as [F|F]; try (symmetry in E; contradiction);
    try (symmetry in F; contradiction); lia.
Qed.

Lemma permutation_sums (l k : list item) : (forall v, sum v l = sum v k) -> Permutation l k.
Proof.
  intros H. apply (Permutation_count_occ item_dec). intros x. apply Nat2Z.inj.
  rewrite <- !sum_indicator. apply H.
Qed.

(** * Ids in the log *)

Definition log_ok (logging : bool) (log : list batch) : Prop :=
  if logging then
    forall t, map b_id (filter (fun b => String.eqb (t_name (b_meta b)) t) log)
              = map (fun n => Some (Z.of_nat n))
                  (seq 0 (List.length (filter (fun b => String.eqb (t_name (b_meta b)) t) log)))
  else Forall (fun b => b_id b = None) log.

Lemma log_ok_insert logging log m rows size :
  log_ok logging log ->
  log_ok logging (log ++ [{| b_meta := m; b_rows := rows; b_size := size;
    b_id := if logging then Some (next_id (t_name m) log) else None |}]).
Proof.
  unfold log_ok. destruct logging; intros H.
  - intros t. rewrite filter_app. cbn [filter b_meta].
    destruct (String.eqb (t_name m) t) eqn:E.
    + apply String.eqb_eq in E. subst t. rewrite app_length, seq_app, !map_app, H.
      cbn [List.length seq map b_id]. reflexivity.
    + rewrite app_nil_r. apply H.
  - apply Forall_app. split; [exact H|]. constructor; [reflexivity|constructor].
Qed.

Lemma log_ids_unique log b c :
  log_ok true log -> In b log -> In c log -> t_name (b_meta b) = t_name (b_meta c) ->
  b_id b = b_id c -> b = c.
Proof.
  intros H Hb Hc Ht Hi. unfold log_ok in H. specialize (H (t_name (b_meta c))).
  set (l := filter (fun b => String.eqb (t_name (b_meta b)) (t_name (b_meta c))) log) in *.
  assert (Hbl : In b l) by (apply filter_In; split; [exact Hb|apply String.eqb_eq; exact Ht]).
  assert (Hcl : In c l) by (apply filter_In; split; [exact Hc|apply String.eqb_refl]).
  assert (Hn : NoDup (map b_id l)).
  { rewrite H. apply FinFun.Injective_map_NoDup; [|apply seq_NoDup].
    intros x y E. injection E as E. lia. }
  clearbody l. clear - Hbl Hcl Hn Hi. induction l as [|a l IH]; [contradiction|].
  cbn [map] in Hn. apply NoDup_cons_iff in Hn. destruct Hn as [Ha Hn].
  destruct Hbl as [->|Hbl], Hcl as [->|Hcl]; try reflexivity.
  - exfalso. apply Ha. rewrite Hi. apply in_map. exact Hcl.
  - exfalso. apply Ha. rewrite <- Hi. apply in_map. exact Hbl.
  - apply IH; assumption.
Qed.

Lemma log_id_some log b : log_ok true log -> In b log -> exists i, b_id b = Some i.
Proof.
  intros H Hb. unfold log_ok in H. specialize (H (t_name (b_meta b))).
  assert (Hin : In (b_id b) (map b_id (filter (fun c => String.eqb (t_name (b_meta c)) (t_name (b_meta b))) log))).
  { apply in_map. apply filter_In. split; [exact Hb|apply String.eqb_refl]. }
  rewrite H in Hin. apply in_map_iff in Hin. destruct Hin as [n [E _]]. eexists. symmetry. exact E.
Qed.

Section Runs.
  Variable hash : string -> Z.
  Variable capacity : nat.
  Variable sort : list point -> list point.
  Variable logging : bool.
  Hypothesis Hsort : sorts_points sort.

  Notation step := (step hash capacity sort logging).
  Notation run := (run hash capacity sort logging).
  Notation along := (along hash capacity sort logging).
  Notation start := (start logging).
  Notation wf := (wf hash).

  (** * The log only grows *)

  Lemma reserve_log w m s s1 ok : Pipeline.reserve capacity sort w m s = Some (s1, ok) -> s_log s1 = s_log s.
  Proof.
    unfold Pipeline.reserve, take_buffer, Pipeline.spill, spill_failed. intros H.
    destruct (memory_size capacity m <=? uncompressed (s_pool s)); [injection H as <- _; reflexivity|].
    destruct (s_uncompressed s); [|discriminate H].
    destruct (s_memory s) as [|[h b] l]; [injection H as <- _; reflexivity|].
    destruct w; injection H as <- _; reflexivity.
  Qed.

  Lemma pop_log s t b s1 : pop_buffer s = Some (t, b, s1) -> s_log s1 = s_log s.
  Proof.
    unfold pop_buffer. destruct (s_queue s); [discriminate|].
    destruct (get String.eqb s0 (s_buffers s)); [|discriminate]. intros H. injection H as _ _ <-. reflexivity.
  Qed.

  Lemma step_log_ok e s s' :
    step e s = Next s' -> log_ok logging (s_log s) ->
    (exists l, s_log s' = s_log s ++ l) /\ log_ok logging (s_log s').
  Proof.
    intros H Hl.
    enough (s_log s' = s_log s \/ exists l, s_log s' = s_log s ++ l /\ log_ok logging (s_log s')) as [E|[l [E Hl']]].
    - rewrite E. split; [exists []; rewrite app_nil_r; reflexivity|exact Hl].
    - split; [exists l; exact E|exact Hl'].
    - destruct e; cbn [Pipeline.step] in H.
      1:{ right. destruct (s_client s); try discriminate H. destruct (0 <=? size); [|discriminate H].
          injection H as <-. eexists. split; [reflexivity|]. fields. apply log_ok_insert. exact Hl. }
      11:{ left. destruct (s_ingestion s) as [|b l w| | |]; try discriminate H. destruct l as [|r l]; [discriminate H|].
          destruct w; [discriminate H|]. unfold insert_data_point in H. cbv zeta in H.
          destruct (get Z.eqb _ (s_memory s)) as [buffer|]; [injection H as <-; reflexivity|].
          destruct (Pipeline.reserve _ _ _ _ s) as [[s1 ok]|] eqn:Er; [|injection H as <-; reflexivity].
          apply reserve_log in Er. rewrite <- Er. destruct ok; [|injection H as <-; reflexivity].
          destruct (get Z.eqb _ (s_disk s1)) as [d|]; [|injection H as <-; reflexivity].
          destruct (get path_eqb _ (s_files s1)); injection H as <-; reflexivity. }
      all: left; unfold take_buffer in H;
        repeat match type of H with
          | context [match pop_buffer ?x with _ => _ end] =>
              let E := fresh "E" in destruct (pop_buffer x) as [[[? ?] ?]|] eqn:E;
              [apply pop_log in E|]
          | context [match ?x with _ => _ end] =>
              match x with
              | context [match _ with _ => _ end] => fail 1
              | _ => destruct x
              end
          end; try discriminate H; injection H as <-;
        solve [reflexivity | match goal with E : s_log _ = s_log _ |- _ => exact E end].
  Qed.

  (** * The table only grows, and threads that failed stay failed *)

  Lemma reserve_same w m s s1 ok : Pipeline.reserve capacity sort w m s = Some (s1, ok) ->
    s_table s1 = s_table s /\ s_compressor s1 = s_compressor s /\ s_writer s1 = s_writer s.
  Proof.
    unfold Pipeline.reserve, take_buffer, Pipeline.spill, spill_failed. intros H.
    destruct (memory_size capacity m <=? uncompressed (s_pool s)); [injection H as <- _; tauto|].
    destruct (s_uncompressed s); [|discriminate H].
    destruct (s_memory s) as [|[h b] l]; [injection H as <- _; tauto|].
    destruct w; injection H as <- _; tauto.
  Qed.

  Lemma pop_same s t b s1 : pop_buffer s = Some (t, b, s1) ->
    s_table s1 = s_table s /\ s_ingestion s1 = s_ingestion s /\ s_compressor s1 = s_compressor s
    /\ s_writer s1 = s_writer s.
  Proof.
    unfold pop_buffer. destruct (s_queue s); [discriminate|].
    destruct (get String.eqb s0 (s_buffers s)); [|discriminate]. intros H. injection H as _ _ <-. tauto.
  Qed.

  Ltac point H := 
    destruct (s_ingestion _) as [|b l w| | |] eqn:Ei; try discriminate H; destruct l as [|r l]; [discriminate H|];
    destruct w; [discriminate H|]; unfold insert_data_point in H; cbv zeta in H;
    destruct (get Z.eqb _ (s_memory _)) as [buffer|];
    [|destruct (Pipeline.reserve _ _ _ _ _) as [[s1 ok]|] eqn:Er;
      [destruct (reserve_same _ _ _ _ _ Er) as [Er1 [Er2 Er3]]; destruct ok;
       [destruct (get Z.eqb _ (s_disk s1)) as [d|]; [destruct (get path_eqb _ (s_files s1))|]|]|]];
    injection H as <-.

  Ltac cases H :=
    unfold take_buffer in H;
    repeat match type of H with
      | context [match pop_buffer ?x with _ => _ end] =>
          let E := fresh "E" in destruct (pop_buffer x) as [[[? ?] ?]|] eqn:E;
          [apply pop_same in E; destruct E as [? [? [? ?]]]|]
      | context [match ?x with _ => _ end] =>
          match x with
          | context [match _ with _ => _ end] => fail 1
          | _ => let E := fresh "E" in destruct x eqn:E
          end
      end; try discriminate H; injection H as <-.

  Lemma step_table e s s' : step e s = Next s' -> exists l, s_table s' = s_table s ++ l.
  Proof.
    intros H.
    enough (s_table s' = s_table s \/ exists l, s_table s' = s_table s ++ l) as [E|E]; [|exact E|].
    { exists []. rewrite E, app_nil_r. reflexivity. }
    destruct e; cbn [Pipeline.step] in H.
    12:{ left. point H; try reflexivity; exact Er1. }
    all: cases H; first [left; reflexivity | left; assumption | right; eexists; reflexivity].
  Qed.

  Lemma step_healthy e s s' : step e s = Next s' -> e <> Crash -> healthy s' -> healthy s.
  Proof.
    unfold healthy. intros H Hc. destruct e; cbn [Pipeline.step] in H.
    12:{ point H; unfold inserted; fields; intros [H1 [H2 H3]];
         (split; [intros C; discriminate C|split; congruence]). }
    19:{ contradiction Hc. reflexivity. }
    all: cases H; unfold finish_all, finish_buffers, save, Pipeline.spill; fields; intros [Hh1 [Hh2 Hh3]]; (split; [|split]);
      try congruence.
    all: intros C; try (rewrite C in Hh1; apply Hh1; reflexivity).
  Qed.

  (** * All runs *)

  Definition good (e : event) (s : state) : Prop := undisturbed e s /\ spills_written e.

  Record inv (s : state) : Prop := {
    inv_wf : wf s;
    inv_below : below s;
    inv_ids : ids_ok s;
    inv_log : log_ok logging (s_log s) }.

  Lemma live_start limits log t :
    live (start limits log t) = flat_map batch_items (if logging then replayed log t else []).
  Proof.
    unfold live, Pipeline.start. fields. cbn [held_by_client data held_by_ingestion held_by_compressor
      held_by_writer flat_map app]. rewrite !app_nil_r. reflexivity.
  Qed.

  Lemma start_wf limits log t : wf (start limits log t).
  Proof.
    constructor; unfold Pipeline.start, refs; fields; cbn [hand map flat_map app message_refs];
      try (intros; contradiction); try (intros; discriminate); try reflexivity; constructor.
  Qed.

  Lemma start_inv limits : inv (start limits [] []).
  Proof.
    constructor.
    - apply start_wf.
    - intros v Hv. unfold amount. rewrite live_start. cbn [replayed filter].
      destruct logging; cbn [flat_map sum saved received Pipeline.start s_table s_log]; lia.
    - constructor; unfold Pipeline.start, refs; fields; cbn [hand map flat_map app message_refs];
        try (intros; contradiction); try (intros; discriminate).
    - unfold log_ok. cbn [Pipeline.start s_log]. destruct logging; [intros t; reflexivity|constructor].
  Qed.

  Lemma in_committed t i table :
    In i (committed t table) <-> exists k, In k table /\ k_table k = t /\ In i (k_ids k).
  Proof.
    unfold committed. rewrite in_flat_map. split.
    - intros [k [Hk H]]. exists k. destruct (String.eqb (k_table k) t) eqn:E; [|contradiction].
      apply String.eqb_eq in E. tauto.
    - intros [k [Hk [E H]]]. exists k. split; [exact Hk|]. apply String.eqb_eq in E. rewrite E. exact H.
  Qed.

  Definition is_committed (table : list commit) (x : item) : bool :=
    match p_source (i_point x) with
    | Some i => existsb (Z.eqb i) (committed (t_name (i_meta x)) table)
    | None => false
    end.

  Lemma existsb_in i l : existsb (Z.eqb i) l = true <-> In i l.
  Proof.
    rewrite existsb_exists. split.
    - intros [j [Hj E]]. apply Z.eqb_eq in E. subst j. exact Hj.
    - intros H. exists i. split; [exact H|apply Z.eqb_refl].
  Qed.

  Lemma received_in s x : In x (received s) <-> exists b, In b (s_log s) /\ In x (batch_items b).
  Proof. unfold received. rewrite in_flat_map. reflexivity. Qed.

  Lemma batch_item b x : In x (batch_items b) -> i_meta x = b_meta b /\ p_source (i_point x) = b_id b.
  Proof.
    unfold batch_items, row_items. rewrite in_map_iff. intros [r [<- _]]. split; reflexivity.
  Qed.

  Lemma saved_received s x : below s -> In x (saved s) -> In x (received s).
  Proof.
    intros Hb Hx. specialize (Hb (indicator x) (indicator_nonneg x)). unfold amount in Hb.
    pose proof (sum_in (indicator x) (saved s) x (indicator_nonneg x) Hx) as H1.
    pose proof (sum_nonneg (indicator x) (live s) (fun y _ => indicator_nonneg x y)) as H2.
    unfold indicator at 1 in H1. destruct (item_dec x x) as [_|C]; [|contradiction C; reflexivity].
    apply sum_indicator_pos. lia.
  Qed.

  (** Saved data points have saved ids. *)
  Lemma saved_committed s x :
    inv s -> logging = true -> In x (saved s) -> is_committed (s_table s) x = true.
  Proof.
    intros [Hw Hb Hi Hl] Hlog Hx. pose proof (saved_received s x Hb Hx) as Hr.
    apply received_in in Hr. destruct Hr as [b [Hb1 Hb2]]. rewrite Hlog in Hl.
    destruct (log_id_some _ b Hl Hb1) as [i Ei]. destruct (batch_item b x Hb2) as [Hm Hs].
    unfold is_committed. rewrite Hs, Ei. apply existsb_in. apply in_committed.
    unfold saved in Hx. apply in_flat_map in Hx. destruct Hx as [k [Hk Hx]].
    unfold commit_items in Hx. apply in_flat_map in Hx. destruct Hx as [g [Hg Hx]].
    destruct (io_table _ Hi k Hk) as [Ht He].
    unfold segment_items, items in Hx. apply in_map_iff in Hx. destruct Hx as [p [<- Hp]].
    exists k. split; [exact Hk|]. split; [symmetry; apply Ht; exact Hg|].
    apply He. exists p. split.
    - unfold all_points. apply in_flat_map. exists g. split; assumption.
    - cbn [i_point] in Hs. congruence.
  Qed.

  (** Saved ids are those of saved data points. *)
  Lemma committed_saved s t i :
    inv s -> In i (committed t (s_table s)) ->
    exists y, In y (saved s) /\ t_name (i_meta y) = t /\ p_source (i_point y) = Some i.
  Proof.
    intros [Hw Hb Hi Hl] H. apply in_committed in H. destruct H as [k [Hk [Ht H]]].
    destruct (io_table _ Hi k Hk) as [Hn He]. apply He in H. destruct H as [p [Hp Hs]].
    unfold all_points in Hp. apply in_flat_map in Hp. destruct Hp as [g [Hg Hp]].
    exists {| i_meta := g_meta g; i_tags := g_tags g; i_point := p |}. split; [|split].
    - unfold saved. apply in_flat_map. exists k. split; [exact Hk|]. unfold commit_items.
      apply in_flat_map. exists g. split; [exact Hg|]. unfold segment_items, items.
      apply in_map_iff. exists p. split; [reflexivity|exact Hp].
    - cbn [i_meta]. rewrite (Hn g Hg). exact Ht.
    - exact Hs.
  Qed.

  Lemma crash_below s : inv s -> below (start (s_limits s) (s_log s) (s_table s)).
  Proof.
    intros Hinv v Hv. pose proof (inv_below s Hinv) as Hb.
    unfold amount. rewrite live_start. change (saved (start (s_limits s) (s_log s) (s_table s))) with (saved s).
    change (received (start (s_limits s) (s_log s) (s_table s))) with (received s).
    destruct logging eqn:El.
    - set (w := fun x => if is_committed (s_table s) x then v x else 0).
      assert (Hw0 : forall x, 0 <= w x).
      { intros x. unfold w. destruct (is_committed (s_table s) x); [apply Hv|lia]. }
      specialize (Hb w Hw0). unfold amount in Hb.
      pose proof (sum_nonneg w (live s) (fun x _ => Hw0 x)) as Hlive.
      assert (Hs : sum w (saved s) = sum v (saved s)).
      { apply sum_ext_in. intros x Hx. unfold w. rewrite saved_committed; [reflexivity|exact Hinv| |exact Hx].
        exact El. }
      rewrite <- Hs. unfold received in *. rewrite !sum_flat_map in *. unfold replayed.
      match goal with |- context [filter ?f _] => set (keep := f) end.
      pose proof (sum_filter (fun a => sum v (batch_items a)) keep (s_log s)) as H1.
      pose proof (sum_filter (fun a => sum w (batch_items a)) keep (s_log s)) as H2.
      assert (H3 : sum (fun a => sum w (batch_items a)) (filter keep (s_log s)) = 0).
      { apply sum_zero. intros b Hb0. apply filter_In in Hb0. destruct Hb0 as [_ Hk].
        apply sum_zero. intros x Hx. destruct (batch_item b x Hx) as [Em Es].
        unfold w, is_committed. rewrite Em, Es. unfold keep in Hk. destruct (b_id b); [|reflexivity].
        destruct (existsb _ _); [discriminate Hk|reflexivity]. }
      assert (H4 : sum (fun a => sum w (batch_items a)) (filter (fun a => negb (keep a)) (s_log s))
                   <= sum (fun a => sum v (batch_items a)) (filter (fun a => negb (keep a)) (s_log s))).
      { generalize (filter (fun a => negb (keep a)) (s_log s)). intros l.
        assert (Hle : forall k, sum w k <= sum v k).
        { intros k. induction k as [|x k IH]; cbn [sum]; [lia|]. unfold w at 1. pose proof (Hv x).
          destruct (is_committed (s_table s) x); lia. }
        induction l as [|b l IH]; cbn [sum]; [lia|]. specialize (Hle (batch_items b)). lia. }
      lia.
    - cbn [flat_map sum]. specialize (Hb v Hv). unfold amount in Hb.
      pose proof (sum_nonneg v (live s) (fun x _ => Hv x)). lia.
  Qed.

  Lemma event_dec (e : event) : {e = Crash} + {e <> Crash}.
  Proof. destruct e; (left; reflexivity) || (right; discriminate). Qed.

  Lemma step_inv e s s' :
    inv s -> collision_free hash (received s') -> distinct_times (received s') -> good e s ->
    step e s = Next s' -> inv s'.
  Proof.
    intros Hinv Hc Ht [Hu Hs] H. destruct (step_log_ok e s s' H (inv_log s Hinv)) as [[l El] Hlog].
    assert (Hr : received s' = received s ++ flat_map batch_items l).
    { unfold received. rewrite El, flat_map_app. reflexivity. }
    rewrite Hr in Hc, Ht. apply collision_free_app in Hc. apply distinct_times_app in Ht.
    destruct Hinv as [Hw Hb Hi Hl].
    pose proof (step_ids hash capacity sort logging Hsort e s s' Hw Hb Hc Ht Hu Hs Hi H) as Hi'.
    destruct (event_dec e) as [->|Hcr].
    - cbn [Pipeline.step] in H. injection H as <-. constructor.
      + apply start_wf.
      + apply crash_below. constructor; assumption.
      + exact Hi'.
      + exact Hlog.
    - destruct (step_ok hash capacity sort logging Hsort e s s' Hw Hb Hc Ht Hu Hs Hcr H)
        as [Hw' [new [drop [Hn [Ha Hd]]]]].
      constructor; [exact Hw'| |exact Hi'|exact Hlog].
      intros v Hv. specialize (Ha v). specialize (Hb v Hv).
      pose proof (sum_nonneg v drop (fun x _ => Hv x)). rewrite Hn, sum_app. lia.
  Qed.

  Lemma run_received events : forall s s',
    run events s = Next s' -> log_ok logging (s_log s) ->
    (exists l, s_log s' = s_log s ++ l) /\ log_ok logging (s_log s').
  Proof.
    induction events as [|e events IH]; intros s s' H Hl; cbn [Pipeline.run] in H.
    - injection H as <-. split; [exists []; rewrite app_nil_r; reflexivity|exact Hl].
    - destruct (step e s) as [| |s1] eqn:E; try discriminate H.
      destruct (step_log_ok e s s1 E Hl) as [[l1 E1] Hl1].
      destruct (IH s1 s' H Hl1) as [[l2 E2] Hl2]. split; [|exact Hl2].
      exists (l1 ++ l2). rewrite E2, E1, app_assoc. reflexivity.
  Qed.

  Lemma received_prefix s s' : (exists l, s_log s' = s_log s ++ l) ->
    exists new, received s' = received s ++ new.
  Proof. intros [l E]. unfold received. rewrite E, flat_map_app. eexists. reflexivity. Qed.

  Lemma run_inv events : forall s s',
    inv s -> run events s = Next s' -> along good events s ->
    collision_free hash (received s') -> distinct_times (received s') -> inv s'.
  Proof.
    induction events as [|e events IH]; intros s s' Hinv H Ha Hc Ht; cbn [Pipeline.run] in H.
    - injection H as <-. exact Hinv.
    - cbn [PipelineSpec.along] in Ha. destruct Ha as [Hg Ha].
      destruct (step e s) as [| |s1] eqn:E; try discriminate H.
      destruct (step_log_ok e s s1 E (inv_log s Hinv)) as [_ Hl1].
      destruct (run_received events s1 s' H Hl1) as [Hp _]. apply received_prefix in Hp.
      destruct Hp as [new Hp]. apply (IH s1 s'); try assumption.
      rewrite Hp in Hc, Ht. apply (step_inv e s s1); try assumption.
      + apply collision_free_app in Hc. exact Hc.
      + apply distinct_times_app in Ht. exact Ht.
  Qed.

  Lemma run_table events : forall s s',
    run events s = Next s' -> exists l, s_table s' = s_table s ++ l.
  Proof.
    induction events as [|e events IH]; intros s s' H; cbn [Pipeline.run] in H.
    - injection H as <-. exists []. rewrite app_nil_r. reflexivity.
    - destruct (step e s) as [| |s1] eqn:E; try discriminate H.
      destruct (step_table e s s1 E) as [l1 E1]. destruct (IH s1 s' H) as [l2 E2].
      exists (l1 ++ l2). rewrite E2, E1, app_assoc. reflexivity.
  Qed.

  Lemma run_healthy events : forall s s',
    run events s = Next s' -> ~ In Crash events -> healthy s' -> healthy s.
  Proof.
    induction events as [|e events IH]; intros s s' H Hc Hh; cbn [Pipeline.run] in H.
    - injection H as <-. exact Hh.
    - destruct (step e s) as [| |s1] eqn:E; try discriminate H.
      apply (step_healthy e s s1 E); [intros ->; apply Hc; left; reflexivity|].
      apply (IH s1 s' H); [intros C; apply Hc; right; exact C|exact Hh].
  Qed.

  (** Runs without crashes lose nothing. *)
  Lemma run_conserves events : forall s s',
    inv s -> run events s = Next s' -> ~ In Crash events ->
    along (fun e s => good e s /\ commits_written e) events s -> healthy s' ->
    collision_free hash (received s') -> distinct_times (received s') ->
    exists new, received s' = received s ++ new /\ forall v, amount v s' = amount v s + sum v new.
  Proof.
    induction events as [|e events IH]; intros s s' Hinv H Hcr Ha Hh Hc Ht; cbn [Pipeline.run] in H.
    - injection H as <-. exists []. rewrite app_nil_r. split; [reflexivity|]. intros v. cbn [sum]. lia.
    - cbn [PipelineSpec.along] in Ha. destruct Ha as [[Hg Hcw] Ha].
      destruct (step e s) as [| |s1] eqn:E; try discriminate H.
      assert (Hcr1 : ~ In Crash events) by (intros C; apply Hcr; right; exact C).
      assert (Hne : e <> Crash) by (intros ->; apply Hcr; left; reflexivity).
      destruct (step_log_ok e s s1 E (inv_log s Hinv)) as [Hp0 Hl1].
      destruct (run_received events s1 s' H Hl1) as [Hp _]. apply received_prefix in Hp, Hp0.
      destruct Hp as [new2 Hp]. destruct Hp0 as [new1 Hp0].
      assert (Hc1 : collision_free hash (received s1)) by (rewrite Hp in Hc; apply collision_free_app in Hc; exact Hc).
      assert (Ht1 : distinct_times (received s1)) by (rewrite Hp in Ht; apply distinct_times_app in Ht; exact Ht).
      pose proof (step_inv e s s1 Hinv Hc1 Ht1 Hg E) as Hinv1.
      destruct (IH s1 s' Hinv1 H Hcr1 Ha Hh Hc Ht) as [new [Hn Hv]].
      pose proof (run_healthy events s1 s' H Hcr1 Hh) as Hh1.
      rewrite Hp0 in Hc1, Ht1. apply collision_free_app in Hc1. apply distinct_times_app in Ht1.
      destruct Hg as [Hu Hs]. destruct Hinv as [Hw Hb Hi Hl].
      destruct (step_ok hash capacity sort logging Hsort e s s1 Hw Hb Hc1 Ht1 Hu Hs Hne E)
        as [_ [new0 [drop [Hn0 [Ha0 Hd0]]]]].
      rewrite (Hd0 Hcw Hh1) in Ha0. exists (new0 ++ new). split.
      + rewrite Hn, Hn0, app_assoc. reflexivity.
      + intros v. rewrite Hv, sum_app. specialize (Ha0 v). cbn [sum] in Ha0. lia.
  Qed.
End Runs.
