(** What has been committed to a table when a flush returns. *)
From Coq Require Import ZArith List Bool String Permutation Sorted Lia.
From Verif Require Import Model.Pipeline Spec.PipelineSpec Proofs.PipelineInvariant Proofs.PipelineRuns
  Proofs.PipelineIds Proofs.PipelineProgress Proofs.PipelineResults Proofs.PipelineSorted.
From Verif Require Model.EndToEnd Spec.EndToEndSpec.
Import ListNotations.
Open Scope list_scope.

Lemma filter_flat_map {A B} (f : B -> bool) (g : A -> list B) l :
  filter f (flat_map g l) = flat_map (fun a => filter f (g a)) l.
Proof. induction l as [|a l IH]; [reflexivity|]. cbn [flat_map]. rewrite filter_app, IH. reflexivity. Qed.
Lemma filter_all {A} (f : A -> bool) l : (forall a, In a l -> f a = true) -> filter f l = l.
Proof.
  induction l as [|a l IH]; intros H; [reflexivity|]. cbn [filter]. rewrite (H a (or_introl eq_refl)), IH; [reflexivity|].
  intros b Hb. apply H. right. exact Hb.
Qed.
Lemma filter_none {A} (f : A -> bool) l : (forall a, In a l -> f a = false) -> filter f l = [].
Proof.
  induction l as [|a l IH]; intros H; [reflexivity|]. cbn [filter]. rewrite (H a (or_introl eq_refl)). apply IH.
  intros b Hb. apply H. right. exact Hb.
Qed.
Lemma filter_permutation {A} (f : A -> bool) l k : Permutation l k -> Permutation (filter f l) (filter f k).
Proof.
  induction 1 as [|x l k H IH|x y l|l k j H1 IH1 H2 IH2]; cbn [filter].
  - constructor.
  - destruct (f x); [constructor|]; exact IH.
  - destruct (f x), (f y); try reflexivity. constructor.
  - exact (Permutation_trans IH1 IH2).
Qed.

Lemma committed_items name s : ids_ok s ->
  filter (fun x => String.eqb (t_name (i_meta x)) name) (saved s)
  = flat_map segment_items (EndToEnd.committed_to name s).
Proof.
  intros H. pose proof (io_table _ H) as Ht. clear H. unfold saved, EndToEnd.committed_to. revert Ht. generalize (s_table s).
  intros l Ht. induction l as [|k l IH]; [reflexivity|].
  cbn [flat_map]. rewrite filter_app, flat_map_app, IH by (intros k' Hk; apply Ht; right; exact Hk).
  f_equal. destruct (Ht k (or_introl eq_refl)) as [Hn _]. unfold commit_items.
  assert (Hx : forall x, In x (flat_map segment_items (k_segments k)) -> t_name (i_meta x) = k_table k).
  { intros x Hx. apply in_flat_map in Hx. destruct Hx as [g [Hg Hx]]. rewrite <- (Hn g Hg).
    unfold segment_items, items in Hx. apply in_map_iff in Hx. destruct Hx as [p [<- _]]. reflexivity. }
  destruct (String.eqb (k_table k) name) eqn:E.
  - rewrite filter_all; [reflexivity|]. intros x Hin. rewrite (Hx x Hin). exact E.
  - rewrite filter_none; [reflexivity|]. intros x Hin. rewrite (Hx x Hin). exact E.
Qed.

Section Flush.
  Variable hash : string -> Z.
  Variable capacity : nat.
  Variable sort : list point -> list point.
  Variable logging : bool.
  Hypothesis Hsort : sorts_points sort.

  Lemma flushed events limits s1 s name :
    nonneg_limits limits ->
    run hash capacity sort logging events (start logging limits [] []) = Next s1 ->
    along hash capacity sort logging usual events (start logging limits [] []) ->
    ~ In Crash events -> collision_free hash (received s1) -> distinct_times (received s1) ->
    step hash capacity sort logging Return s1 = Next s ->
    Permutation (flat_map segment_items (EndToEnd.committed_to name s)) (EndToEndSpec.sent_to name s)
    /\ received s = received s1
    /\ forall g, In g (EndToEnd.committed_to name s) -> in_order (g_points g).
  Proof.
    intros Hl Hr Ha Hcr Hc Hd Hret.
    destruct (flush_barrier hash capacity sort logging Hsort [] events limits (start logging limits [] []) s1 s Hl eq_refl I Hr Ha Hcr Hc Hd Hret)
      as [_ [new [E1 E2]]].
    pose proof (return_client hash capacity sort logging s1 s Hret) as [_ [_ [E3 _]]].
    assert (Hp : Permutation (saved s) (received s)).
    { rewrite E1. replace (received (start logging limits [] [])) with (@nil item) by (destruct logging; reflexivity).
      replace (saved (start logging limits [] [])) with (@nil item) in E2 by (destruct logging; reflexivity).
      replace (live (start logging limits [] [])) with (@nil item) in E2 by (destruct logging; reflexivity).
      exact E2. }
    pose proof (reached hash capacity sort logging Hsort events limits s1 Hl Hr Ha Hc Hd) as Hsound.
    assert (Et : s_table s = s_table s1).
    { revert Hret. cbn [Pipeline.step]. intros H. destruct (s_client s1); try discriminate H; destruct (s_results s1); try discriminate H.
      - injection H as <-. reflexivity.
      - destruct (is_finished s1); [|discriminate H]. injection H as <-. reflexivity. }
    pose proof (inv_ids _ _ _ (sd_inv _ _ _ _ Hsound)) as Hi.
    split; [|split].
    - assert (E : EndToEnd.committed_to name s = EndToEnd.committed_to name s1) by (unfold EndToEnd.committed_to; rewrite Et; reflexivity).
      rewrite E, <- (committed_items name s1 Hi). unfold EndToEndSpec.sent_to. apply filter_permutation.
      replace (saved s1) with (saved s) by (unfold saved; rewrite Et; reflexivity). exact Hp.
    - exact E3.
    - intros g Hg. pose proof (run_order hash capacity sort logging Hsort events _ s1 (start_order logging limits) Hr) as Ho.
      unfold EndToEnd.committed_to in Hg. apply in_flat_map in Hg. destruct Hg as [k [Hk Hg]].
      destruct (String.eqb (k_table k) name); [|contradiction Hg].
      rewrite Et in Hk. exact (so_table _ Ho k Hk g Hg).
  Qed.
End Flush.
