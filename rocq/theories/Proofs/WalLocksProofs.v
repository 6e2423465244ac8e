(** Operations on a write-ahead log cannot deadlock: locks are acquired in one order. *)
From Coq Require Import List Bool Arith Lia Wf_nat.
From Verif Require Import Model.WalLocks.
Import ListNotations.

Definition rank (l : lock) : nat :=
  match l with PersistedLock => 0 | ActiveLock => 1 | ClosedLock => 2 end.

Lemma lock_eqb_eq : forall a b, lock_eqb a b = true <-> a = b.
Proof. intros [] []; cbn; split; congruence. Qed.
Lemma lock_eqb_neq : forall a b, lock_eqb a b = false <-> a <> b.
Proof. intros [] []; cbn; split; congruence. Qed.

(** What remains releases all locks that are held, the latest first, and only acquires locks above
    those that are held. *)
Fixpoint ordered (held : list lock) (rest : list action) : Prop :=
  match rest with
  | [] => held = []
  | Acquire l :: rest => Forall (fun l' => rank l' < rank l) held /\ ordered (l :: held) rest
  | Release l :: rest => exists held', held = l :: held' /\ ordered held' rest
  | Work :: rest => ordered held rest
  end.

Definition descending (held : list lock) : Prop := forall a b held1 held2,
  held = held1 ++ a :: held2 -> In b held2 -> rank b < rank a.

Record orderly (t : thread) : Prop := {
  or_rest : ordered (t_held t) (t_rest t);
  or_held : descending (t_held t) }.

Lemma actions_ordered : forall o, ordered [] (actions o).
Proof.
  intros [[]| | |]; cbn; repeat (split || eexists || constructor); cbn; lia.
Qed.

Lemma releases_ordered : forall held, ordered held (map Release held).
Proof. induction held as [|l held IH]; cbn; [reflexivity|]. now exists held. Qed.

Lemma ordered_length : forall rest held, ordered held rest -> length held <= length rest.
Proof.
  induction rest as [|a rest IH]; intros held H; cbn [ordered length] in *; [now subst|].
  destruct a as [l|l|].
  - destruct H as [_ H]. apply IH in H. cbn [length] in H. lia.
  - destruct H as (held' & -> & H). apply IH in H. cbn [length]. lia.
  - apply IH in H. lia.
Qed.

Lemma descending_cons : forall l held, descending (l :: held) ->
  descending held /\ Forall (fun l' => rank l' < rank l) held.
Proof.
  intros l held H. split.
  - intros a b h1 h2 E Hb. apply (H a b (l :: h1) h2); [now rewrite E|exact Hb].
  - apply Forall_forall. intros b Hb. now apply (H l b [] held).
Qed.

Lemma release_latest : forall l held, descending (l :: held) -> release l (l :: held) = held.
Proof.
  intros l held H. apply descending_cons in H. destruct H as [_ H]. unfold release. cbn [filter].
  rewrite (proj2 (lock_eqb_eq l l) eq_refl). cbn [negb].
  induction held as [|a held IH]; [reflexivity|]. apply Forall_cons_iff in H. destruct H as [Ha H].
  cbn [filter]. destruct (lock_eqb l a) eqn:E; [apply lock_eqb_eq in E; subst; lia|]. cbn [negb]. f_equal. auto.
Qed.

Lemma act_orderly : forall ts t t', act ts t t' -> orderly t -> orderly t'.
Proof.
  intros ts t t' Ha [Hr Hd]. destruct Ha as [held o ops|held l rest ops Hf|held l rest ops|held rest ops|held rest ops];
    cbn [t_held t_rest t_ops] in *.
  - cbn [ordered] in Hr. subst held. constructor; cbn [t_held t_rest]; [apply actions_ordered|exact Hd].
  - cbn [ordered] in Hr. destruct Hr as [Hl Hr]. constructor; cbn [t_held t_rest]; [exact Hr|].
    intros a b [|c h1] h2 E Hb.
    + cbn [app] in E. injection E as <- <-. rewrite Forall_forall in Hl. now apply Hl.
    + cbn [app] in E. injection E as _ E. now apply (Hd a b h1 h2).
  - cbn [ordered] in Hr. destruct Hr as (held' & -> & Hr). constructor; cbn [t_held t_rest];
      rewrite release_latest by exact Hd; [exact Hr|]. now apply descending_cons in Hd.
  - constructor; [exact Hr|exact Hd].
  - constructor; cbn [t_held t_rest]; [apply releases_ordered|exact Hd].
Qed.

Lemma step_orderly : forall ts ts', threads_step ts ts' -> Forall orderly ts -> Forall orderly ts'.
Proof.
  intros ts ts' H. destruct H as [before t t' after H]. rewrite !Forall_app, !Forall_cons_iff.
  intros (H1 & H2 & H3). split; [exact H1|]. split; [|exact H3]. now apply (act_orderly _ _ _ H).
Qed.

Lemma run_orderly : forall ts ts', threads_run ts ts' -> Forall orderly ts -> Forall orderly ts'.
Proof. intros ts ts' H. induction H; auto. intros H'. eapply step_orderly; eauto. Qed.

Lemma start_orderly : forall opss, Forall orderly (map start_thread opss).
Proof.
  intros opss. apply Forall_map, Forall_forall. intros ops _. constructor; cbn; [reflexivity|].
  intros a b h1 h2 E. destruct h1; discriminate E.
Qed.

(** ** Progress *)
Definition idle (t : thread) : bool := match t_rest t, t_ops t with [], [] => true | _, _ => false end.

Lemma idle_finished : forall t, orderly t -> idle t = true -> finished t.
Proof.
  intros [held rest ops] [H _] E. unfold idle in E. cbn [t_held t_rest t_ops] in *.
  destruct rest; [|discriminate E]. destruct ops; [|discriminate E]. cbn [ordered] in H. now subst.
Qed.

Lemma waits : forall ts t, In t ts -> idle t = false ->
  (exists t', act ts t t') \/ exists l rest, t_rest t = Acquire l :: rest /\ free l ts = false.
Proof.
  intros ts [held rest ops] _ E. unfold idle in E. cbn [t_held t_rest t_ops] in *.
  destruct rest as [|[l|l|] rest].
  - destruct ops as [|o ops]; [discriminate E|]. left. eexists. constructor.
  - destruct (free l ts) eqn:Ef; [left; eexists; now constructor|]. right. now exists l, rest.
  - left. eexists. constructor.
  - left. eexists. apply act_work.
Qed.

Lemma act_step : forall ts t t', In t ts -> act ts t t' -> exists ts', threads_step ts ts'.
Proof.
  intros ts t t' Hin Ha. apply in_split in Hin. destruct Hin as (before & after & ->).
  eexists. constructor. exact Ha.
Qed.

Lemma not_free : forall l ts, free l ts = false -> exists t, In t ts /\ In l (t_held t).
Proof.
  intros l ts H. unfold free in H. apply negb_false_iff, existsb_exists in H. destruct H as (t & Hin & H).
  exists t. split; [exact Hin|]. unfold holds in H. apply existsb_exists in H. destruct H as (l' & Hl & E).
  apply lock_eqb_eq in E. now subst.
Qed.

Lemma waiting_progress : forall n ts l, Forall orderly ts -> 2 - rank l < n -> free l ts = false ->
  exists ts', threads_step ts ts'.
Proof.
  induction n as [|n IH]; intros ts l Ho Hn Hf; [lia|].
  destruct (not_free _ _ Hf) as (t & Hin & Hl). rewrite Forall_forall in Ho. pose proof (Ho t Hin) as [Hr Hd].
  assert (Hi : idle t = false).
  { destruct (idle t) eqn:E; [|reflexivity]. apply idle_finished in E; [|now apply Ho]. rewrite E in Hl. destruct Hl. }
  destruct (waits ts t Hin Hi) as [[t' Ha]|(l' & rest & Er & Hf')].
  - now apply (act_step ts t t').
  - apply (IH ts l'); [now apply Forall_forall| |exact Hf']. rewrite Er in Hr. cbn [ordered] in Hr.
    destruct Hr as [Hr _]. rewrite Forall_forall in Hr. specialize (Hr l Hl). destruct l'; cbn [rank] in *; lia.
Qed.

Lemma progress : forall ts, Forall orderly ts -> Forall finished ts \/ exists ts', threads_step ts ts'.
Proof.
  intros ts Ho. destruct (forallb idle ts) eqn:E.
  - left. rewrite forallb_forall in E. apply Forall_forall. intros t Hin. rewrite Forall_forall in Ho.
    apply idle_finished; auto.
  - right. assert (H : exists t, In t ts /\ idle t = false).
    { clear - E. induction ts as [|t ts IH]; [discriminate E|]. cbn [forallb] in E.
      destruct (idle t) eqn:Et; [|exists t; split; [now left|exact Et]].
      destruct (IH E) as (t' & H1 & H2). exists t'. split; [now right|exact H2]. }
    destruct H as (t & Hin & Hi). destruct (waits ts t Hin Hi) as [[t' Ha]|(l & rest & _ & Hf)].
    + now apply (act_step ts t t').
    + now apply (waiting_progress 3 ts l); [| |]; [exact Ho|destruct l; cbn; lia|exact Hf].
Qed.

Lemma run_progress : forall opss ts, threads_run (map start_thread opss) ts ->
  Forall finished ts \/ exists ts', threads_step ts ts'.
Proof. intros opss ts H. apply progress. apply (run_orderly _ _ H), start_orderly. Qed.

(** ** Termination *)
Definition weight (t : thread) : nat :=
  length (t_rest t) + fold_right (fun o n => S (length (actions o)) + n) 0 (t_ops t).
Definition weights (ts : list thread) : nat := fold_right (fun t n => weight t + n) 0 ts.

Lemma act_weight : forall ts t t', act ts t t' -> orderly t -> weight t' < weight t.
Proof.
  intros ts t t' Ha [Hr _]. destruct Ha; unfold weight; cbn [t_rest t_ops t_held fold_right length] in *; try lia.
  rewrite map_length. cbn [ordered] in Hr. apply ordered_length in Hr. lia.
Qed.

Lemma weights_app : forall a b, weights (a ++ b) = weights a + weights b.
Proof. induction a as [|t a IH]; intros b; [reflexivity|]. cbn [app weights fold_right]. fold (weights (a ++ b)) (weights a). rewrite IH. lia. Qed.

Lemma step_weight : forall ts ts', threads_step ts ts' -> Forall orderly ts -> weights ts' < weights ts.
Proof.
  intros ts ts' H Ho. destruct H as [before t t' after H]. rewrite Forall_app, Forall_cons_iff in Ho.
  rewrite !weights_app. cbn [weights fold_right]. fold (weights after).
  pose proof (act_weight _ _ _ H (proj1 (proj2 Ho))). lia.
Qed.

Lemma run_terminates : forall opss ts, threads_run (map start_thread opss) ts ->
  Acc (fun ts' ts => threads_step ts ts') ts.
Proof.
  intros opss ts H. pose proof (run_orderly _ _ H (start_orderly opss)) as Ho. clear H. revert ts Ho.
  induction ts as [ts IH] using (induction_ltof1 _ weights). intros Ho. constructor. intros ts' Hs.
  apply IH; [now apply step_weight|]. now apply (step_orderly ts).
Qed.

(** ** Mutual exclusion *)
Definition exclusive (ts : list thread) : Prop := forall before t1 between t2 after l,
  ts = before ++ t1 :: between ++ t2 :: after -> In l (t_held t1) -> ~ In l (t_held t2).

Definition all_held (ts : list thread) : list lock := flat_map t_held ts.

Lemma free_not_in : forall l ts, free l ts = true -> ~ In l (all_held ts).
Proof.
  intros l ts H Hin. unfold free in H. apply negb_true_iff in H.
  unfold all_held in Hin. apply in_flat_map in Hin. destruct Hin as (t & Ht & Hl).
  assert (existsb (holds l) ts = true); [|congruence]. apply existsb_exists. exists t. split; [exact Ht|].
  apply existsb_exists. exists l. split; [exact Hl|]. now apply lock_eqb_eq.
Qed.

Lemma nodup_step : forall ts ts', threads_step ts ts' -> Forall orderly ts -> NoDup (all_held ts) -> NoDup (all_held ts').
Proof.
  intros ts ts' H Ho Hn. destruct H as [before t t' after H]. rewrite Forall_app, Forall_cons_iff in Ho.
  destruct Ho as (_ & [Hr Hd] & _). unfold all_held in *. rewrite !flat_map_app in *. cbn [flat_map] in *.
  remember (before ++ t :: after) as ts eqn:Ets.
  destruct H as [held o ops|held l rest ops Hf|held l rest ops|held rest ops|held rest ops];
    subst ts; cbn [t_held t_rest t_ops] in *; auto.
  - apply free_not_in in Hf. unfold all_held in Hf. rewrite flat_map_app in Hf. cbn [flat_map t_held] in Hf.
    apply NoDup_Add with (a := l) (l := flat_map t_held before ++ held ++ flat_map t_held after);
      [apply Add_app|]. now split.
  - cbn [ordered] in Hr. destruct Hr as (held' & -> & Hr). rewrite release_latest by exact Hd.
    cbn [app] in Hn. now apply NoDup_remove_1 in Hn.
Qed.

Lemma run_exclusive : forall opss ts, threads_run (map start_thread opss) ts -> NoDup (all_held ts).
Proof.
  intros opss ts H. assert (Ho : Forall orderly (map start_thread opss)) by apply start_orderly.
  remember (map start_thread opss) as ts0 eqn:E.
  assert (Hn : NoDup (all_held ts0)).
  { subst ts0. clear. induction opss as [|ops opss IH]; [constructor|exact IH]. }
  clear E. induction H as [ts|ts ts' ts'' H IH Hs]; [exact Hn|].
  apply (nodup_step ts'); auto. now apply (run_orderly ts).
Qed.
