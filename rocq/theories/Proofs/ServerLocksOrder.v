(** The order in which the requests to a server acquire locks, and how much is done for them. *)
From Coq Require Import List Bool Arith Lia.
From Verif Require Import Model.ServerLocks Spec.ServerLocksSpec Proofs.ServerLocksProofs.
Import ListNotations.

(** ** Composing programs. *)

Section Neutral.
Variable contended : lock -> bool.
Variable rank : lock -> nat.

(** Doing [p] while holding [h] does not change what has to be done afterwards. *)
Definition neutral (h : list (lock * mode)) (p : list action) : Prop :=
  forall q, ordered contended rank h q -> ordered contended rank h (p ++ q).

Lemma neutral_nil : forall h, neutral h [].
Proof. intros h q H. exact H. Qed.
Lemma neutral_work : forall h p, neutral h p -> neutral h (Work :: p).
Proof. intros h p N q H. cbn. now apply N. Qed.
Lemma neutral_app : forall h a b, neutral h a -> neutral h b -> neutral h (a ++ b).
Proof. intros h a b A B q H. rewrite <- app_assoc. apply A, B, H. Qed.
Lemma neutral_works : forall h n, neutral h (repeat Work n).
Proof. intros h n. induction n as [|n IH]; [apply neutral_nil|]. cbn. now apply neutral_work. Qed.
Lemma neutral_repeat : forall h p n, neutral h p -> neutral h (concat (repeat p n)).
Proof. intros h p n N. induction n as [|n IH]; [apply neutral_nil|]. cbn. now apply neutral_app. Qed.
Lemma neutral_flat_map : forall A h (f : A -> list action) l, (forall x, In x l -> neutral h (f x)) ->
  neutral h (flat_map f l).
Proof.
  intros A h f l. induction l as [|x l IH]; intros H; [apply neutral_nil|]. cbn. apply neutral_app.
  - apply H. now left.
  - apply IH. intros y Hy. apply H. now right.
Qed.
Lemma neutral_under : forall h l m body,
  (m = Write -> contended l = true) ->
  (contended l = true -> forall k n, In (k, n) h -> contended k = true -> rank k < rank l) ->
  neutral ((l, m) :: h) body -> neutral h (under l m body).
Proof.
  intros h l m body W O N q H. unfold under. cbn. split; [exact W|]. split; [exact O|].
  rewrite <- app_assoc. apply N. cbn. now rewrite lock_eqb_refl.
Qed.
Lemma neutral_logged : forall h logging p, neutral h p -> neutral h (logged logging p).
Proof. intros h [|] p N; [exact N|apply neutral_nil]. Qed.
Lemma neutral_ordered : forall p, neutral [] p -> ordered contended rank [] p.
Proof. intros p N. rewrite <- (app_nil_r p). now apply N. Qed.
End Neutral.

Definition lock_rank (l : lock) : nat :=
  match l with Configuration => 0 | Storage => 1 | Log => 2 | Transfers => 3 end.
Lemma lock_rank_bound : forall l, lock_rank l < 4.
Proof. intros []; cbn; lia. Qed.
Definition always (l : lock) : bool := true.
Definition not_configuration (l : lock) : bool := match l with Configuration => false | _ => true end.

Ltac held_cases :=
  intros; cbn in *; try reflexivity; try discriminate; try congruence;
  repeat match goal with
         | H : _ \/ _ |- _ => destruct H as [H|H]
         | H : (_, _) = (_, _) |- _ => injection H as <- <-
         | H : False |- _ => destruct H
         end; cbn in *; try discriminate; try lia.
Ltac neutral_cases :=
  repeat match goal with
  | |- neutral _ _ _ (_ ++ _) => apply neutral_app
  | |- neutral _ _ _ (Work :: _) => apply neutral_work
  | |- neutral _ _ _ [] => apply neutral_nil
  | |- neutral _ _ _ (logged _ _) => apply neutral_logged
  | |- neutral _ _ _ (repeat Work _) => apply neutral_works
  | |- neutral _ _ _ (concat (repeat _ _)) => apply neutral_repeat
  | |- neutral _ _ _ (under _ _ _) => apply neutral_under; [held_cases|held_cases|]
  | |- neutral _ _ _ (saves _ _) => unfold saves
  | |- neutral _ _ _ (save _) => unfold save
  | |- neutral _ _ _ insert_normal => unfold insert_normal
  | |- neutral _ _ _ (insert_series _) => unfold insert_series
  | |- neutral _ _ _ (drop_from_engine _ _) => unfold drop_from_engine
  | |- neutral _ _ _ (drop_table _ _ _) => unfold drop_table
  | |- neutral _ _ _ (truncate_table _ _ _) => unfold truncate_table
  end.

(** If the configuration is not changed, no request waits for it. *)
Lemma without_updates : forall logging r, updates r = false ->
  ordered not_configuration lock_rank [] (program logging r).
Proof.
  intros logging r U. apply neutral_ordered.
  destruct r; try discriminate; cbn [program]; neutral_cases;
    apply neutral_flat_map; intros ([|], n) _; cbn [fst snd]; neutral_cases.
Qed.

Lemma series_none : forall (tables : list (bool * nat)) b n, existsb fst tables = false -> In (b, n) tables -> b = false.
Proof.
  intros tables b n E H. destruct b; [|reflexivity]. rewrite <- E. symmetry. apply existsb_exists.
  exists (true, n). now split.
Qed.

(** Otherwise, the locks are acquired in an order, except by these requests. *)
Lemma without_series : forall logging r, of_series r = false -> kills r = false ->
  ordered always lock_rank [] (program logging r).
Proof.
  intros logging r S K. apply neutral_ordered.
  destruct r; try discriminate; cbn [program]; neutral_cases;
    apply neutral_flat_map; intros (b, n) Hb; cbn [of_series] in S;
    rewrite (series_none tables b n S Hb); cbn [fst snd]; neutral_cases.
Qed.

(** The server can be stopped while the segment size is changed. *)
Definition storage_rank (l : lock) : nat :=
  match l with Storage => 0 | Configuration => 1 | Log => 2 | Transfers => 3 end.
Lemma storage_rank_bound : forall l, storage_rank l < 4.
Proof. intros []; cbn; lia. Qed.
Lemma without_tables : forall logging r, of_series r = false -> updates_storage r = false ->
  of_tables r = false -> ordered always storage_rank [] (program logging r).
Proof.
  intros logging r S U T. apply neutral_ordered.
  destruct r as [| |[|]|[|]| | | | | | | | | | | | | | | | |]; try discriminate; cbn [program flat_map];
    neutral_cases.
Qed.

(** ** How much is done. *)

Fixpoint remaining (ts : list task) : nat :=
  match ts with [] => 0 | t :: ts => length (rest t) + remaining ts end.
Definition waiters (q : lock -> list (nat * mode)) : nat :=
  length (q Configuration) + length (q Storage) + length (q Log) + length (q Transfers).

Lemma remaining_set : forall ts i t a, nth_error ts i = Some t ->
  remaining (set_nth i a ts) + length (rest t) = remaining ts + length (rest a).
Proof.
  induction ts as [|b ts IH]; intros [|i] t a H; cbn in *; try discriminate.
  - injection H as ->. lia.
  - specialize (IH i t a H). lia.
Qed.

Lemma waiters_set : forall l q f, waiters (set_queue l q f) + length (f l) = waiters f + length q.
Proof. intros [] q f; unfold waiters, set_queue; cbn; lia. Qed.

Lemma filter_length : forall i q, NoDup (map fst q) ->
  length q <= S (length (filter (fun p : nat * mode => negb (fst p =? i)) q)).
Proof.
  intros i q. induction q as [|(j, m) q IH]; cbn; [lia|]. intros H. apply NoDup_cons_iff in H.
  destruct H as (H1 & H2). destruct (Nat.eqb_spec j i) as [->|N]; cbn; [|apply IH in H2; lia].
  enough (filter (fun p : nat * mode => negb (fst p =? i)) q = q) as -> by lia. clear - H1.
  induction q as [|(k, m) q IH]; cbn in *; [reflexivity|]. destruct (Nat.eqb_spec k i) as [->|N].
  - destruct H1. now left.
  - cbn. f_equal. apply IH. tauto.
Qed.
Lemma filter_none : forall i q, waiting i q = false -> filter (fun p : nat * mode => negb (fst p =? i)) q = q.
Proof.
  intros i q. induction q as [|(j, m) q IH]; cbn; [reflexivity|]. intros H. apply orb_false_iff in H.
  destruct H as (-> & H). cbn. f_equal. now apply IH.
Qed.

(** A request waits for at most one lock. *)
Lemma waits_once : forall s i, queued s ->
  waiters (queue s) <= S (waiters (fun l => filter (fun p => negb (fst p =? i)) (queue s l))).
Proof.
  intros s i Q.
  assert (A : forall l k, waiting i (queue s l) = true -> k <> l ->
    filter (fun p : nat * mode => negb (fst p =? i)) (queue s k) = queue s k).
  { intros l k W N. apply filter_none. apply not_true_iff_false. intros V.
    apply waiting_iff in W, V. destruct W as (m & W), V as (n & V).
    destruct (q_asks _ Q _ _ _ W) as (h & r & X), (q_asks _ Q _ _ _ V) as (h' & r' & Y).
    rewrite X in Y. injection Y as _ E _ _. now apply N. }
  assert (L : forall l, length (queue s l) <=
    S (length (filter (fun p : nat * mode => negb (fst p =? i)) (queue s l)))).
  { intros l. apply filter_length, (q_once _ Q). }
  unfold waiters.
  destruct (waiting i (queue s Configuration)) eqn:C.
  { rewrite (A Configuration Storage C), (A Configuration Log C), (A Configuration Transfers C) by discriminate.
    specialize (L Configuration). lia. }
  rewrite (filter_none i _ C).
  destruct (waiting i (queue s Storage)) eqn:S1.
  { rewrite (A Storage Log S1), (A Storage Transfers S1) by discriminate. specialize (L Storage). lia. }
  rewrite (filter_none i _ S1).
  destruct (waiting i (queue s Log)) eqn:S2.
  { rewrite (A Log Transfers S2) by discriminate. specialize (L Log). lia. }
  rewrite (filter_none i _ S2). specialize (L Transfers). lia.
Qed.

Section Finite.
Variable contended : lock -> bool.
Variable rank : lock -> nat.

Lemma step_decreases : forall e s s', queued s -> all_good contended rank s -> step e s = Some s' ->
  1 + 2 * remaining (tasks s') + waiters (queue s) <= 2 * remaining (tasks s) + waiters (queue s').
Proof.
  intros e s s' Q G H. destruct e as [i|l|i|i|i]; cbn [step] in H.
  - destruct (nth_error (tasks s) i) as [[h [|[l m|l|] r]]|] eqn:Hi; try discriminate.
    destruct (waiting i (queue s l)); [discriminate|].
    destruct (queue s l) as [|p q] eqn:E.
    + destruct (available l m s); injection H as <-; cbn [tasks queue].
      * pose proof (remaining_set _ i _ (Task ((l, m) :: h) r) Hi) as R. cbn in R. lia.
      * pose proof (waiters_set l [(i, m)] (queue s)) as W. rewrite E in W. cbn in W. lia.
    + injection H as <-. cbn [tasks queue].
      pose proof (waiters_set l ((p :: q) ++ [(i, m)]) (queue s)) as W. rewrite E, app_length in W.
      cbn in *. lia.
  - destruct (queue s l) as [|(i, m) q] eqn:E; [discriminate|].
    destruct (nth_error (tasks s) i) as [[h [|a r]]|] eqn:Hi; try discriminate.
    destruct (available l m s); [|discriminate]. injection H as <-. cbn [tasks queue].
    pose proof (remaining_set _ i _ (Task ((l, m) :: h) r) Hi) as R.
    pose proof (waiters_set l q (queue s)) as W. rewrite E in W. cbn in R, W. lia.
  - destruct (nth_error (tasks s) i) as [[h [|[l m|l|] r]]|] eqn:Hi; try discriminate;
      injection H as <-; cbn [tasks queue].
    + pose proof (remaining_set _ i _ (Task (released l h) r) Hi) as R. cbn in R. lia.
    + pose proof (remaining_set _ i _ (Task h r) Hi) as R. cbn in R. lia.
  - destruct (nth_error (tasks s) i) as [[h [|[l m|l|] r]]|] eqn:Hi; try discriminate.
    injection H as <-. cbn [tasks queue].
    pose proof (remaining_set _ i _ (Task h (map (fun p => Release (fst p)) h)) Hi) as R.
    cbn [rest] in R. rewrite map_length in R. destruct (G i _ Hi) as (O & _). cbn [held rest] in O.
    cbn in O. apply ordered_length in O. cbn in R. lia.
  - destruct (nth_error (tasks s) i) as [[h [|a r]]|] eqn:Hi; try discriminate. injection H as <-.
    cbn [tasks queue]. pose proof (remaining_set _ i _ (Task [] []) Hi) as R. cbn in R.
    pose proof (waits_once s i Q). lia.
Qed.

Lemma waiters_bound : forall s, queued s -> waiters (queue s) <= 4 * length (tasks s).
Proof.
  intros s Q.
  assert (A : forall l, length (queue s l) <= length (tasks s)).
  { intros l. rewrite <- (map_length fst), <- (seq_length (length (tasks s)) 0).
    apply NoDup_incl_length; [apply (q_once _ Q)|]. intros i Hi. apply in_map_iff in Hi.
    destruct Hi as ((j, m) & <- & Hi). destruct (q_asks _ Q _ _ _ Hi) as (h & r & E). apply in_seq.
    cbn. split; [lia|]. apply nth_error_Some. congruence. }
  pose proof (A Configuration). pose proof (A Storage). pose proof (A Log). pose proof (A Transfers).
  unfold waiters. lia.
Qed.

Lemma step_tasks : forall e s s', step e s = Some s' -> length (tasks s') = length (tasks s).
Proof.
  intros e s s' H. destruct e as [i|l|i|i|i]; cbn [step] in H.
  - destruct (nth_error (tasks s) i) as [[h [|[l m|l|] r]]|] eqn:Hi; try discriminate.
    destruct (waiting i (queue s l)); [discriminate|]. destruct (queue s l) as [|p q].
    + destruct (available l m s); injection H as <-; cbn [tasks]; [apply set_length|reflexivity].
    + now injection H as <-.
  - destruct (queue s l) as [|(i, m) q] eqn:E; [discriminate|].
    destruct (nth_error (tasks s) i) as [[h [|a r]]|] eqn:Hi; try discriminate.
    destruct (available l m s); [|discriminate]. injection H as <-. apply set_length.
  - destruct (nth_error (tasks s) i) as [[h [|[l m|l|] r]]|] eqn:Hi; try discriminate;
      injection H as <-; apply set_length.
  - destruct (nth_error (tasks s) i) as [[h [|[l m|l|] r]]|] eqn:Hi; try discriminate;
      injection H as <-; apply set_length.
  - destruct (nth_error (tasks s) i) as [[h [|a r]]|] eqn:Hi; try discriminate;
      injection H as <-; apply set_length.
Qed.

Lemma run_decreases : forall events s s', queued s -> all_good contended rank s -> run events s = Some s' ->
  length events + 2 * remaining (tasks s') + waiters (queue s) <= 2 * remaining (tasks s) + waiters (queue s')
  /\ queued s' /\ all_good contended rank s' /\ length (tasks s') = length (tasks s).
Proof.
  induction events as [|e events IH]; intros s s' Q G H; cbn [run] in H.
  - injection H as <-. split; [cbn; lia|]. now split.
  - destruct (step e s) as [s1|] eqn:E; [|discriminate].
    pose proof (step_decreases e s s1 Q G E) as D.
    destruct (IH s1 s' (queued_step _ _ _ Q E) (good_step _ _ _ _ _ Q G E) H) as (D' & Q' & G' & L).
    split; [cbn [length]; lia|]. split; [exact Q'|]. split; [exact G'|].
    rewrite L. exact (step_tasks _ _ _ E).
Qed.

Lemma remaining_start : forall programs, remaining (tasks (start programs)) = size programs.
Proof.
  intros ps. unfold size, start. cbn. induction ps as [|p ps IH]; cbn; [reflexivity|].
  rewrite app_length. cbn in IH. rewrite IH. reflexivity.
Qed.

(** However the requests are interleaved, all is done after this many events. *)
Lemma finite : forall programs events s, Forall (ordered contended rank []) programs ->
  run events (start programs) = Some s -> length events <= 2 * size programs + 4 * length programs.
Proof.
  intros ps events s F H. destruct (good_run contended rank ps [] (start ps) F eq_refl) as (Q & G).
  destruct (run_decreases events (start ps) s Q G H) as (D & Q' & _ & L).
  rewrite remaining_start in D. apply waiters_bound in Q'. rewrite L in Q'. cbn in Q'.
  rewrite map_length in Q'. lia.
Qed.

(** Searching for an event with which a request goes on. *)
Definition candidates (s : state) : list event :=
  map Ask (seq 0 (length (tasks s))) ++ map Continue (seq 0 (length (tasks s)))
  ++ [Grant Configuration; Grant Storage; Grant Log; Grant Transfers].
Definition possible (s : state) (e : event) : bool := match step e s with Some _ => true | None => false end.

Lemma blocked_or_not : forall s, blocked s \/ exists e s', proceeds e = true /\ step e s = Some s'.
Proof.
  intros s. destruct (find (possible s) (candidates s)) as [e|] eqn:E.
  - right. apply find_some in E. destruct E as (I & P). unfold possible in P.
    destruct (step e s) as [s'|] eqn:H; [|discriminate]. exists e, s'. split; [|exact H]. clear - I.
    unfold candidates in I. rewrite !in_app_iff, !in_map_iff in I. cbn in I.
    destruct I as [(? & <- & _)|[(? & <- & _)|[<-|[<-|[<-|[<-|[]]]]]]]; reflexivity.
  - left. intros e P. destruct (step e s) as [s'|] eqn:H; [|reflexivity]. exfalso.
    assert (I : In e (candidates s)).
    { unfold candidates. rewrite !in_app_iff, !in_map_iff.
      destruct e as [i|l|i|i|i]; try discriminate.
      - left. exists i. split; [reflexivity|]. apply in_seq. split; [lia|]. cbn. apply nth_error_Some.
        intros N. cbn in H. rewrite N in H. discriminate.
      - right. right. destruct l; cbn; tauto.
      - right. left. exists i. split; [reflexivity|]. apply in_seq. split; [lia|]. cbn.
        apply nth_error_Some. intros N. cbn in H. rewrite N in H. discriminate. }
    pose proof (find_none _ _ E e I) as N. unfold possible in N. now rewrite H in N.
Qed.

(** All requests can be answered without any that fails or is stopped. *)
Lemma can_finish : forall programs events s, Forall (ordered contended rank []) programs ->
  (exists b, forall l, rank l < b) -> run events (start programs) = Some s ->
  exists later s', Forall (fun e => proceeds e = true) later /\ run later s = Some s' /\ all_answered s'.
Proof.
  intros ps events s F (b & Hb) H.
  remember (2 * size ps + 4 * length ps - length events) as n eqn:En.
  assert (Hn : 2 * size ps + 4 * length ps - length events <= n) by lia. clear En.
  revert events s H Hn. induction n as [|n IH]; intros events s H Hn;
    (destruct (blocked_or_not s) as [B|(e & s1 & P & E)];
      [exists [], s; split; [constructor|]; split; [reflexivity|];
       destruct (good_run contended rank ps events s F H) as (Q & G);
       exact (blocked_answered contended rank s Q G B b Hb)|]).
  - assert (R : run (events ++ [e]) (start ps) = Some s1) by (rewrite run_app, H; cbn; now rewrite E).
    pose proof (finite ps _ _ F R) as L. rewrite app_length in L. cbn [length] in L. lia.
  - assert (R : run (events ++ [e]) (start ps) = Some s1) by (rewrite run_app, H; cbn; now rewrite E).
    destruct (IH (events ++ [e]) s1 R) as (later & s' & A & B & C); [rewrite app_length; cbn [length]; lia|].
    exists (e :: later), s'. split; [now constructor|]. split; [|exact C]. cbn [run]. now rewrite E.
Qed.
End Finite.

(** ** The requests to a server. *)

Lemma existsb_false : forall A (f : A -> bool) l x, existsb f l = false -> In x l -> f x = false.
Proof.
  intros A f l x E H. destruct (f x) eqn:F; [|reflexivity]. rewrite <- E. symmetry. apply existsb_exists.
  now exists x.
Qed.

Lemma harmless_ordered : forall logging requests, harmless requests -> exists contended rank,
  (forall l, rank l < 4) /\ Forall (ordered contended rank []) (map (program logging) requests).
Proof.
  intros logging rs [H|(H & [K|(K & T)])].
  - exists not_configuration, lock_rank. split; [exact lock_rank_bound|].
    apply Forall_map, Forall_forall. intros r Hr. apply without_updates.
    exact (existsb_false _ _ _ _ H Hr).
  - exists always, lock_rank. split; [exact lock_rank_bound|]. apply Forall_map, Forall_forall.
    intros r Hr. apply without_series; eapply existsb_false; eassumption.
  - exists always, storage_rank. split; [exact storage_rank_bound|]. apply Forall_map, Forall_forall.
    intros r Hr. apply without_tables; eapply existsb_false; eassumption.
Qed.

Lemma no_deadlock : forall logging requests events s, harmless requests ->
  run events (start (map (program logging) requests)) = Some s -> blocked s -> all_answered s.
Proof.
  intros logging rs events s H R B. destruct (harmless_ordered logging rs H) as (c & k & K & F).
  destruct (good_run c k _ events s F R) as (Q & G). exact (blocked_answered c k s Q G B 4 K).
Qed.

Lemma all_finite : forall logging requests events s, harmless requests ->
  run events (start (map (program logging) requests)) = Some s ->
  length events <= 2 * size (map (program logging) requests) + 4 * length requests.
Proof.
  intros logging rs events s H R. destruct (harmless_ordered logging rs H) as (c & k & _ & F).
  pose proof (finite c k _ events s F R) as L. now rewrite map_length in L.
Qed.

Lemma all_can_finish : forall logging requests events s, harmless requests ->
  run events (start (map (program logging) requests)) = Some s ->
  answerable s.
Proof.
  intros logging rs events s H R. destruct (harmless_ordered logging rs H) as (c & k & K & F).
  apply (can_finish c k _ events s F); [exists 4; exact K|exact R].
Qed.
