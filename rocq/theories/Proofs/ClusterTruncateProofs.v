(** Proofs about TRUNCATE CLUSTER. *)
From Coq Require Import ZArith Bool String List Permutation Lia.
From Verif Require Import Model.Base Model.Sql Model.ClusterTruncate Spec.StatementSpec
  Spec.ClusterTruncateSpec Proofs.SqlProofs.
Import ListNotations.
Open Scope nat_scope.
Open Scope list_scope.

Lemma set_same : forall t l f, set_rows t l f t = l.
Proof. intros. unfold set_rows. now rewrite String.eqb_refl. Qed.
Lemma set_other : forall t s l f, s <> t -> set_rows t l f s = f s.
Proof. intros t s l f H. unfold set_rows. now rewrite (proj2 (String.eqb_neq s t) H). Qed.
Lemma node_same : forall u n f, set_node u n f u = n.
Proof. intros. unfold set_node. now rewrite Nat.eqb_refl. Qed.
Lemma node_other : forall u v n f, v <> u -> set_node u n f v = f v.
Proof. intros u v n f H. unfold set_node. now rewrite (proj2 (Nat.eqb_neq v u) H). Qed.
Lemma member_iff : forall t l, member t l = true <-> In t l.
Proof.
  intros t l. unfold member. rewrite existsb_exists. split.
  - intros (s & H & E). apply String.eqb_eq in E. now subst.
  - intros H. exists t. split; [exact H|apply String.eqb_refl].
Qed.

(** ** Jobs and statements. *)

Lemma without_nth_in : forall {A} k (l : list A) a, In a (without_nth k l) -> In a l.
Proof.
  intros A. induction k as [|k IH]; intros [|b l] a H; cbn in H; try contradiction.
  - now right.
  - destruct H as [->|H]; [now left|right; now apply IH].
Qed.
Lemma without_nth_keeps : forall {A} k (l : list A) a b, nth_error l k = Some b -> In a l ->
  a = b \/ In a (without_nth k l).
Proof.
  intros A. induction k as [|k IH]; intros [|c l] a b E H; cbn in E; try discriminate.
  - injection E as ->. destruct H as [->|H]; auto.
  - destruct H as [->|H]; [right; now left|]. destruct (IH l a b E H) as [->|H']; auto. right; now right.
Qed.
Lemma replace_nth_in : forall {A} k (b : A) l a, In a (replace_nth k b l) -> a = b \/ In a l.
Proof.
  intros A. induction k as [|k IH]; intros b [|c l] a H; cbn in H; try contradiction.
  - destruct H as [->|H]; auto. right; now right.
  - destruct H as [->|H]; [right; now left|]. destruct (IH b l a H) as [->|H']; auto. right; now right.
Qed.
Lemma replace_nth_keeps : forall {A} k (b : A) l a c, nth_error l k = Some c -> In a l ->
  a = c \/ In a (replace_nth k b l).
Proof.
  intros A. induction k as [|k IH]; intros b [|d l] a c E H; cbn in E; try discriminate.
  - injection E as ->. destruct H as [->|H]; auto. right; now right.
  - destruct H as [->|H]; [right; now left|]. destruct (IH b l a c E H) as [->|H']; auto. right; now right.
Qed.
Lemma replace_nth_new : forall {A} k (b : A) l c, nth_error l k = Some c -> In b (replace_nth k b l).
Proof.
  intros A. induction k as [|k IH]; intros b [|d l] c E; cbn in E; try discriminate.
  - now left.
  - right. exact (IH b l c E).
Qed.

Lemma statement_in : forall i l s, statement_of i l = Some s -> In (i, s) l.
Proof.
  intros i l s H. unfold statement_of in H. destruct (find (fun p => fst p =? i) l) as [(j, s')|] eqn:E;
    [|discriminate].
  cbn in H. injection H as ->. apply find_some in E. destruct E as (E & F). cbn in F.
  apply Nat.eqb_eq in F. now subst.
Qed.
Lemma statement_unique : forall i l s, NoDup (map fst l) -> In (i, s) l -> statement_of i l = Some s.
Proof.
  intros i l s. unfold statement_of. induction l as [|(j, r) l IH]; intros N H; [contradiction|].
  cbn in N. inversion N as [|? ? N1 N2]; subst. cbn. destruct (Nat.eqb_spec j i) as [->|X].
  - destruct H as [H|H]; [injection H as ->; reflexivity|]. destruct N1. now apply (in_map fst) in H.
  - destruct H as [H|H]; [congruence|]. now apply IH.
Qed.
Lemma statement_none : forall i l, statement_of i l = None <-> ~ In i (map fst l).
Proof.
  intros i l. unfold statement_of. induction l as [|(j, r) l IH]; cbn; [tauto|].
  destruct (Nat.eqb_spec j i) as [->|X].
  - split; [discriminate|]. intros H. destruct H. now left.
  - rewrite IH. split; intros H; [intros [Y|Y]; auto|tauto].
Qed.
Lemma nodup_filter : forall (f : nat * statement -> bool) l, NoDup (map fst l) ->
  NoDup (map fst (filter f l)).
Proof.
  intros f l. induction l as [|p l IH]; intros N; [constructor|]. cbn in N.
  inversion N as [|? ? N1 N2]; subst. cbn. destruct (f p); [|now apply IH]. cbn. constructor.
  - intros H. apply N1. apply in_map_iff in H. destruct H as (q & <- & H). apply filter_In in H.
    apply in_map. tauto.
  - now apply IH.
Qed.
Lemma statement_filter : forall f i l s, NoDup (map fst l) ->
  statement_of i (filter f l) = Some s -> statement_of i l = Some s /\ f (i, s) = true.
Proof.
  intros f i l s N H. apply statement_in, filter_In in H. destruct H as (H & F).
  split; [|exact F]. now apply statement_unique.
Qed.
Lemma without_in : forall i l j s, In (j, s) (without_statement i l) -> In (j, s) l /\ j <> i.
Proof.
  intros i l j s H. apply filter_In in H. destruct H as (H & F). cbn in F.
  apply negb_true_iff, Nat.eqb_neq in F. auto.
Qed.
Lemma nodup_proceeded : forall i l s, NoDup (map fst l) ->
  NoDup (map fst (without_statement i l ++ [(i, s)])).
Proof.
  intros i l s N. rewrite map_app. cbn. apply (Permutation_NoDup (l := i :: map fst (without_statement i l))).
  - apply Permutation_cons_append.
  - constructor; [|now apply nodup_filter]. intros H. apply in_map_iff in H.
    destruct H as ((j, r) & E & H). cbn in E. subst j. apply without_in in H. tauto.
Qed.
Lemma statement_proceeded : forall i j l s r, NoDup (map fst l) ->
  statement_of j (without_statement i l ++ [(i, s)]) = Some r ->
  j = i /\ r = s \/ j <> i /\ statement_of j l = Some r.
Proof.
  intros i j l s r N H. apply statement_in, in_app_iff in H. destruct H as [H|[H|[]]].
  - apply without_in in H. right. split; [tauto|]. apply statement_unique; tauto.
  - injection H as -> ->. now left.
Qed.

(** ** What is always true. *)

Record sound (c : cluster) : Prop := {
  numbers_differ : NoDup (map fst (statements c));
  numbers_used : forall i, In i (map fst (statements c)) -> i < next c;
  owners_used : forall j, In j (jobs c) -> owner j < next c;
  results_used : forall i b, In (i, b) (results c) -> i < next c;
  results_given : forall i b, In (i, b) (results c) -> ~ In i (map fst (statements c));
  memory_known : forall u t, member t (tables (nodes c u)) = false -> memory (nodes c u) t = []
}.

Lemma saved_unknown : forall n t k s, member s (tables n) = false ->
  (forall s, member s (tables n) = false -> memory n s = []) -> memory (saved n t k) s = [].
Proof.
  intros n t k s Hs H. cbn. unfold set_rows. destruct (String.eqb_spec s t) as [->|X].
  - rewrite (H t Hs). apply skipn_nil.
  - now apply H.
Qed.

Lemma flush_invariant : forall (P : node -> Prop) n, P n ->
  (forall m t k, P m -> P (saved m t k)) -> P (flushed n).
Proof.
  intros P n H S. unfold flushed. generalize (tables n) as ts. intros ts. revert n H.
  induction ts as [|t ts IH]; intros n H; [exact H|]. cbn. apply IH. destruct (memory n t); auto.
Qed.

Lemma flushed_tables : forall n, tables (flushed n) = tables n.
Proof. intros n. apply (flush_invariant (fun m => tables m = tables n)); auto. Qed.
Lemma flushed_moving : forall n, moving (flushed n) = moving n.
Proof. intros n. apply (flush_invariant (fun m => moving m = moving n)); auto. Qed.

Lemma flushed_memory : forall n t, In t (tables n) -> memory (flushed n) t = [].
Proof.
  intros n t H. unfold flushed.
  enough (forall ts n, (In t ts \/ memory n t = []) ->
            memory (fold_left (fun n t => match memory n t with
                                          | [] => n
                                          | l => saved n t (List.length l)
                                          end) ts n) t = []) as G by (apply G; now left).
  clear H n. induction ts as [|s ts IH]; intros n [H|H]; try contradiction; [exact H| |]; cbn; apply IH.
  - destruct H as [->|H]; [|now left]. right. destruct (memory n t) as [|x l] eqn:E; [exact E|].
    cbn [saved memory]. rewrite set_same, E. apply skipn_all.
  - right. destruct (memory n s) as [|x l] eqn:E; [exact H|]. cbn [saved memory]. unfold set_rows.
    destruct (String.eqb_spec t s) as [->|]; [|exact H]. congruence.
Qed.

(** ** Where rows come from. *)

Record follows (e : list event) (n n' : node) : Prop := {
  same_tables : tables n' = tables n;
  from_memory : forall t x, In x (memory n' t) ->
    In x (memory n t) \/ inserted e t x /\ member t (tables n) = true;
  from_disk : forall t x, In x (disk n' t) -> In x (memory n t) \/ In x (disk n t);
  from_moving : forall t l b, moving n' = Some (t, l, b) ->
    l = disk n t \/ exists b', moving n = Some (t, l, b')
}.

Lemma follows_refl : forall e n, follows e n n.
Proof. intros e n. constructor; eauto. Qed.
Lemma follows_saved : forall e n t k, follows e n (saved n t k).
Proof.
  intros e n t k. constructor; [reflexivity| | |eauto]; cbn; intros s x H; unfold set_rows in H;
    destruct (String.eqb_spec s t) as [->|]; auto.
  - left. rewrite <- (firstn_skipn k). apply in_app_iff. now right.
  - apply in_app_iff in H. destruct H as [H|H]; [now right|]. left. rewrite <- (firstn_skipn k).
    apply in_app_iff. now left.
Qed.
Lemma follows_trans_saved : forall e n m t k, follows e n m -> moving m = moving n ->
  (forall t x, In x (memory m t) -> In x (memory n t)) ->
  follows e n (saved m t k) /\ moving (saved m t k) = moving n
  /\ (forall s x, In x (memory (saved m t k) s) -> In x (memory n s)).
Proof.
  intros e n m t k F M H. pose proof (follows_saved [] m t k) as S.
  assert (G : forall s x, In x (memory (saved m t k) s) -> In x (memory n s)).
  { intros s x Hx. apply (from_memory _ _ _ S) in Hx. destruct Hx as [Hx|((u & l & [] & _) & _)].
    now apply H. }
  split; [|split; [exact M|exact G]]. constructor.
  - exact (same_tables _ _ _ F).
  - intros s x Hx. left. now apply G.
  - intros s x Hx. apply (from_disk _ _ _ S) in Hx. destruct Hx as [Hx|Hx]; [left; now apply H|].
    exact (from_disk _ _ _ F s x Hx).
  - exact (from_moving _ _ _ F).
Qed.
Lemma follows_flushed : forall e n, follows e n (flushed n).
Proof.
  intros e n.
  apply (flush_invariant (fun m => follows e n m /\ moving m = moving n
           /\ forall t x, In x (memory m t) -> In x (memory n t))).
  - split; [apply follows_refl|auto].
  - intros m t k (F & M & H). now apply follows_trans_saved.
Qed.

Lemma follows_performed : forall e a ok n n' r, perform a ok n = Some (n', r) -> follows e n n'.
Proof.
  intros e a ok n n' r H. destruct a as [t| |t|t|]; cbn in H.
  - destruct (member t (tables n)); [|injection H as <- <-; apply follows_refl].
    destruct (locked n); [discriminate|]. destruct (moving n) eqn:M; [discriminate|].
    injection H as <- <-. constructor; cbn; auto. intros; congruence.
  - destruct ok; injection H as <- <-; [apply follows_flushed|apply follows_refl].
  - destruct (moving n) eqn:M; [discriminate|]. injection H as <- <-. constructor; cbn; auto.
    intros; congruence.
  - destruct ok; injection H as <- <-; [|apply follows_refl]. constructor; cbn; eauto.
    intros s x Hx. unfold set_rows in Hx. destruct (String.eqb s t); [contradiction|auto].
  - injection H as <- <-. apply follows_refl.
Qed.

Lemma follows_set : forall e (f : nat -> node) u n v, follows e (f u) n ->
  follows e (f v) (set_node u n f v).
Proof.
  intros e f u n v F. unfold set_node. destruct (Nat.eqb_spec v u) as [->|]; [exact F|].
  apply follows_refl.
Qed.

Lemma ended_nodes : forall c i b, nodes (ended c i b) = nodes c /\ remote (ended c i b) = remote c
  /\ jobs (ended c i b) = jobs c /\ listed (ended c i b) = listed c /\ next (ended c i b) = next c.
Proof. intros c i b. unfold ended. now destruct (statement_of i (statements c)). Qed.

Lemma step_follows : forall c e v, follows [e] (nodes c v) (nodes (step c e) v).
Proof.
  intros c e v. destruct e as [u t l|u t k|u t|u|u|u ts|i|i|k ok|k|u|u|u]; cbn [step].
  - destruct (alive (nodes c u) && negb (locked (nodes c u)) && member t (tables (nodes c u))) eqn:E;
      [|apply follows_refl].
    apply follows_set. constructor; cbn; eauto. intros s x H. unfold set_rows in H.
    destruct (String.eqb_spec s t) as [->|]; [|auto]. apply in_app_iff in H.
    destruct H as [H|H]; [auto|]. right. split; [exists u, l; split; [now left|exact H]|].
    apply andb_prop in E. apply E.
  - destruct (_ && _); [|apply follows_refl]. apply follows_set, follows_saved.
  - destruct (moving (nodes c u)) eqn:M; [apply follows_refl|]. destruct (_ && _);
      [|apply follows_refl].
    apply follows_set. constructor; cbn; auto. intros t' l b H. injection H as <- <- <-. now left.
  - destruct (moving (nodes c u)) as [((t, l), [])|] eqn:M; try apply follows_refl.
    cbn [with_node nodes]. apply follows_set. constructor; cbn; auto. intros t' l' b H.
    injection H as <- <- <-. right. rewrite M. eauto.
  - destruct (moving (nodes c u)) as [((t, l), [])|] eqn:M; try apply follows_refl.
    cbn [with_node nodes]. apply follows_set. constructor; cbn; auto; [|discriminate].
    intros s x H. unfold set_rows in H. destruct (String.eqb s t); [contradiction|auto].
  - destruct (alive (nodes c u)); apply follows_refl.
  - destruct (statement_of i (statements c)) as [s|]; [|apply follows_refl].
    destruct (at_ s) as [[|t left]| |].
    + apply follows_refl.
    + destruct (member t (remote_tables c)); [apply follows_refl|].
      rewrite (proj1 (ended_nodes c i false)). apply follows_refl.
    + destruct (owned i c); apply follows_refl.
    + destruct (owned i c); [apply follows_refl|]. rewrite (proj1 (ended_nodes c i true)).
      apply follows_refl.
  - rewrite (proj1 (ended_nodes c i false)). apply follows_refl.
  - destruct (nth_error (jobs c) k) as [[i w [|a left]]|] eqn:J; try apply follows_refl.
    destruct (alive (nodes c w)).
    + destruct (perform a ok (nodes c w)) as [(n, r)|] eqn:P; [|apply follows_refl].
      pose proof (follows_performed [Work k ok] _ _ _ _ _ P) as F.
      destruct r; [|rewrite (proj1 (ended_nodes _ i false))]; cbn [with_jobs with_node nodes];
        now apply follows_set.
    + rewrite (proj1 (ended_nodes _ i false)). apply follows_refl.
  - destruct (nth_error (jobs c) k) as [[i w left]|]; [|apply follows_refl].
    destruct (statement_of i (statements c)); [apply follows_refl|].
    destruct (holds_lock left); [|apply follows_refl]. cbn [with_jobs with_node nodes].
    apply follows_set. constructor; cbn; eauto.
  - cbn [stopped nodes]. apply follows_set. constructor; cbn; auto; discriminate.
  - cbn [stopped nodes]. apply follows_set. constructor; cbn; auto; discriminate.
  - destruct (alive (nodes c u)); [apply follows_refl|]. cbn [with_node nodes]. apply follows_set.
    constructor; cbn; eauto.
Qed.

Lemma step_remote : forall c e t x, In x (remote (step c e) t) ->
  In x (remote c t)
  \/ exists u l, e = Write u /\ moving (nodes c u) = Some (t, l, false) /\ In x l.
Proof.
  intros c e t x H. destruct e as [u s l|u s k|u s|u|u|u ts|i|i|k ok|k|u|u|u]; cbn [step] in H.
  - destruct (_ && _) in H; auto.
  - destruct (_ && _) in H; auto.
  - destruct (moving (nodes c u)) in H; auto. destruct (_ && _) in H; auto.
  - destruct (moving (nodes c u)) as [((s, l), [])|] eqn:M; auto. cbn in H. unfold set_rows in H.
    destruct (String.eqb_spec t s) as [->|]; auto. apply in_app_iff in H. destruct H as [H|H]; auto.
    right. exists u, l. auto.
  - destruct (moving (nodes c u)) as [((s, l), [])|] in H; auto.
  - destruct (alive (nodes c u)) in H; auto.
  - destruct (statement_of i (statements c)) as [s|]; auto. destruct (at_ s) as [[|s' left]| |]; auto.
    + destruct (member s' (remote_tables c)).
      * cbn in H. unfold set_rows in H. destruct (String.eqb t s'); [contradiction|auto].
      * destruct (ended_nodes c i false) as (_ & E & _). rewrite E in H. auto.
    + destruct (owned i c); auto.
    + destruct (owned i c); auto. destruct (ended_nodes c i true) as (_ & E & _). rewrite E in H. auto.
  - destruct (ended_nodes c i false) as (_ & E & _). rewrite E in H. auto.
  - destruct (nth_error (jobs c) k) as [[i w [|a left]]|]; auto. destruct (alive (nodes c w)).
    + destruct (perform a ok (nodes c w)) as [(n, [])|]; auto.
      destruct (ended_nodes (with_jobs (with_node c w n) (without_nth k (jobs c))) i false)
        as (_ & E & _).
      rewrite E in H. auto.
    + destruct (ended_nodes (with_jobs c (without_nth k (jobs c))) i false) as (_ & E & _).
      rewrite E in H. auto.
  - destruct (nth_error (jobs c) k) as [[i w left]|]; auto.
    destruct (statement_of i (statements c)); auto. destruct (holds_lock left); auto.
  - auto.
  - auto.
  - destruct (alive (nodes c u)); auto.
Qed.

Lemma nothing_returns : forall es c t x, nowhere t x c -> ~ inserted es t x ->
  nowhere t x (run c es).
Proof.
  induction es as [|e es IH]; intros c t x H N; [exact H|]. cbn. apply IH.
  - destruct H as (R & H). split.
    + intros Hx. apply step_remote in Hx. destruct Hx as [Hx|(u & l & -> & M & Hx)]; [auto|].
      destruct (H u) as (_ & _ & G). exact (G l false M Hx).
    + intros u. destruct (H u) as (A & B & C). pose proof (step_follows c e u) as F.
      split; [|split].
      * intros Hx. apply (from_memory _ _ _ F) in Hx. destruct Hx as [Hx|((v & l & E & Hl) & _)]; [auto|].
        apply N. exists v, l. split; [|exact Hl]. destruct E as [->|[]]. now left.
      * intros Hx. apply (from_disk _ _ _ F) in Hx. tauto.
      * intros l b M Hx. apply (from_moving _ _ _ F) in M. destruct M as [->|(b' & M)]; [auto|].
        exact (C l b' M Hx).
  - intros (v & l & E & Hl). apply N. exists v, l. split; [now right|exact Hl].
Qed.

(** ** Numbers of statements. *)

Lemma sound_nodes : forall c (f : nat -> node), sound c ->
  (forall u t, member t (tables (f u)) = false -> memory (f u) t = []) ->
  forall c', statements c' = statements c -> incl (jobs c') (jobs c) -> next c' = next c ->
  results c' = results c -> nodes c' = f -> sound c'.
Proof.
  intros c f S M c' E1 E2 E3 E4 E5. destruct S. constructor; rewrite ?E1, ?E3, ?E4, ?E5; auto.
Qed.

Lemma memory_step : forall c e, sound c -> forall u t,
  member t (tables (nodes (step c e) u)) = false -> memory (nodes (step c e) u) t = [].
Proof.
  intros c e S u t H. pose proof (step_follows c e u) as F. rewrite (same_tables _ _ _ F) in H.
  destruct (memory (nodes (step c e) u) t) as [|x l] eqn:E; [reflexivity|]. exfalso.
  destruct (from_memory _ _ _ F t x) as [G|(_ & G)].
  - rewrite E. now left.
  - rewrite (memory_known _ S u t H) in G. destruct G.
  - congruence.
Qed.

Lemma sound_ended : forall c i b, sound c -> i < next c -> sound (ended c i b).
Proof.
  intros c i b S L. unfold ended. destruct (statement_of i (statements c)) as [s|] eqn:E; [|exact S].
  destruct S as [S1 S2 S3 S4 S5 S6]. constructor; cbn.
  - now apply nodup_filter.
  - intros j Hj. apply S2. apply in_map_iff in Hj. destruct Hj as (p & <- & Hp). apply filter_In in Hp.
    apply in_map. tauto.
  - exact S3.
  - intros j r Hj. apply in_app_iff in Hj. destruct Hj as [Hj|[Hj|[]]]; [eauto|]. injection Hj as <- <-.
    exact L.
  - intros j r Hj Hm. apply in_map_iff in Hm. destruct Hm as ((j', p) & X & Hp). cbn in X. subst j'.
    apply without_in in Hp. destruct Hp as (Hp & Hn). apply in_app_iff in Hj.
    destruct Hj as [Hj|[Hj|[]]].
    + apply (S5 j r Hj). now apply (in_map fst) in Hp.
    + injection Hj as <- <-. contradiction.
  - exact S6.
Qed.

Lemma sound_proceeded : forall c i s p, sound c -> statement_of i (statements c) <> None ->
  sound (proceeded c i s p).
Proof.
  intros c i s p S N. destruct S as [S1 S2 S3 S4 S5 S6].
  assert (I : In i (map fst (statements c))).
  { destruct (in_dec Nat.eq_dec i (map fst (statements c))) as [H|H]; [exact H|].
    now apply statement_none in H. }
  assert (X : forall j, In j (map fst (without_statement i (statements c)
      ++ [(i, Statement (origin s) (named s) p)])) -> In j (map fst (statements c))).
  { intros j H. rewrite map_app, in_app_iff in H. destruct H as [H|[<-|[]]]; [|exact I].
    apply in_map_iff in H. destruct H as (q & <- & Hq). apply filter_In in Hq. apply in_map. tauto. }
  constructor; cbn; auto.
  - now apply nodup_proceeded.
  - intros j b Hj Hm. exact (S5 j b Hj (X j Hm)).
Qed.

Lemma sound_stopped : forall c u l n, sound c ->
  (forall v t, member t (tables (nodes (stopped c u l n) v)) = false ->
     memory (nodes (stopped c u l n) v) t = []) -> sound (stopped c u l n).
Proof.
  intros c u l n S M. destruct S as [S1 S2 S3 S4 S5 S6].
  assert (X : forall (f : nat * statement -> bool) j, In j (map fst (filter f (statements c))) ->
            In j (map fst (statements c))).
  { intros f j H. apply in_map_iff in H. destruct H as (p & <- & Hp). apply filter_In in Hp.
    apply in_map. tauto. }
  constructor; cbn [stopped statements jobs next results].
  - now apply nodup_filter.
  - intros j H. apply S2. exact (X _ _ H).
  - intros j H. apply filter_In in H. apply S3. tauto.
  - intros j b H. apply in_app_iff in H. destruct H as [H|H]; [eauto|]. apply in_map_iff in H.
    destruct H as (p & E & Hp). injection E as <- <-. apply S2. apply (X (fails_with u c)). now apply in_map.
  - intros j b H Hm. apply in_app_iff in H. destruct H as [H|H].
    + exact (S5 j b H (X _ _ Hm)).
    + apply in_map_iff in H. destruct H as ((j', p) & E & Hp). injection E as -> <-.
      apply in_map_iff in Hm. destruct Hm as ((j', q) & E & Hq). cbn in E. subst j'.
      apply filter_In in Hp, Hq. destruct Hp as (Hp & Fp), Hq as (Hq & Fq).
      pose proof (statement_unique _ _ _ S1 Hp) as E1. pose proof (statement_unique _ _ _ S1 Hq) as E2.
      assert (p = q) by congruence. subst q. cbn [fst] in *. rewrite Fp in Fq. discriminate.
  - exact M.
Qed.

Lemma sound_step : forall c e, sound c -> sound (step c e).
Proof.
  intros c e S. pose proof (memory_step c e S) as M.
  destruct e as [u t l|u t k|u t|u|u|u ts|i|i|k ok|k|u|u|u]; cbn [step] in M |- *.
  - destruct (_ && _); [|exact S]. apply (sound_nodes _ _ S M); auto using incl_refl.
  - destruct (_ && _); [|exact S]. apply (sound_nodes _ _ S M); auto using incl_refl.
  - destruct (moving (nodes c u)); [exact S|]. destruct (_ && _); [|exact S].
    apply (sound_nodes _ _ S M); auto using incl_refl.
  - destruct (moving (nodes c u)) as [((t, l), [])|]; try exact S.
    apply (sound_nodes _ _ S M); auto using incl_refl.
  - destruct (moving (nodes c u)) as [((t, l), [])|]; try exact S.
    apply (sound_nodes _ _ S M); auto using incl_refl.
  - destruct (alive (nodes c u)); [|exact S]. destruct S as [S1 S2 S3 S4 S5 S6].
    assert (X : ~ In (next c) (map fst (statements c))).
    { intros H. apply S2 in H. lia. }
    constructor; cbn.
    + rewrite map_app. cbn. apply (Permutation_NoDup (Permutation_cons_append _ _)).
      now constructor.
    + intros j Hj. rewrite map_app, in_app_iff in Hj. destruct Hj as [Hj|[<-|[]]]; [|cbn; lia].
      apply S2 in Hj. lia.
    + intros j Hj. apply S3 in Hj. lia.
    + intros j b Hj. apply S4 in Hj. lia.
    + intros j b Hj Hm. rewrite map_app, in_app_iff in Hm. destruct Hm as [Hm|[<-|[]]].
      * exact (S5 j b Hj Hm).
      * cbn in Hj. apply S4 in Hj. lia.
    + exact S6.
  - destruct (statement_of i (statements c)) as [s|] eqn:E; [|exact S].
    assert (L : i < next c).
    { apply (numbers_used _ S). apply statement_in in E. now apply (in_map fst) in E. }
    destruct (at_ s) as [[|t left]| |].
    + apply sound_proceeded; [|cbn; congruence]. destruct S as [S1 S2 S3 S4 S5 S6].
      constructor; cbn; auto. intros j Hj. apply in_app_iff in Hj. destruct Hj as [Hj|Hj]; [auto|].
      apply in_map_iff in Hj. destruct Hj as (w & <- & _). exact L.
    + destruct (member t (remote_tables c)); [|now apply sound_ended].
      apply sound_proceeded; [|cbn; congruence]. destruct S. now constructor.
    + destruct (owned i c); [exact S|]. apply sound_proceeded; [|cbn; congruence].
      destruct S as [S1 S2 S3 S4 S5 S6].
      constructor; cbn; auto. intros j Hj. apply in_app_iff in Hj. destruct Hj as [Hj|[<-|[]]]; auto.
    + destruct (owned i c); [exact S|]. now apply sound_ended.
  - destruct (statement_of i (statements c)) as [s|] eqn:E.
    + apply sound_ended; [exact S|]. apply (numbers_used _ S). apply statement_in in E.
      now apply (in_map fst) in E.
    + unfold ended. now rewrite E.
  - destruct (nth_error (jobs c) k) as [[i w [|a left]]|] eqn:J; try exact S.
    + apply (sound_nodes _ _ S M); auto. intros j. apply without_nth_in.
    + pose proof (owners_used _ S _ (nth_error_In _ _ J)) as L. cbn in L.
      destruct (alive (nodes c w)).
      * destruct (perform a ok (nodes c w)) as [(n, [])|]; [| |exact S].
        -- destruct S as [S1 S2 S3 S4 S5 S6]. constructor; auto. intros j Hj. cbn in Hj.
           apply replace_nth_in in Hj. destruct Hj as [->|Hj]; [exact L|now apply S3].
        -- apply sound_ended; [|exact L].
           rewrite (proj1 (ended_nodes _ i false)) in M.
           apply (sound_nodes _ _ S M); auto. intros j. apply without_nth_in.
      * apply sound_ended; [|exact L]. rewrite (proj1 (ended_nodes _ i false)) in M.
        apply (sound_nodes _ _ S M); auto. intros j. apply without_nth_in.
  - destruct (nth_error (jobs c) k) as [[i w left]|]; [|exact S].
    destruct (statement_of i (statements c)); [exact S|].
    apply (sound_nodes _ _ S M); auto; destruct (holds_lock left); auto;
      intros j; apply without_nth_in.
  - exact (sound_stopped c u _ _ S M).
  - exact (sound_stopped c u _ _ S M).
  - destruct (alive (nodes c u)); [exact S|]. apply (sound_nodes _ _ S M); auto using incl_refl.
Qed.

Lemma sound_run : forall es c, sound c -> sound (run c es).
Proof. induction es as [|e es IH]; intros c S; [exact S|]. cbn. apply IH. now apply sound_step. Qed.
Lemma sound_new : forall ts, sound (new_cluster ts).
Proof. intros ts. constructor; cbn; try contradiction; try constructor; auto. Qed.

(** ** The rows of one table. *)

Section Table.
Variable es : list event.
Variable t : string.
Notation new := (only_new es t).

Definition empty_of_old (n : node) : Prop := new (memory n t) /\ new (disk n t).

Lemma new_memory : forall e n n', incl e es -> follows e n n' -> new (memory n t) -> new (memory n' t).
Proof.
  intros e n n' I F N x H. apply (from_memory _ _ _ F) in H.
  destruct H as [H|((u & l & He & Hl) & _)]; [now apply N|]. exists u, l. split; [now apply I|exact Hl].
Qed.
Lemma new_both : forall e n n', incl e es -> follows e n n' -> empty_of_old n -> empty_of_old n'.
Proof.
  intros e n n' I F (N & D). split; [exact (new_memory e n n' I F N)|].
  intros x H. apply (from_disk _ _ _ F) in H. destruct H; auto.
Qed.

(** What is left to be done is enough to delete the old rows. *)
Definition enough (l : list action) (n : node) : Prop :=
  (~ In (Erase t) l -> empty_of_old n)
  /\ forall l1 l2, l = l1 ++ Erase t :: l2 -> ~ In Flush l1 -> new (memory n t).

Lemma enough_follows : forall e l n n', incl e es -> follows e n n' -> enough l n -> enough l n'.
Proof.
  intros e l n n' I F (A & B). split.
  - intros H. apply (new_both e n n' I F). now apply A.
  - intros l1 l2 E H. apply (new_memory e n n' I F). exact (B l1 l2 E H).
Qed.

Lemma enough_start : forall ts n, In t ts -> enough (truncations ts) n.
Proof.
  intros ts n H. split.
  - intros N. destruct N. unfold truncations. apply in_flat_map. exists t. split; [exact H|].
    cbn. tauto.
  - intros l1 l2 E N. destruct ts as [|s ts]; [destruct H|]. cbn in E.
    destruct l1 as [|a [|b l1]]; cbn in E; try discriminate.
    injection E as _ <- _. destruct N. right. now left.
Qed.

Lemma enough_performed : forall a ok n n' l,
  (member t (tables n) = false -> memory n t = []) ->
  (a = Flush -> ok = true) -> perform a ok n = Some (n', true) -> enough (a :: l) n ->
  enough l n'.
Proof.
  intros a ok n n' l K V H (A & B).
  assert (G : forall l1 l2, l = l1 ++ Erase t :: l2 -> ~ In Flush l1 -> a <> Flush ->
            new (memory n t)).
  { intros l1 l2 E N X. apply (B (a :: l1) l2); [cbn; now rewrite E|]. intros [Y|Y]; auto. }
  destruct a as [s| |s|s|]; cbn in H.
  - destruct (member s (tables n)); [|discriminate]. destruct (locked n); [discriminate|].
    destruct (moving n); [discriminate|]. injection H as <-. split.
    + intros N. apply A. intros [Y|Y]; [discriminate|auto].
    + intros l1 l2 E N. apply (G l1 l2 E N). discriminate.
  - rewrite (V eq_refl) in H. injection H as <-. split.
    + intros N. apply (new_both [] n); [intros y []|apply follows_flushed|]. apply A.
      intros [Y|Y]; [discriminate|auto].
    + intros l1 l2 E N. destruct (member t (tables n)) eqn:Hm.
      * rewrite (flushed_memory n t (proj1 (member_iff _ _) Hm)). intros x [].
      * apply (new_memory [] n); [intros y []|apply follows_flushed|]. rewrite (K eq_refl). intros x [].
  - destruct (moving n); [discriminate|]. injection H as <-. split.
    + intros N. apply A. intros [Y|Y]; [discriminate|auto].
    + intros l1 l2 E N. apply (G l1 l2 E N). discriminate.
  - destruct ok; [|discriminate]. injection H as <-. destruct (string_dec s t) as [->|X].
    + assert (M : new (memory n t)) by (apply (B [] l); [reflexivity|now intros []]). split.
      * intros _. split; [exact M|]. cbn. rewrite set_same. intros x [].
      * intros l1 l2 E N. exact M.
    + split.
      * intros N. unfold empty_of_old. cbn. rewrite set_other by congruence. apply A.
        intros [Y|Y]; [congruence|auto].
      * intros l1 l2 E N. apply (G l1 l2 E N). discriminate.
  - discriminate.
Qed.

(** ** One statement. *)

Variables (i u : nat) (ts : list string) (listed0 : list nat).
Hypothesis named_t : In t ts.
Hypothesis sent : truncations_peer ts = truncations ts.

Definition reached (w : nat) : Prop := In w listed0 /\ ~ In (Leave w) es.
Definition pending (c : cluster) (w : nat) : Prop :=
  exists j, In j (jobs c) /\ owner j = i /\ place j = w.

Definition stage_ok (c : cluster) (p : progress) : Prop :=
  match p with
  | Remotely left =>
      (forall j, In j (jobs c) -> owner j <> i) /\ (~ In t left -> new (remote c t))
  | Peers =>
      new (remote c t)
      /\ forall w, reached w -> w <> u -> pending c w \/ empty_of_old (nodes c w)
  | Own =>
      new (remote c t)
      /\ (forall w, reached w -> w <> u -> empty_of_old (nodes c w))
      /\ (pending c u \/ empty_of_old (nodes c u))
  end.

Record tidy (c : cluster) : Prop := {
  is_sound : sound c;
  begun : i < next c;
  still_listed : forall w, reached w -> In w (listed c);
  jobs_enough : forall j, In j (jobs c) -> owner j = i -> enough (left j) (nodes c (place j));
  stages : forall s, statement_of i (statements c) = Some s ->
    origin s = u /\ named s = ts /\ stage_ok c (at_ s);
  finished : In (i, true) (results c) ->
    new (remote c t) /\ forall w, (reached w \/ w = u) -> empty_of_old (nodes c w)
}.

Lemma tidy_keep : forall c e c', tidy c -> In e es -> sound c' ->
  (forall v, follows [e] (nodes c v) (nodes c' v)) ->
  (new (remote c t) -> new (remote c' t)) ->
  next c <= next c' ->
  (forall w, reached w -> In w (listed c) -> In w (listed c')) ->
  (forall j, In j (jobs c') -> owner j = i -> In j (jobs c) \/
     enough (left j) (nodes c' (place j)) /\ exists j0, In j0 (jobs c) /\ owner j0 = i) ->
  (forall s, statement_of i (statements c') = Some s ->
     statement_of i (statements c) = Some s
     /\ forall w, pending c w -> pending c' w \/ empty_of_old (nodes c' w)) ->
  (In (i, true) (results c') -> In (i, true) (results c)) ->
  tidy c'.
Proof.
  intros c e c' T E S F R N L J St Re. destruct T as [_ T2 T3 T4 T5 T6].
  assert (I : incl [e] es) by (intros x [<-|[]]; exact E).
  constructor.
  - exact S.
  - lia.
  - intros w H. apply L; auto.
  - intros j H Ho. destruct (J j H Ho) as [H'|(H' & _)]; [|exact H'].
    exact (enough_follows [e] _ _ _ I (F _) (T4 j H' Ho)).
  - intros s Hs. destruct (St s Hs) as (Hs' & P). destruct (T5 s Hs') as (A & B & C).
    split; [exact A|]. split; [exact B|]. destruct (at_ s) as [left| |]; cbn [stage_ok] in *.
    + destruct C as (C1 & C2). split; [|auto]. intros j H Ho.
      destruct (J j H Ho) as [H'|(_ & j0 & H' & Ho')]; [exact (C1 j H' Ho)|exact (C1 j0 H' Ho')].
    + destruct C as (C1 & C2). split; [auto|]. intros w Hw Hu.
      destruct (C2 w Hw Hu) as [X|X]; [auto|]. right. exact (new_both [e] _ _ I (F w) X).
    + destruct C as (C1 & C2 & C3). split; [auto|]. split.
      * intros w Hw Hu. exact (new_both [e] _ _ I (F w) (C2 w Hw Hu)).
      * destruct C3 as [X|X]; [auto|]. right. exact (new_both [e] _ _ I (F u) X).
  - intros H. destruct (T6 (Re H)) as (A & B). split; [auto|].
    intros w Hw. exact (new_both [e] _ _ I (F w) (B w Hw)).
Qed.

Lemma remote_keep : forall c e,
  match e with
  | Write v => forall s l b, moving (nodes c v) = Some (s, l, b) -> ~ In s ts
  | _ => True
  end -> new (remote c t) -> new (remote (step c e) t).
Proof.
  intros c e H N x Hx. apply step_remote in Hx. destruct Hx as [Hx|(v & l & -> & M & _)]; [auto|].
  destruct (H _ _ _ M). exact named_t.
Qed.

Lemma ended_statement : forall c j b s, sound c -> statement_of i (statements (ended c j b)) = Some s ->
  statement_of i (statements c) = Some s /\ j <> i.
Proof.
  intros c j b s S H. unfold ended in H. destruct (statement_of j (statements c)) eqn:E.
  - cbn in H. apply (statement_filter _ _ _ _ (numbers_differ _ S)) in H. destruct H as (H & F).
    split; [exact H|]. cbn in F. apply negb_true_iff, Nat.eqb_neq in F. congruence.
  - split; [exact H|]. congruence.
Qed.
Lemma ended_result : forall c j b, (b = false \/ j <> i) ->
  In (i, true) (results (ended c j b)) -> In (i, true) (results c).
Proof.
  intros c j b H. unfold ended. destruct (statement_of j (statements c)); [|auto]. cbn.
  rewrite in_app_iff. intros [X|[X|[]]]; [exact X|]. injection X as -> ->. destruct H; congruence.
Qed.

Lemma tidy_stopped : forall c e v l n, tidy c -> In e es -> sound (stopped c v l n) ->
  (forall w, follows [e] (nodes c w) (nodes (stopped c v l n) w)) ->
  (forall w, reached w -> In w (listed c) -> In w l) -> tidy (stopped c v l n).
Proof.
  intros c e v l n T E S F L. apply (tidy_keep c e _ T E S F); auto.
  - intros j Hj _. cbn in Hj. apply filter_In in Hj. tauto.
  - intros s Hs. cbn in Hs.
    apply (statement_filter _ _ _ _ (numbers_differ _ (is_sound _ T))) in Hs. destruct Hs as (Hs & N).
    split; [exact Hs|]. intros w (j & Hj & Ho & Hp). left. exists j. split; [|auto]. cbn.
    apply filter_In. split; [exact Hj|]. apply negb_true_iff, Nat.eqb_neq. intros X.
    apply negb_true_iff, orb_false_iff in N. destruct N as (_ & N).
    assert (Y : existsb (fun j => (owner j =? i) && (place j =? v)) (jobs c) = true).
    { apply existsb_exists. exists j. split; [exact Hj|]. rewrite Ho, X, !Nat.eqb_refl. reflexivity. }
    cbn [fst] in N. congruence.
  - intros H. cbn in H. apply in_app_iff in H. destruct H as [H|H]; [exact H|]. apply in_map_iff in H.
    destruct H as (p & X & _). discriminate.
Qed.

Lemma tidy_step : forall c e, tidy c -> In e es ->
  match e with
  | Write v => forall s l b, moving (nodes c v) = Some (s, l, b) -> ~ In s ts
  | _ => True
  end ->
  match e with
  | Work k false => forall i w l, nth_error (jobs c) k <> Some (Job i w (Flush :: l))
  | _ => True
  end -> tidy (step c e).
Proof.
  intros c e T E W V.
  pose proof (sound_step c e (is_sound _ T)) as S'. pose proof (step_follows c e) as F.
  pose proof (remote_keep c e W) as R. pose proof (is_sound _ T) as S.
  assert (K : forall c', statements c' = statements c -> jobs c' = jobs c -> results c' = results c ->
            next c <= next c' -> (forall w, reached w -> In w (listed c) -> In w (listed c')) ->
            sound c' -> (forall v, follows [e] (nodes c v) (nodes c' v)) ->
            (new (remote c t) -> new (remote c' t)) -> tidy c').
  { intros c' E1 E2 E3 E4 E5 E6 E7 E8. apply (tidy_keep c e c' T E E6 E7 E8 E4 E5).
    - intros j Hj _. rewrite E2 in Hj. now left.
    - intros s Hs. rewrite E1 in Hs. split; [exact Hs|]. intros w P. left. unfold pending.
      now rewrite E2.
    - now rewrite E3. }
  destruct e as [v s l|v s k|v s|v|v|v ss|j|j|k ok|k|v|v|v].
  - cbn [step] in *. destruct (_ && _); [|exact T]. apply K; auto.
  - cbn [step] in *. destruct (_ && _); [|exact T]. apply K; auto.
  - cbn [step] in *. destruct (moving (nodes c v)); [exact T|]. destruct (_ && _); [|exact T].
    apply K; auto.
  - cbn [step] in *. destruct (moving (nodes c v)) as [((s, l), [])|] eqn:M; try exact T. apply K; auto.
  - cbn [step] in *. destruct (moving (nodes c v)) as [((s, l), [])|]; try exact T. apply K; auto.
  - cbn [step] in *. destruct (alive (nodes c v)); [|exact T].
    apply (tidy_keep c (Begin v ss) _ T E S' F R); cbn; auto.
    intros s Hs. split.
    + apply statement_in, in_app_iff in Hs. destruct Hs as [Hs|[Hs|[]]].
      * apply statement_unique; [exact (numbers_differ _ S)|exact Hs].
      * injection Hs as Hi _. pose proof (begun _ T). lia.
    + intros w P. now left.
  - cbn [step] in *. destruct (statement_of j (statements c)) as [s|] eqn:Es; [|exact T].
    destruct (Nat.eq_dec j i) as [->|X].
    + destruct (stages _ T s Es) as (A & B & C).
      destruct T as [T1 T2 T3 T4 T5 T6].
      assert (NR : ~ In (i, true) (results c)).
      { intros H. apply (results_given _ S) in H. apply H. apply statement_in in Es.
        now apply (in_map fst) in Es. }
      destruct (at_ s) as [[|s' left']| |]; cbn [stage_ok] in C.
      * (* peers get the statement *)
        destruct C as (C1 & C2). constructor; auto.
        -- intros j Hj Ho. cbn in Hj |- *. apply in_app_iff in Hj. destruct Hj as [Hj|Hj].
           { destruct (C1 j Hj Ho). }
           apply in_map_iff in Hj. destruct Hj as (w & <- & _). cbn. rewrite B, sent.
           now apply enough_start.
        -- intros r Hr. cbn in Hr.
           apply (statement_proceeded _ _ _ _ _ (numbers_differ _ S)) in Hr.
           destruct Hr as [(_ & ->)|(Hr & _)]; [|congruence]. cbn. split; [exact A|]. split; [exact B|].
           split; [apply C2; now intros []|]. intros w Hw Hu. left.
           exists (Job i w (truncations_peer (named s))). split; [|auto]. apply in_app_iff. right.
           apply in_map_iff. exists w. split; [reflexivity|]. apply filter_In. split; [auto|].
           rewrite A. now apply negb_true_iff, Nat.eqb_neq.
      * (* a table is truncated in the remote data folder *)
        destruct C as (C1 & C2). destruct (member s' (remote_tables c)).
        -- constructor; auto.
           ++ intros r Hr. cbn in Hr.
              apply (statement_proceeded _ _ _ _ _ (numbers_differ _ S)) in Hr.
              destruct Hr as [(_ & ->)|(Hr & _)]; [|congruence]. cbn. split; [exact A|].
              split; [exact B|]. split; [exact C1|]. intros N. destruct (string_dec t s') as [<-|Y].
              ** rewrite set_same. intros x [].
              ** rewrite set_other by exact Y. apply C2. intros [Z|Z]; auto.
           ++ intros H. contradiction.
        -- destruct (ended_nodes c i false) as (E1 & E2 & E3 & E4 & E5).
           apply (tidy_keep c (Proceed i) _); auto; try (constructor; assumption); rewrite ?E3, ?E4, ?E5; auto.
           ++ intros r Hr. now apply (ended_statement _ _ _ _ S) in Hr.
           ++ apply ended_result. now left.
      * (* the node truncates its own tables *)
        destruct C as (C1 & C2). destruct (owned i c) eqn:O; [constructor; auto|].
        assert (NP : forall w, ~ pending c w).
        { intros w (j & Hj & Ho & _). assert (owned i c = true); [|congruence].
          unfold owned. apply existsb_exists. exists j. split; [exact Hj|]. now apply Nat.eqb_eq. }
        constructor; auto.
        -- intros j Hj Ho. cbn in Hj |- *. apply in_app_iff in Hj. destruct Hj as [Hj|[<-|[]]].
           { destruct (NP (place j)). now exists j. }
           cbn. rewrite B. now apply enough_start.
        -- intros r Hr. cbn in Hr.
           apply (statement_proceeded _ _ _ _ _ (numbers_differ _ S)) in Hr.
           destruct Hr as [(_ & ->)|(Hr & _)]; [|congruence]. cbn. split; [exact A|]. split; [exact B|].
           split; [exact C1|]. split.
           ++ intros w Hw Hu. destruct (C2 w Hw Hu) as [P|P]; [|exact P]. destruct (NP w P).
           ++ left. exists (Job i (origin s) (truncations (named s))).
              split; [apply in_app_iff; right; now left|auto].
      * (* the statement has been executed *)
        destruct C as (C1 & C2 & C3). destruct (owned i c) eqn:O; [constructor; auto|].
        assert (NP : ~ pending c u).
        { intros (j & Hj & Ho & _). assert (owned i c = true); [|congruence].
          unfold owned. apply existsb_exists. exists j. split; [exact Hj|]. now apply Nat.eqb_eq. }
        destruct (ended_nodes c i true) as (E1 & E2 & E3 & E4 & E5).
        constructor; rewrite ?E1, ?E2, ?E3, ?E4, ?E5; auto.
        -- intros r Hr. apply (ended_statement _ _ _ _ S) in Hr. tauto.
        -- intros _. split; [exact C1|]. intros w [Hw| ->]; [|tauto].
           destruct (Nat.eq_dec w u) as [->|Hu]; [tauto|]. auto.
    + (* another statement *)
      assert (KE : forall b, tidy (ended c j b)).
      { intros b. destruct (ended_nodes c j b) as (E1 & E2 & E3 & E4 & E5).
        apply (tidy_keep c (Proceed j) _ T E); rewrite ?E1, ?E2, ?E3, ?E4, ?E5; auto using follows_refl.
        - apply sound_ended; [exact S|]. apply (numbers_used _ S). apply statement_in in Es.
          now apply (in_map fst) in Es.
        - intros r Hr. apply (ended_statement _ _ _ _ S) in Hr. split; [tauto|].
          intros w P. left. unfold pending. now rewrite E3.
        - apply ended_result. now right. }
      assert (KP : forall l, (forall q, In q l -> owner q <> i) -> forall c' p,
                c' = with_jobs c (jobs c ++ l) ->
                sound (proceeded c' j s p) -> tidy (proceeded c' j s p)).
      { intros l Hl c' p -> Sp. apply (tidy_keep c (Proceed j) _ T E Sp); auto.
        - intros v. apply follows_refl.
        - intros q Hq Ho. cbn in Hq. apply in_app_iff in Hq. destruct Hq as [Hq|Hq]; [now left|].
          destruct (Hl q Hq Ho).
        - intros r Hr. cbn in Hr. apply (statement_proceeded _ _ _ _ _ (numbers_differ _ S)) in Hr.
          destruct Hr as [(Hr & _)|(_ & Hr)]; [congruence|]. split; [exact Hr|].
          intros w (q & Hq & Ho). left. exists q. split; [|exact Ho]. cbn. apply in_app_iff. now left. }
      destruct (at_ s) as [[|s' left']| |].
      * apply (KP (map (fun w => Job j w (truncations_peer (named s)))
                     (filter (fun w => negb (w =? origin s)) (listed c)))); [|reflexivity|exact S'].
        intros q Hq. apply in_map_iff in Hq. destruct Hq as (w & <- & _). exact X.
      * destruct (member s' (remote_tables c)); [|apply KE].
        apply (tidy_keep c (Proceed j) _ T E S' F R); auto.
        intros r Hr. cbn in Hr. apply (statement_proceeded _ _ _ _ _ (numbers_differ _ S)) in Hr.
        destruct Hr as [(Hr & _)|(_ & Hr)]; [congruence|]. split; [exact Hr|]. intros w P. now left.
      * destruct (owned j c); [exact T|].
        apply (KP [Job j (origin s) (truncations (named s))]); [|reflexivity|exact S'].
        intros q [<-|[]]. exact X.
      * destruct (owned j c); [exact T|apply KE].
  - cbn [step] in *. destruct (ended_nodes c j false) as (E1 & E2 & E3 & E4 & E5).
    apply (tidy_keep c (Abandon j) _ T E); auto; rewrite ?E3, ?E4, ?E5; auto.
    + intros r Hr. apply (ended_statement _ _ _ _ S) in Hr. split; [tauto|].
      intros w P. left. unfold pending. now rewrite E3.
    + apply ended_result. now left.
  - cbn [step] in *. destruct (nth_error (jobs c) k) as [[j w [|a l]]|] eqn:J; try exact T.
    + apply (tidy_keep c (Work k ok) _ T E S' F R); auto.
      * intros q Hq _. left. exact (without_nth_in _ _ _ Hq).
      * intros s Hs. split; [exact Hs|]. intros v (q & Hq & Ho & Hp).
        destruct (without_nth_keeps k (jobs c) q _ J Hq) as [->|Hq'].
        -- right. cbn in Ho, Hp. subst j w.
           destruct (jobs_enough _ T _ Hq eq_refl) as (A & _). apply A. now intros [].
        -- left. now exists q.
    + assert (KF : forall c1, statements c1 = statements c -> results c1 = results c ->
                next c1 = next c -> listed c1 = listed c ->
                sound (ended (with_jobs c1 (without_nth k (jobs c))) j false) ->
                (forall v, follows [Work k ok] (nodes c v)
                   (nodes (ended (with_jobs c1 (without_nth k (jobs c))) j false) v)) ->
                (new (remote c t) ->
                 new (remote (ended (with_jobs c1 (without_nth k (jobs c))) j false) t)) ->
                tidy (ended (with_jobs c1 (without_nth k (jobs c))) j false)).
      { intros c1 E1 E2 E3 E4 Sc Fc Rc. set (c2 := with_jobs c1 (without_nth k (jobs c))) in *.
        destruct (ended_nodes c2 j false) as (X1 & X2 & X3 & X4 & X5).
        apply (tidy_keep c (Work k ok) _ T E Sc Fc Rc).
        - rewrite X5. unfold c2. cbn. lia.
        - intros w' _ H. rewrite X4. unfold c2. cbn. now rewrite E4.
        - intros q Hq _. left. rewrite X3 in Hq. exact (without_nth_in _ _ _ Hq).
        - intros s Hs. unfold ended in Hs.
          assert (Y : statement_of i (statements c) = Some s /\ j <> i).
          { destruct (statement_of j (statements c2)) eqn:Ej.
            - cbn in Hs. rewrite E1 in Hs.
              apply (statement_filter _ _ _ _ (numbers_differ _ S)) in Hs. destruct Hs as (Hs & Hf).
              split; [exact Hs|]. cbn in Hf. apply negb_true_iff, Nat.eqb_neq in Hf. congruence.
            - unfold c2 in *. cbn in Hs, Ej. rewrite E1 in Hs, Ej. split; [exact Hs|congruence]. }
          split; [tauto|]. intros v (q & Hq & Ho & Hp). left. exists q. split; [|auto]. rewrite X3.
          unfold c2. cbn. destruct (without_nth_keeps k (jobs c) q _ J Hq) as [->|Hq']; [|exact Hq'].
          cbn in Ho. tauto.
        - intros H. apply ended_result in H; [|now left]. unfold c2 in H. cbn in H. now rewrite E2 in H. }
      destruct (alive (nodes c w)); [|now apply KF].
      destruct (perform a ok (nodes c w)) as [(n, [])|] eqn:P; [| |exact T].
      * apply (tidy_keep c (Work k ok) _ T E S' F R); auto.
        -- intros q Hq Ho. cbn in Hq. apply replace_nth_in in Hq. destruct Hq as [->|Hq]; [|now left].
           right. cbn in Ho. subst j. pose proof (nth_error_In _ _ J) as Hj.
           split; [|now exists (Job i w (a :: l))]. cbn. rewrite node_same.
           apply (enough_performed a ok (nodes c w));
             [|intros ->; destruct ok; [reflexivity|destruct (V i w l eq_refl)]
              |exact P|exact (jobs_enough _ T _ Hj eq_refl)].
           apply (memory_known _ S).
        -- intros s Hs. split; [exact Hs|]. intros v (q & Hq & Ho & Hp). left.
           destruct (replace_nth_keeps k (Job j w l) (jobs c) q _ J Hq) as [->|Hq'].
           ++ exists (Job j w l). split; [|exact (conj Ho Hp)]. cbn. exact (replace_nth_new _ _ _ _ J).
           ++ now exists q.
      * now apply KF.
  - cbn [step] in *. destruct (nth_error (jobs c) k) as [[j w l]|] eqn:J; [|exact T].
    destruct (statement_of j (statements c)) as [|] eqn:Ej; [exact T|].
    set (c1 := if holds_lock l then with_node c w (with_lock (nodes c w) false) else c) in *.
    assert (X : statements c1 = statements c /\ results c1 = results c /\ next c1 = next c
                /\ listed c1 = listed c) by (unfold c1; now destruct (holds_lock l)).
    destruct X as (X1 & X2 & X3 & X4).
    apply (tidy_keep c (Cancel k) _ T E S' F R); cbn [with_jobs next listed jobs statements results];
      rewrite ?X1, ?X2, ?X3, ?X4; auto.
    + intros q Hq _. left. exact (without_nth_in _ _ _ Hq).
    + intros s Hs. split; [exact Hs|]. intros v (q & Hq & Ho & Hp). left. exists q. split; [|auto].
      cbn. destruct (without_nth_keeps k (jobs c) q _ J Hq) as [->|Hq']; [|exact Hq'].
      cbn in Ho. congruence.
  - cbn [step] in *. apply (tidy_stopped c (Crash v)); auto.
  - cbn [step] in *. apply (tidy_stopped c (Leave v)); auto.
    intros w (_ & Hw) H. apply filter_In. split; [exact H|]. apply negb_true_iff, Nat.eqb_neq.
    intros ->. contradiction.
  - cbn [step] in *. destruct (alive (nodes c v)); [exact T|]. apply K; auto.
    intros w _ H. cbn. apply in_app_iff. now left.
Qed.

Lemma tidy_run : forall es' c, tidy c -> incl es' es -> no_transfer ts c es' -> all_saved c es' ->
  tidy (run c es').
Proof.
  induction es' as [|e es' IH]; intros c T I N V; [exact T|]. cbn in N, V |- *.
  destruct N as (N1 & N2), V as (V1 & V2).
  apply IH; [|intros x Hx; apply I; now right|exact N2|exact V2].
  apply tidy_step; [exact T|apply I; now left|exact N1|exact V1].
Qed.
End Table.

Lemma sent_as_named : forall ts, sendable ts -> truncations_peer ts = truncations ts.
Proof.
  intros ts (N & P & C). unfold truncations_peer. now rewrite (truncate_text ts N P C).
Qed.

Lemma truncated_everywhere : forall tables before u ts es, sendable ts ->
  let c := run (new_cluster tables) before in
  let c' := run c (Begin u ts :: es) in
  alive (nodes c u) = true -> no_transfer ts (step c (Begin u ts)) es ->
  all_saved (step c (Begin u ts)) es -> In (next c, true) (results c') ->
  forall t, In t ts ->
    only_new es t (remote c' t)
    /\ forall w, (w = u \/ In w (listed c) /\ ~ In (Leave w) es) ->
       only_new es t (memory (nodes c' w) t) /\ only_new es t (disk (nodes c' w) t).
Proof.
  intros tables before u ts es Se c c' A N V R t Ht.
  assert (S : sound c) by apply sound_run, sound_new.
  assert (T : tidy es t (next c) u ts (listed c) (step c (Begin u ts))).
  { pose proof (sound_step c (Begin u ts) S) as S'. cbn [step] in *. rewrite A in *.
    constructor; cbn; auto.
    - intros w (H & _). exact H.
    - intros j Hj Ho. pose proof (owners_used _ S j Hj). lia.
    - intros s Hs. apply statement_in, in_app_iff in Hs. destruct Hs as [Hs|[Hs|[]]].
      + apply (in_map fst) in Hs. apply (numbers_used _ S) in Hs. cbn in Hs. lia.
      + injection Hs as <-. cbn. split; [reflexivity|]. split; [reflexivity|]. split.
        * intros j Hj Ho. pose proof (owners_used _ S j Hj). lia.
        * intros X. contradiction.
    - intros H. pose proof (results_used _ S _ _ H). lia. }
  pose proof (tidy_run es t (next c) u ts (listed c) Ht (sent_as_named ts Se) es _ T
                (incl_refl es) N V) as T'.
  destruct (finished _ _ _ _ _ _ _ T' R) as (X & Y). split; [exact X|].
  intros w Hw. apply Y. destruct Hw as [->|Hw]; [now right|now left].
Qed.
