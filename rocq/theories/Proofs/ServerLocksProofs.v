(** Lemmas about the locks of a server. *)
From Coq Require Import List Bool Arith Lia.
From Verif Require Import Model.ServerLocks Spec.ServerLocksSpec.
Import ListNotations.

Lemma lock_eqb_spec : forall a b, reflect (a = b) (lock_eqb a b).
Proof. intros [] []; constructor; congruence. Qed.
Lemma lock_eqb_refl : forall a, lock_eqb a a = true.
Proof. now intros []. Qed.

Lemma nth_set : forall l i a j, nth_error (set_nth i a l) j =
  if j =? i then match nth_error l j with Some _ => Some a | None => None end else nth_error l j.
Proof.
  induction l as [|b l IH]; intros [|i] a [|j]; cbn; try reflexivity.
  - now destruct (j =? i).
  - apply IH.
Qed.
Lemma nth_set_some : forall l i a j b, nth_error (set_nth i a l) j = Some b ->
  (j = i /\ b = a) \/ (j <> i /\ nth_error l j = Some b).
Proof.
  intros l i a j b H. rewrite nth_set in H. destruct (Nat.eqb_spec j i) as [->|N]; [|now right].
  left. destruct (nth_error l i); [|discriminate]. now injection H as <-.
Qed.
Lemma set_length : forall l i a, length (set_nth i a l) = length l.
Proof. induction l as [|b l IH]; intros [|i] a; cbn; auto. Qed.

Lemma queue_same : forall l q f, set_queue l q f l = q.
Proof. intros. unfold set_queue. now rewrite lock_eqb_refl. Qed.
Lemma queue_other : forall l k q f, k <> l -> set_queue l q f k = f k.
Proof. intros l k q f N. unfold set_queue. now destruct (lock_eqb_spec k l). Qed.

Lemma waiting_iff : forall i q, waiting i q = true <-> exists m, In (i, m) q.
Proof.
  intros i q. unfold waiting. rewrite existsb_exists. split.
  - intros ((j, m) & H & E). apply Nat.eqb_eq in E. cbn in E. subst. now exists m.
  - intros (m & H). exists (i, m). split; [exact H|apply Nat.eqb_refl].
Qed.

Lemma available_iff : forall l m s, available l m s = true <->
  forall j t n, nth_error (tasks s) j = Some t -> In (l, n) (held t) -> m = Read /\ n = Read.
Proof.
  intros l m s. unfold available. rewrite negb_true_iff. split.
  - intros H j t n Hj Hn. apply not_true_iff_false in H.
    destruct m, n; try (split; reflexivity); exfalso; apply H; apply existsb_exists; exists t;
      (split; [exact (nth_error_In _ _ Hj)|]); apply existsb_exists;
      [exists (l, Write)|exists (l, Read)|exists (l, Write)]; (split; [exact Hn|]); unfold conflicts; cbn;
      now rewrite lock_eqb_refl.
  - intros H. apply not_true_iff_false. intros E. apply existsb_exists in E.
    destruct E as (t & Ht & E). apply existsb_exists in E. destruct E as ((k, n) & Hk & E).
    unfold conflicts in E. apply andb_prop in E. cbn in E. destruct E as (E & F).
    destruct (lock_eqb_spec k l) as [->|]; [|discriminate].
    apply In_nth_error in Ht. destruct Ht as (j & Hj). destruct (H j t n Hj Hk) as (-> & ->).
    discriminate.
Qed.

(** ** The requests that wait. *)

Record queued (s : state) : Prop := {
  q_asks : forall l i m, In (i, m) (queue s l) ->
    exists h r, nth_error (tasks s) i = Some (Task h (Acquire l m :: r));
  q_once : forall l, NoDup (map fst (queue s l))
}.

Lemma NoDup_fst_filter : forall (f : nat * mode -> bool) q, NoDup (map fst q) ->
  NoDup (map fst (filter f q)).
Proof.
  intros f q. induction q as [|p q IH]; intros H; [constructor|]. cbn in *.
  apply NoDup_cons_iff in H. destruct H as (H1 & H2). destruct (f p); [|now apply IH].
  cbn. constructor; [|now apply IH]. intros E. apply H1. apply in_map_iff in E.
  destruct E as (x & E & Hx). apply filter_In in Hx. apply in_map_iff. exists x. tauto.
Qed.

Lemma NoDup_add : forall q i m, NoDup (map fst q) -> waiting i q = false ->
  NoDup (map fst (q ++ [(i, m)])).
Proof.
  intros q i m H W. induction q as [|(j, n) q IH]; cbn in *; [repeat constructor; auto|].
  apply NoDup_cons_iff in H. destruct H as (H1 & H2). apply orb_false_iff in W. destruct W as (W1 & W2).
  constructor; [|now apply IH]. rewrite map_app, in_app_iff. cbn. intros [E|[E|[]]]; [now apply H1|].
  subst. now rewrite Nat.eqb_refl in W1.
Qed.

(** The tasks other than [i] are as before, and [i] did not wait. *)
Lemma queued_keep : forall s i t a, queued s -> nth_error (tasks s) i = Some t ->
  (forall l m h r, t = Task h (Acquire l m :: r) -> waiting i (queue s l) = false) ->
  forall l j m, In (j, m) (queue s l) ->
  exists h r, nth_error (set_nth i a (tasks s)) j = Some (Task h (Acquire l m :: r)).
Proof.
  intros s i t a Q Hi Hw l j m Hj. destruct (q_asks _ Q _ _ _ Hj) as (h & r & H).
  exists h, r. rewrite nth_set. destruct (Nat.eqb_spec j i) as [->|]; [|exact H].
  rewrite Hi in H. injection H as ->. specialize (Hw _ _ _ _ eq_refl).
  assert (waiting i (queue s l) = true) by (apply waiting_iff; now exists m). congruence.
Qed.

Lemma queued_step : forall e s s', queued s -> step e s = Some s' -> queued s'.
Proof.
  intros e s s' Q H. destruct e as [i|l|i|i|i]; cbn [step] in H.
  - destruct (nth_error (tasks s) i) as [[h [|[l m|l|] r]]|] eqn:Hi; try discriminate.
    destruct (waiting i (queue s l)) eqn:W; [discriminate|].
    assert (A : queued (State (tasks s) (set_queue l (queue s l ++ [(i, m)]) (queue s)))).
    { constructor; cbn.
      - intros k j n Hj. destruct (lock_eqb_spec k l) as [->|N].
        + rewrite queue_same in Hj. apply in_app_iff in Hj. destruct Hj as [Hj|[E|[]]].
          * exact (q_asks _ Q _ _ _ Hj).
          * injection E as <- <-. now exists h, r.
        + rewrite queue_other in Hj by exact N. exact (q_asks _ Q _ _ _ Hj).
      - intros k. destruct (lock_eqb_spec k l) as [->|N].
        + rewrite queue_same. apply NoDup_add; [apply (q_once _ Q)|exact W].
        + rewrite queue_other by exact N. apply (q_once _ Q). }
    destruct (queue s l) as [|p q] eqn:E; [|now injection H as <-].
    destruct (available l m s); injection H as <-; [|exact A].
    constructor; cbn; [|apply (q_once _ Q)].
    apply (queued_keep s i _ _ Q Hi). intros k n h' r' E'. injection E' as _ -> -> _. now rewrite E.
  - destruct (queue s l) as [|(i, m) q] eqn:E; [discriminate|].
    destruct (nth_error (tasks s) i) as [[h [|a r]]|] eqn:Hi; try discriminate.
    destruct (available l m s); [|discriminate]. injection H as <-. pose proof (q_once _ Q l) as N.
    rewrite E in N. cbn in N. apply NoDup_cons_iff in N. destruct N as (N1 & N2).
    destruct (q_asks _ Q l i m) as (h' & r' & E'); [rewrite E; now left|]. rewrite Hi in E'.
    injection E' as <- -> <-. constructor; cbn.
    + intros k j n Hj.
      assert (X : j <> i).
      { intros ->. destruct (lock_eqb_spec k l) as [->|Nk].
        - rewrite queue_same in Hj. apply N1. now apply (in_map fst) in Hj.
        - rewrite queue_other in Hj by exact Nk. destruct (q_asks _ Q _ _ _ Hj) as (? & ? & Y).
          rewrite Hi in Y. injection Y as _ <- _ _. now apply Nk. }
      assert (Y : In (j, n) (queue s k)).
      { destruct (lock_eqb_spec k l) as [->|Nk]; [rewrite queue_same in Hj; rewrite E; now right|].
        now rewrite queue_other in Hj by exact Nk. }
      destruct (q_asks _ Q _ _ _ Y) as (h1 & r1 & Z). exists h1, r1. rewrite nth_set.
      now destruct (Nat.eqb_spec j i).
    + intros k. destruct (lock_eqb_spec k l) as [->|Nk]; [now rewrite queue_same|].
      rewrite queue_other by exact Nk. apply (q_once _ Q).
  - destruct (nth_error (tasks s) i) as [[h [|[l m|l|] r]]|] eqn:Hi; try discriminate;
      injection H as <-; (constructor; cbn; [|apply (q_once _ Q)]);
      (apply (queued_keep s i _ _ Q Hi); discriminate).
  - destruct (nth_error (tasks s) i) as [[h [|[l m|l|] r]]|] eqn:Hi; try discriminate;
      injection H as <-; (constructor; cbn; [|apply (q_once _ Q)]);
      (apply (queued_keep s i _ _ Q Hi); discriminate).
  - destruct (nth_error (tasks s) i) as [[h [|a r]]|] eqn:Hi; try discriminate. injection H as <-.
    constructor; cbn.
    + intros k j n Hj. apply filter_In in Hj. destruct Hj as (Hj & X). cbn in X.
      destruct (q_asks _ Q _ _ _ Hj) as (h1 & r1 & Z). exists h1, r1. rewrite nth_set.
      now destruct (j =? i).
    + intros k. apply NoDup_fst_filter, (q_once _ Q).
Qed.

Lemma queued_start : forall programs, queued (start programs).
Proof. intros ps. constructor; cbn; [intros l i m []|constructor]. Qed.

Lemma run_invariant : forall (I : state -> Prop),
  (forall e s s', I s -> step e s = Some s' -> I s') ->
  forall events s s', I s -> run events s = Some s' -> I s'.
Proof.
  intros I HI. induction events as [|e events IH]; intros s s' H R; cbn in R.
  - now injection R as <-.
  - destruct (step e s) as [s1|] eqn:E; [|discriminate]. exact (IH s1 s' (HI e s s1 H E) R).
Qed.

Lemma run_app : forall a b s, run (a ++ b) s = match run a s with Some s' => run b s' | None => None end.
Proof. induction a as [|e a IH]; intros b s; cbn; [reflexivity|]. destruct (step e s); auto. Qed.

(** ** Writers hold a lock alone. *)

Definition exclusive (s : state) : Prop :=
  forall i j t u l m, i <> j -> nth_error (tasks s) i = Some t -> nth_error (tasks s) j = Some u ->
  In (l, Write) (held t) -> ~ In (l, m) (held u).

Lemma released_in : forall l h p, In p (released l h) -> In p h.
Proof.
  intros l h p. induction h as [|q h IH]; cbn; [auto|]. destruct (lock_eqb (fst q) l); [auto|].
  intros [E|H]; [now left|right; auto].
Qed.

(** Task [i] holds at most what it held. *)
Lemma exclusive_less : forall s i t a q, exclusive s -> nth_error (tasks s) i = Some t ->
  incl (held a) (held t) -> exclusive (State (set_nth i a (tasks s)) q).
Proof.
  intros s i t a q X Hi I j k u v l m N Hj Hk Hu Hv. cbn in Hj, Hk.
  apply nth_set_some in Hj, Hk. destruct Hj as [(-> & ->)|(Nj & Hj)], Hk as [(-> & ->)|(Nk & Hk)].
  - now apply N.
  - exact (X i k t v l m N Hi Hk (I _ Hu) Hv).
  - exact (X j i u t l m N Hj Hi Hu (I _ Hv)).
  - exact (X j k u v l m N Hj Hk Hu Hv).
Qed.

Lemma exclusive_more : forall s i h r l m q r', exclusive s -> nth_error (tasks s) i = Some (Task h r) ->
  available l m s = true -> exclusive (State (set_nth i (Task ((l, m) :: h) r') (tasks s)) q).
Proof.
  intros s i h r l m q r' X Hi A j k u v l' m' N Hj Hk Hu Hv. cbn in Hj, Hk.
  rewrite available_iff in A.
  apply nth_set_some in Hj, Hk. destruct Hj as [(-> & ->)|(Nj & Hj)], Hk as [(-> & ->)|(Nk & Hk)].
  - now apply N.
  - cbn in Hu. destruct Hu as [E|Hu]; [|exact (X i k _ v l' m' N Hi Hk Hu Hv)].
    injection E as -> ->. destruct (A k v m' Hk Hv). discriminate.
  - cbn in Hv. destruct Hv as [E|Hv]; [|exact (X j i u _ l' m' N Hj Hi Hu Hv)].
    injection E as -> ->. destruct (A j u Write Hj Hu). discriminate.
  - exact (X j k u v l' m' N Hj Hk Hu Hv).
Qed.

Lemma exclusive_step : forall e s s', exclusive s -> step e s = Some s' -> exclusive s'.
Proof.
  intros e s s' X H. destruct e as [i|l|i|i|i]; cbn [step] in H.
  - destruct (nth_error (tasks s) i) as [[h [|[l m|l|] r]]|] eqn:Hi; try discriminate.
    destruct (waiting i (queue s l)); [discriminate|].
    destruct (queue s l); [|injection H as <-; exact X].
    destruct (available l m s) eqn:A; injection H as <-; [|exact X].
    exact (exclusive_more s i _ _ l m _ r X Hi A).
  - destruct (queue s l) as [|(i, m) q]; [discriminate|].
    destruct (nth_error (tasks s) i) as [[h [|a r]]|] eqn:Hi; try discriminate.
    destruct (available l m s) eqn:A; [|discriminate]. injection H as <-.
    exact (exclusive_more s i _ _ l m _ r X Hi A).
  - destruct (nth_error (tasks s) i) as [[h [|[l m|l|] r]]|] eqn:Hi; try discriminate;
      injection H as <-; apply (exclusive_less s i _ _ _ X Hi); cbn; [|apply incl_refl].
    intros p. apply released_in.
  - destruct (nth_error (tasks s) i) as [[h [|[l m|l|] r]]|] eqn:Hi; try discriminate;
      injection H as <-; apply (exclusive_less s i _ _ _ X Hi); cbn; apply incl_refl.
  - destruct (nth_error (tasks s) i) as [[h [|a r]]|] eqn:Hi; try discriminate;
      injection H as <-; apply (exclusive_less s i _ _ _ X Hi); cbn; apply incl_nil_l.
Qed.

Lemma never_shared : forall programs events s, run events (start programs) = Some s ->
  ~ shared_write s.
Proof.
  intros ps events s R (i & j & t & u & l & m & N & Hi & Hj & Hw & Hm).
  refine (run_invariant exclusive exclusive_step events (start ps) s _ R i j t u l m N Hi Hj Hw Hm).
  intros i' j' t' u' l' m' _ Hi' _ H. cbn in Hi'. rewrite nth_error_map in Hi'.
  destruct (nth_error ps i'); [|discriminate]. injection Hi' as <-. destruct H.
Qed.

(** ** Programs that acquire locks in an order. *)

Section Order.
Variable contended : lock -> bool.
Variable rank : lock -> nat.

Fixpoint ordered (h : list (lock * mode)) (p : list action) : Prop :=
  match p with
  | [] => h = []
  | Work :: p => ordered h p
  | Release l :: p => ordered (released l h) p
  | Acquire l m :: p =>
      (m = Write -> contended l = true)
      /\ (contended l = true -> forall k n, In (k, n) h -> contended k = true -> rank k < rank l)
      /\ ordered ((l, m) :: h) p
  end.

Lemma released_length : forall l h, length h <= S (length (released l h)).
Proof.
  intros l h. induction h as [|p h IH]; cbn; [lia|]. destruct (lock_eqb (fst p) l); cbn; lia.
Qed.

Lemma ordered_length : forall p h, ordered h p -> length h <= length p.
Proof.
  induction p as [|[l m|l|] p IH]; intros h H; cbn in *.
  - now subst.
  - destruct H as (_ & _ & H). apply IH in H. cbn in H. lia.
  - apply IH in H. pose proof (released_length l h). lia.
  - apply IH in H. lia.
Qed.

Lemma ordered_releases : forall h, ordered h (map (fun p => Release (fst p)) h).
Proof.
  induction h as [|(l, m) h IH]; cbn; [reflexivity|]. now rewrite lock_eqb_refl.
Qed.

Definition good (t : task) : Prop :=
  ordered (held t) (rest t) /\ forall l, In (l, Write) (held t) -> contended l = true.
Definition all_good (s : state) : Prop := forall i t, nth_error (tasks s) i = Some t -> good t.

Lemma good_set : forall s i a q, all_good s -> good a -> all_good (State (set_nth i a (tasks s)) q).
Proof.
  intros s i a q G A j t Hj. cbn in Hj. apply nth_set_some in Hj.
  destruct Hj as [(_ & ->)|(_ & Hj)]; [exact A|exact (G j t Hj)].
Qed.

Lemma good_acquired : forall l m h r, good (Task h (Acquire l m :: r)) -> good (Task ((l, m) :: h) r).
Proof.
  intros l m h r ((H1 & H2 & H3) & W). split; [exact H3|]. cbn. intros k [E|H]; [|exact (W k H)].
  injection E as -> ->. now apply H1.
Qed.

Lemma good_step : forall e s s', queued s -> all_good s -> step e s = Some s' -> all_good s'.
Proof.
  intros e s s' Q G H. destruct e as [i|l|i|i|i]; cbn [step] in H.
  - destruct (nth_error (tasks s) i) as [[h [|[l m|l|] r]]|] eqn:Hi; try discriminate.
    destruct (waiting i (queue s l)); [discriminate|].
    destruct (queue s l); [|injection H as <-; exact G].
    destruct (available l m s) eqn:A; injection H as <-; [|exact G].
    apply good_set; [exact G|]. exact (good_acquired l m h r (G i _ Hi)).
  - destruct (queue s l) as [|(i, m) q] eqn:E; [discriminate|].
    destruct (q_asks _ Q l i m) as (h & r & Hi); [rewrite E; now left|]. rewrite Hi in H.
    destruct (available l m s) eqn:A; [|discriminate]. injection H as <-.
    apply good_set; [exact G|]. exact (good_acquired l m h r (G i _ Hi)).
  - destruct (nth_error (tasks s) i) as [[h [|[l m|l|] r]]|] eqn:Hi; try discriminate;
      injection H as <-; (apply good_set; [exact G|]); destruct (G i _ Hi) as (H & W); (split; [exact H|]).
    + intros k Hk. apply W. cbn in *. exact (released_in _ _ _ Hk).
    + exact W.
  - destruct (nth_error (tasks s) i) as [[h [|[l m|l|] r]]|] eqn:Hi; try discriminate.
    injection H as <-. apply good_set; [exact G|]. destruct (G i _ Hi) as (H & W).
    split; [apply ordered_releases|exact W].
  - destruct (nth_error (tasks s) i) as [[h [|a r]]|] eqn:Hi; try discriminate. injection H as <-.
    apply good_set; [exact G|]. split; [reflexivity|intros l []].
Qed.

Lemma good_run : forall programs events s, Forall (ordered []) programs ->
  run events (start programs) = Some s -> queued s /\ all_good s.
Proof.
  intros ps events s F. apply (run_invariant (fun s => queued s /\ all_good s)).
  - intros e s1 s2 (Q & G) H. split; [exact (queued_step _ _ _ Q H)|exact (good_step _ _ _ Q G H)].
  - split; [apply queued_start|]. intros i t Hi. cbn in Hi. rewrite nth_error_map in Hi.
    destruct (nth_error ps i) as [p|] eqn:E; [|discriminate]. injection Hi as <-.
    split; [|intros l []]. cbn. rewrite Forall_forall in F. apply F. exact (nth_error_In _ _ E).
Qed.

Section Blocked.
Variable s : state.
Hypothesis Q : queued s.
Hypothesis G : all_good s.
Hypothesis B : blocked s.

(** A request that is not answered waits. *)
Lemma blocked_waits : forall i h a r, nth_error (tasks s) i = Some (Task h (a :: r)) ->
  exists l m, a = Acquire l m /\ queue s l <> [].
Proof.
  intros i h a r Hi. pose proof (B (Ask i) eq_refl) as HA. pose proof (B (Continue i) eq_refl) as HC.
  cbn in HA, HC. rewrite Hi in HA, HC. destruct a as [l m|l|]; try discriminate.
  exists l, m. split; [reflexivity|]. intros E. rewrite E in HA. cbn in HA.
  destruct (available l m s); discriminate.
Qed.

(** The first that waits has to wait. *)
Lemma blocked_first : forall l i m q, queue s l = (i, m) :: q -> available l m s = false.
Proof.
  intros l i m q E. pose proof (B (Grant l) eq_refl) as H. cbn in H. rewrite E in H.
  destruct (q_asks _ Q l i m) as (h & r & Hi); [rewrite E; now left|]. rewrite Hi in H.
  destruct (available l m s); [discriminate|reflexivity].
Qed.

Lemma blocked_contended : forall l, queue s l <> [] -> contended l = true.
Proof.
  intros l N. destruct (queue s l) as [|(i, m) q] eqn:E; [contradiction|].
  destruct (contended l) eqn:C; [reflexivity|]. pose proof (blocked_first l i m q E) as F.
  assert (available l m s = true); [|congruence]. apply available_iff. intros j t n Hj Hn.
  destruct (q_asks _ Q l i m) as (h & r & Hi); [rewrite E; now left|].
  destruct (G i _ Hi) as ((W & _) & _), (G j _ Hj) as (_ & V). split.
  - destruct m; [reflexivity|]. rewrite (W eq_refl) in C. discriminate.
  - destruct n; [reflexivity|]. rewrite (V l Hn) in C. discriminate.
Qed.

Lemma nothing_queued : forall b, (forall l, rank l < b) -> forall n l, b - rank l <= n -> queue s l = [].
Proof.
  intros b Hb. induction n as [|n IH]; intros l Hl; [specialize (Hb l); lia|].
  destruct (queue s l) as [|(i, m) q] eqn:E; [reflexivity|]. exfalso.
  assert (C : contended l = true) by (apply blocked_contended; congruence).
  pose proof (blocked_first l i m q E) as F. apply not_true_iff_false in F. apply F.
  apply available_iff. intros j [h r] k Hj Hk. exfalso. cbn in Hk.
  destruct (G j _ Hj) as (O & _). cbn in O. destruct r as [|a r]; [cbn in O; subst; destruct Hk|].
  destruct (blocked_waits j h a r Hj) as (l' & m' & -> & N).
  pose proof (blocked_contended l' N) as C'. destruct O as (_ & O & _).
  specialize (O C' l k Hk C). apply N. apply IH. lia.
Qed.

Lemma blocked_answered : forall b, (forall l, rank l < b) -> all_answered s.
Proof.
  intros b Hb. apply Forall_forall. intros [h r] Ht. apply In_nth_error in Ht. destruct Ht as (i & Hi).
  destruct r as [|a r]; [reflexivity|]. destruct (blocked_waits i h a r Hi) as (l & m & _ & N).
  destruct N. exact (nothing_queued b Hb b l ltac:(lia)).
Qed.
End Blocked.
End Order.
