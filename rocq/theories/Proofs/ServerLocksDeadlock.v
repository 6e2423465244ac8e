(** Requests to a server that wait for each other forever. *)
From Coq Require Import List Bool Arith Lia.
From Verif Require Import Model.ServerLocks Spec.ServerLocksSpec Proofs.ServerLocksProofs
  Proofs.ServerLocksOrder.
Import ListNotations.

(** ** Requests that wait for each other keep waiting. *)

(** The first request that waits for [l] and one that holds it are among [S]. *)
Definition jammed (S : list (nat * lock)) (s : state) (l : lock) : Prop :=
  exists j n q k t o, queue s l = (j, n) :: q /\ In (j, l) S /\ In k (map fst S)
    /\ nth_error (tasks s) k = Some t /\ In (l, o) (held t) /\ (n = Write \/ o = Write).
Definition stuck (S : list (nat * lock)) (s : state) : Prop :=
  forall i l, In (i, l) S -> (exists m, In (i, m) (queue s l)) /\ jammed S s l.

Lemma jammed_unavailable : forall S s l j n q, jammed S s l -> queue s l = (j, n) :: q ->
  available l n s = false.
Proof.
  intros S s l j n q (j' & n' & q' & k & t & o & E & _ & _ & Hk & Ho & C) E'. rewrite E in E'.
  injection E' as -> -> _. apply not_true_iff_false. rewrite available_iff. intros A.
  destruct (A k t o Hk Ho) as (-> & ->). destruct C; discriminate.
Qed.

Lemma stuck_asks : forall S s i l, queued s -> stuck S s -> In (i, l) S ->
  exists h m r, nth_error (tasks s) i = Some (Task h (Acquire l m :: r)).
Proof.
  intros S s i l Q K H. destruct (K i l H) as ((m & I) & _). destruct (q_asks _ Q _ _ _ I) as (h & r & E).
  now exists h, m, r.
Qed.

Lemma in_fst : forall (S : list (nat * lock)) i, In i (map fst S) -> exists l, In (i, l) S.
Proof. intros S i H. apply in_map_iff in H. destruct H as ((j, l) & <- & H). now exists l. Qed.

Definition cancels (S : list (nat * lock)) (e : event) : Prop :=
  match e with Cancel i => In i (map fst S) | _ => False end.

(** What an event changes. *)
Lemma stuck_keep : forall S s s', stuck S s ->
  (forall i, In i (map fst S) -> nth_error (tasks s') i = nth_error (tasks s) i) ->
  (forall l, jammed S s l -> (forall i m, In i (map fst S) -> In (i, m) (queue s l) -> In (i, m) (queue s' l))
     /\ forall j n q, In j (map fst S) -> queue s l = (j, n) :: q -> exists q', queue s' l = (j, n) :: q') ->
  stuck S s'.
Proof.
  intros S s s' K T Qs i l H. destruct (K i l H) as ((m & I) & J). destruct (Qs l J) as (Q1 & Q2).
  assert (Hi : In i (map fst S)) by (apply in_map_iff; now exists (i, l)).
  split; [exists m; now apply Q1|].
  destruct J as (j & n & q & k & t & o & E & Hj & Hk & Ht & Ho & C).
  assert (Hj' : In j (map fst S)) by (apply in_map_iff; now exists (j, l)).
  destruct (Q2 j n q Hj' E) as (q' & E'). exists j, n, q', k, t, o. split; [exact E'|]. split; [exact Hj|].
  split; [exact Hk|]. split; [now rewrite T|]. now split.
Qed.

(** The request does not change, since it is not one that waits. *)
Lemma stuck_other : forall S s i t, queued s -> stuck S s -> nth_error (tasks s) i = Some t ->
  (forall l m h r, t = Task h (Acquire l m :: r) -> jammed S s l -> ~ In i (map fst S)) ->
  forall j a, In j (map fst S) -> nth_error (set_nth i a (tasks s)) j = nth_error (tasks s) j.
Proof.
  intros S s i t Q K Hi Hn j a Hj. rewrite nth_set. destruct (Nat.eqb_spec j i) as [->|]; [|reflexivity].
  exfalso. destruct (in_fst S i Hj) as (l & H). destruct (stuck_asks S s i l Q K H) as (h & m & r & E).
  rewrite Hi in E. injection E as ->. destruct (K i l H) as (_ & J). exact (Hn l m h r eq_refl J Hj).
Qed.

Lemma stuck_step : forall S e s s', queued s -> stuck S s -> ~ cancels S e -> step e s = Some s' ->
  stuck S s'.
Proof.
  intros S e s s' Q K N H. destruct e as [i|l|i|i|i]; cbn [step] in H.
  - destruct (nth_error (tasks s) i) as [[h [|[l m|l|] r]]|] eqn:Hi; try discriminate.
    destruct (waiting i (queue s l)) eqn:W; [discriminate|].
    assert (A : forall q, stuck S (State (tasks s) (set_queue l (queue s l ++ q) (queue s)))).
    { intros q. apply (stuck_keep S s); [exact K|reflexivity|]. cbn. intros k J.
      destruct (lock_eqb_spec k l) as [->|Nk].
      - rewrite queue_same. split; [intros; apply in_app_iff; now left|]. intros j n q' _ ->. now eexists.
      - rewrite queue_other by exact Nk. split; [auto|]. intros j n q' _ ->. now eexists. }
    destruct (queue s l) as [|p q] eqn:E; [|injection H as <-; exact (A [(i, m)])].
    destruct (available l m s); injection H as <-; [|exact (A [(i, m)])].
    apply (stuck_keep S s); [exact K| |].
    + cbn. intros j Hj. apply (stuck_other S s i _ Q K Hi); [|exact Hj].
      intros k n h' r' E' (j' & n' & q' & _ & _ & _ & Eq & _). injection E' as _ -> _ _.
      rewrite E in Eq. discriminate.
    + cbn. intros k J. split; [auto|]. intros j n q' _ ->. now eexists.
  - destruct (queue s l) as [|(i, m) q] eqn:E; [discriminate|].
    destruct (nth_error (tasks s) i) as [[h [|a r]]|] eqn:Hi; try discriminate.
    destruct (available l m s) eqn:A; [|discriminate]. injection H as <-.
    assert (NJ : ~ jammed S s l).
    { intros J. rewrite (jammed_unavailable S s l i m q J E) in A. discriminate. }
    destruct (q_asks _ Q l i m) as (h' & r' & E'); [rewrite E; now left|]. rewrite Hi in E'.
    injection E' as <- -> <-.
    apply (stuck_keep S s); [exact K| |].
    + cbn. intros j Hj. apply (stuck_other S s i _ Q K Hi); [|exact Hj].
      intros k n h' r' E' J. injection E' as _ <- _ _. contradiction.
    + cbn. intros k J. destruct (lock_eqb_spec k l) as [->|Nk]; [contradiction|].
      rewrite queue_other by exact Nk. split; [auto|]. intros j n q' _ ->. now eexists.
  - destruct (nth_error (tasks s) i) as [[h [|[l m|l|] r]]|] eqn:Hi; try discriminate;
      injection H as <-; (apply (stuck_keep S s); [exact K| |]); cbn;
      try (intros j Hj; apply (stuck_other S s i _ Q K Hi); [discriminate|exact Hj]);
      intros k J; (split; [auto|]); intros j n q' _ ->; now eexists.
  - destruct (nth_error (tasks s) i) as [[h [|[l m|l|] r]]|] eqn:Hi; try discriminate;
      injection H as <-; (apply (stuck_keep S s); [exact K| |]); cbn;
      try (intros j Hj; apply (stuck_other S s i _ Q K Hi); [discriminate|exact Hj]);
      intros k J; (split; [auto|]); intros j n q' _ ->; now eexists.
  - destruct (nth_error (tasks s) i) as [[h [|a r]]|] eqn:Hi; try discriminate. injection H as <-.
    cbn in N. apply (stuck_keep S s); [exact K| |]; cbn.
    + intros j Hj. rewrite nth_set. destruct (Nat.eqb_spec j i) as [->|]; [contradiction|reflexivity].
    + intros k J. split.
      * intros j m Hj I. apply filter_In. split; [exact I|]. cbn.
        destruct (Nat.eqb_spec j i) as [->|]; [contradiction|reflexivity].
      * intros j n q Hj ->. cbn. destruct (Nat.eqb_spec j i) as [->|]; [contradiction|]. cbn. now eexists.
Qed.

(** A request that is about to ask for, or waits for, such a lock does not get it. *)
Definition wants (k : nat) (l : lock) (s : state) : Prop :=
  exists h m r, nth_error (tasks s) k = Some (Task h (Acquire l m :: r)).

Lemma wants_step : forall S e s s' k l, queued s -> jammed S s l -> wants k l s -> e <> Cancel k ->
  step e s = Some s' -> wants k l s'.
Proof.
  intros S e s s' k l Q J (h & m & r & Hk) N H.
  assert (A : forall i a, k <> i -> wants k l (State (set_nth i a (tasks s)) (queue s'))).
  { intros i a Ni. exists h, m, r. cbn. rewrite nth_set. now destruct (Nat.eqb_spec k i). }
  assert (A' : forall i a q, k <> i -> wants k l (State (set_nth i a (tasks s)) q)).
  { intros i a q Ni. exists h, m, r. cbn. rewrite nth_set. now destruct (Nat.eqb_spec k i). }
  assert (B : forall q, wants k l (State (tasks s) q)) by (intros q; now exists h, m, r).
  destruct e as [i|l'|i|i|i]; cbn [step] in H.
  - destruct (nth_error (tasks s) i) as [[h' [|[l' m'|l'|] r']]|] eqn:Hi; try discriminate.
    destruct (waiting i (queue s l')) eqn:W; [discriminate|].
    destruct (queue s l') as [|p q] eqn:E; [|injection H as <-; apply B].
    destruct (available l' m' s); injection H as <-; [|apply B]. apply A'. intros <-.
    rewrite Hk in Hi. injection Hi as _ <- _ _. destruct J as (? & ? & ? & ? & ? & ? & Eq & _). congruence.
  - destruct (queue s l') as [|(i, m') q] eqn:E; [discriminate|].
    destruct (nth_error (tasks s) i) as [[h' [|a r']]|] eqn:Hi; try discriminate.
    destruct (available l' m' s) eqn:V; [|discriminate]. injection H as <-. apply A'. intros <-.
    destruct (q_asks _ Q l' k m') as (h1 & r1 & E'); [rewrite E; now left|]. rewrite Hk in E'.
    injection E' as _ <- _ _. rewrite (jammed_unavailable S s l k m' q J E) in V. discriminate.
  - destruct (nth_error (tasks s) i) as [[h' [|[l' m'|l'|] r']]|] eqn:Hi; try discriminate;
      injection H as <-; apply A'; intros <-; congruence.
  - destruct (nth_error (tasks s) i) as [[h' [|[l' m'|l'|] r']]|] eqn:Hi; try discriminate;
      injection H as <-; apply A'; intros <-; congruence.
  - destruct (nth_error (tasks s) i) as [[h' [|a r']]|] eqn:Hi; try discriminate. injection H as <-.
    apply A'. intros <-. now apply N.
Qed.

Lemma wants_pending : forall k l s, wants k l s -> pending k s.
Proof. intros k l s (h & m & r & E). exists (Task h (Acquire l m :: r)). split; [exact E|discriminate]. Qed.

(** As long as the clients of [S] wait, nothing in [S] is answered, and nor are others. *)
Lemma stuck_forever : forall S later s s', queued s -> stuck S s ->
  (forall i, In i (map fst S) -> waits i later) -> run later s = Some s' ->
  queued s' /\ stuck S s'
  /\ forall k l, (exists i, In (i, l) S) -> wants k l s -> waits k later -> wants k l s'.
Proof.
  intros S later. induction later as [|e later IH]; intros s s' Q K N H; cbn [run] in H.
  - injection H as <-. split; [exact Q|]. split; [exact K|auto].
  - destruct (step e s) as [s1|] eqn:E; [|discriminate].
    assert (NC : ~ cancels S e).
    { destruct e; cbn; auto. intros I. apply (N i I). now left. }
    pose proof (queued_step _ _ _ Q E) as Q1. pose proof (stuck_step S e s s1 Q K NC E) as K1.
    destruct (IH s1 s' Q1 K1) as (Q' & K' & P).
    { intros i I X. apply (N i I). now right. }
    { exact H. }
    split; [exact Q'|]. split; [exact K'|]. intros k l (i & I) Wk Nk. apply P; [now exists i| |].
    + apply (wants_step S e s s1 k l Q); [exact (proj2 (K i l I))|exact Wk| |exact E].
      intros ->. apply Nk. now left.
    + intros X. apply Nk. now right.
Qed.

Lemma stuck_pending : forall S s i, queued s -> stuck S s -> In i (map fst S) -> pending i s.
Proof.
  intros S s i Q K I. destruct (in_fst S i I) as (l & H). apply (wants_pending i l).
  exact (stuck_asks S s i l Q K H).
Qed.

(** ** A request that nothing else interferes with. *)

Fixpoint alone (g h : list (lock * mode)) (p : list action) : Prop :=
  match p with
  | [] => True
  | Work :: p => alone g h p
  | Release l :: p => alone g (released l h) p
  | Acquire l m :: p =>
      (forall n, In (l, n) g \/ In (l, n) h -> m = Read /\ n = Read) /\ alone g ((l, m) :: h) p
  end.
Fixpoint after (h : list (lock * mode)) (p : list action) : list (lock * mode) :=
  match p with
  | [] => h
  | Work :: p => after h p
  | Release l :: p => after (released l h) p
  | Acquire l m :: p => after ((l, m) :: h) p
  end.

Lemma set_twice : forall l i a b, set_nth i a (set_nth i b l) = set_nth i a l.
Proof. induction l as [|c l IH]; intros [|i] a b; cbn; [reflexivity..|now rewrite IH]. Qed.
Lemma set_same : forall l i a, nth_error l i = Some a -> set_nth i a l = l.
Proof. induction l as [|c l IH]; intros [|i] a H; cbn in *; [congruence|congruence|congruence|now rewrite IH]. Qed.

Lemma alone_runs : forall p g h s i r, nth_error (tasks s) i = Some (Task h (p ++ r)) ->
  (forall l, queue s l = []) -> alone g h p ->
  (forall j t x, j <> i -> nth_error (tasks s) j = Some t -> In x (held t) -> In x g) ->
  exists events, Forall (fun e => proceeds e = true) events
    /\ run events s = Some (State (set_nth i (Task (after h p) r) (tasks s)) (queue s)).
Proof.
  induction p as [|a p IH]; intros g h s i r Hi Hq A O.
  - exists []. split; [constructor|]. cbn [after run]. cbn in Hi. rewrite (set_same _ _ _ Hi). now destruct s.
  - assert (X : exists e h', proceeds e = true
        /\ step e s = Some (State (set_nth i (Task h' (p ++ r)) (tasks s)) (queue s))
        /\ alone g h' p /\ after h (a :: p) = after h' p).
    { destruct a as [l m|l|]; cbn in A.
      - destruct A as (A1 & A2). exists (Ask i), ((l, m) :: h). split; [reflexivity|].
        split; [|now split]. cbn [step]. rewrite Hi. cbn [app]. rewrite (Hq l). cbn [waiting existsb].
        replace (available l m s) with true; [reflexivity|]. symmetry. apply available_iff.
        intros j t n Hj Hn. destruct (Nat.eq_dec j i) as [->|Nj].
        + rewrite Hi in Hj. injection Hj as <-. apply A1. now right.
        + apply A1. left. exact (O j t _ Nj Hj Hn).
      - exists (Continue i), (released l h). split; [reflexivity|]. cbn [step]. rewrite Hi. now split.
      - exists (Continue i), h. split; [reflexivity|]. cbn [step]. rewrite Hi. now split. }
    destruct X as (e & h' & P & E & A' & Ea).
    destruct (IH g h' (State (set_nth i (Task h' (p ++ r)) (tasks s)) (queue s)) i r) as (events & F & R).
    + cbn. rewrite nth_set, Nat.eqb_refl, Hi. reflexivity.
    + exact Hq.
    + exact A'.
    + intros j t x Nj Hj. cbn in Hj. rewrite nth_set in Hj. destruct (Nat.eqb_spec j i); [contradiction|].
      now apply (O j t x).
    + exists (e :: events). split; [now constructor|]. cbn [run]. rewrite E, R. cbn [tasks queue].
      now rewrite set_twice, Ea.
Qed.

(** Composing what a request does alone. *)
Definition passes (g h : list (lock * mode)) (p : list action) : Prop := alone g h p /\ after h p = h.

Lemma alone_app : forall a b g h, alone g h a -> alone g (after h a) b -> alone g h (a ++ b).
Proof.
  induction a as [|[l m|l|] a IH]; intros b g h A B; cbn in *; auto. destruct A as (A1 & A2). split; auto.
Qed.
Lemma after_app : forall a b h, after h (a ++ b) = after (after h a) b.
Proof. induction a as [|[l m|l|] a IH]; intros b h; cbn; auto. Qed.

Lemma passes_nil : forall g h, passes g h [].
Proof. intros g h. now split. Qed.
Lemma passes_work : forall g h p, passes g h p -> passes g h (Work :: p).
Proof. intros g h p H. exact H. Qed.
Lemma passes_app : forall g h a b, passes g h a -> passes g h b -> passes g h (a ++ b).
Proof.
  intros g h a b (A1 & A2) (B1 & B2). split.
  - apply alone_app; [exact A1|now rewrite A2].
  - now rewrite after_app, A2.
Qed.
Lemma passes_repeat : forall g h p n, passes g h p -> passes g h (concat (repeat p n)).
Proof. intros g h p n N. induction n as [|n IH]; [apply passes_nil|]. cbn. now apply passes_app. Qed.
Lemma passes_flat_map : forall A g h (f : A -> list action) l, (forall x, In x l -> passes g h (f x)) ->
  passes g h (flat_map f l).
Proof.
  intros A g h f l. induction l as [|x l IH]; intros H; [apply passes_nil|]. cbn. apply passes_app.
  - apply H. now left.
  - apply IH. intros y Hy. apply H. now right.
Qed.
Lemma passes_under : forall g h l m body,
  (forall n, In (l, n) g \/ In (l, n) h -> m = Read /\ n = Read) ->
  passes g ((l, m) :: h) body -> passes g h (under l m body).
Proof.
  intros g h l m body C (B1 & B2). unfold under. split.
  - cbn. split; [exact C|]. apply alone_app; [exact B1|]. rewrite B2. cbn. exact I.
  - cbn. rewrite after_app, B2. cbn. now rewrite lock_eqb_refl.
Qed.
Lemma passes_logged : forall g h logging p, passes g h p -> passes g h (logged logging p).
Proof. intros g h [|] p N; [exact N|apply passes_nil]. Qed.

Ltac alone_cases :=
  intros; cbn in *;
  repeat match goal with
         | H : _ \/ _ |- _ => destruct H as [H|H]
         | H : (_, _) = (_, _) |- _ => first [discriminate H | injection H; intros; subst; clear H]
         | H : False |- _ => destruct H
         end; try discriminate; try (split; reflexivity).
Ltac passes_cases :=
  repeat match goal with
  | |- passes _ _ (_ ++ _) => apply passes_app
  | |- passes _ _ (Work :: _) => apply passes_work
  | |- passes _ _ [] => apply passes_nil
  | |- passes _ _ (logged _ _) => apply passes_logged
  | |- passes _ _ (concat (repeat _ _)) => apply passes_repeat
  | |- passes _ _ (under _ _ _) => apply passes_under; [alone_cases|]
  | |- passes _ _ (saves _ _) => unfold saves
  | |- passes _ _ (save _) => unfold save
  | |- passes _ _ (drop_from_engine _ _) => unfold drop_from_engine
  | |- passes _ _ (drop_table _ _ _) => unfold drop_table
  | |- passes _ _ (truncate_table _ _ _) => unfold truncate_table
  end.

(** ** Requests for the configuration by a request that holds it. *)

(** The request gets as far as asking for a lock, holding others. *)
Definition reaches (g : list (lock * mode)) (p : list action) (h : list (lock * mode)) (l : lock) (m : mode)
  : Prop := exists a b, p = a ++ Acquire l m :: b /\ alone g [] a /\ after [] a = h.

Lemma passes_held : forall g x a l m b, alone g [] [x] -> passes g (after [] [x]) a ->
  reaches g (x :: a ++ Acquire l m :: b) (after [] [x]) l m.
Proof.
  intros g x a l m b A (P1 & P2). exists (x :: a), b. split; [reflexivity|]. split.
  - change (x :: a) with ([x] ++ a). now apply alone_app.
  - change (x :: a) with ([x] ++ a). now rewrite after_app.
Qed.

Lemma series_reaches : forall logging r, of_series r = true ->
  reaches [] (program logging r) [(Configuration, Read)] Configuration Read.
Proof.
  intros logging r H. destruct r; try discriminate; cbn [of_series] in H.
  - cbn [program]. unfold under. cbn [app]. exists [Acquire Configuration Read; Work; Work]. eexists.
    split; [reflexivity|]. split; [cbn; split; [alone_cases|exact I]|reflexivity].
  - apply existsb_exists in H. destruct H as (([|], n) & H & E); [|discriminate]. clear E.
    apply in_split in H. destruct H as (t1 & t2 & ->). cbn [program]. unfold under at 1.
    rewrite flat_map_app. cbn [flat_map fst snd]. unfold drop_table at 2. unfold under at 1.
    set (pre := [Work] ++ flat_map (fun p => drop_table logging (fst p) (snd p)) t1
                ++ [Work] ++ drop_from_engine logging n ++ [Work]).
    match goal with |- reaches _ (_ :: ?x) _ _ _ =>
      assert (E : exists b, x = pre ++ Acquire Configuration Read :: b) end.
    { unfold pre. eexists. rewrite <- !app_assoc. cbn [app]. rewrite <- !app_assoc. reflexivity. }
    destruct E as (b & ->). apply (passes_held [] (Acquire Configuration Read)).
    + cbn. split; [alone_cases|exact I].
    + unfold pre. passes_cases. apply passes_flat_map. intros ([|], k) _; cbn [fst snd after]; passes_cases.
  - apply existsb_exists in H. destruct H as (([|], n) & H & E); [|discriminate]. clear E.
    apply in_split in H. destruct H as (t1 & t2 & ->). cbn [program]. unfold under at 1.
    rewrite flat_map_app. cbn [flat_map fst snd]. unfold truncate_table at 2. unfold under at 1.
    set (pre := [Work] ++ flat_map (fun p => truncate_table logging (fst p) (snd p)) t1
                ++ [Work] ++ drop_from_engine logging n ++ [Work]).
    match goal with |- reaches _ (_ :: ?x) _ _ _ =>
      assert (E : exists b, x = pre ++ Acquire Configuration Read :: b) end.
    { unfold pre. eexists. rewrite <- !app_assoc. cbn [app]. rewrite <- !app_assoc. reflexivity. }
    destruct E as (b & ->). apply (passes_held [] (Acquire Configuration Read)).
    + cbn. split; [alone_cases|exact I].
    + unfold pre. passes_cases. apply passes_flat_map. intros ([|], k) _; cbn [fst snd after]; passes_cases.
Qed.

Lemma kill_reaches : forall logging r g, kills r = true ->
  g = [] \/ g = [(Configuration, Read)] ->
  reaches g (program logging r) [(Storage, Write)] Configuration Read.
Proof.
  intros logging r g H G. destruct r; try discriminate. cbn [program]. unfold under at 1.
  set (pre := saves logging n ++ under Transfers Read [Work]).
  match goal with |- reaches _ (_ :: ?x) _ _ _ =>
    assert (E : exists b, x = pre ++ Acquire Configuration Read :: b) end.
  { unfold pre. eexists. rewrite <- !app_assoc. unfold under at 2. cbn [app]. reflexivity. }
  destruct E as (b & ->). apply (passes_held g (Acquire Storage Write)).
  - cbn. split; [destruct G as [-> | ->]; alone_cases|exact I].
  - unfold pre. cbn [after]. destruct G as [-> | ->]; passes_cases.
Qed.

Lemma tables_reach : forall logging r, of_tables r = true ->
  reaches [] (program logging r) [(Configuration, Read)] Storage Write.
Proof.
  intros logging r H. destruct r as [| |[|(b, n) t]|[|(b, n) t]| | | | | | | | | | | | | | | | |];
    try discriminate; cbn [program flat_map fst snd]; unfold drop_table, truncate_table, drop_from_engine, under;
    cbn [app]; exists [Acquire Configuration Read; Work; Work]; eexists;
    (split; [reflexivity|]); (split; [cbn; split; [alone_cases|exact I]|reflexivity]).
Qed.

Lemma updates_begins : forall logging r, updates r = true ->
  exists b, program logging r = Acquire Configuration Write :: b.
Proof. intros logging r H. destruct r; try discriminate; cbn [program]; unfold under; now eexists. Qed.
Lemma updates_storage_reaches : forall logging r, updates_storage r = true ->
  exists b, program logging r = Acquire Configuration Write :: Acquire Storage Write :: b.
Proof. intros logging r H. destruct r; try discriminate; cbn [program]; unfold under; cbn [app]; now eexists. Qed.

(** ** Reaching the deadlocks. *)

Lemma start_nth : forall ps i p, nth_error ps i = Some p ->
  nth_error (tasks (start ps)) i = Some (Task [] p).
Proof. intros ps i p H. cbn. rewrite nth_error_map, H. reflexivity. Qed.
Lemma start_held : forall ps j t x, nth_error (tasks (start ps)) j = Some t -> ~ In x (held t).
Proof.
  intros ps j t x H. cbn in H. rewrite nth_error_map in H. destruct (nth_error ps j); [|discriminate].
  injection H as <-. intros [].
Qed.

(** From the start, a request gets as far as asking for a lock. *)
Lemma start_reaches : forall ps i p h l m, nth_error ps i = Some p -> reaches [] p h l m ->
  exists events b, Forall (fun e => proceeds e = true) events
    /\ run events (start ps) = Some (State (set_nth i (Task h (Acquire l m :: b)) (tasks (start ps))) (fun _ => [])).
Proof.
  intros ps i p h l m Hi (a & b & -> & A & <-).
  destruct (alone_runs a [] [] (start ps) i (Acquire l m :: b)) as (events & F & R).
  - now apply start_nth.
  - reflexivity.
  - exact A.
  - intros j t x _ Hj Hx. destruct (start_held ps j t x Hj Hx).
  - now exists events, b.
Qed.

Lemma unavailable : forall s l m i t n, nth_error (tasks s) i = Some t -> In (l, n) (held t) ->
  m = Write \/ n = Write -> available l m s = false.
Proof.
  intros s l m i t n Hi Hn C. apply not_true_iff_false. rewrite available_iff. intros A.
  destruct (A i t n Hi Hn) as (-> & ->). destruct C; discriminate.
Qed.

Lemma twice_deadlock : forall logging requests i j r u, i <> j ->
  nth_error requests i = Some r -> nth_error requests j = Some u ->
  of_series r = true -> updates u = true ->
  exists events s, Forall (fun e => proceeds e = true) events
    /\ run events (start (map (program logging) requests)) = Some s
    /\ stuck [(i, Configuration); (j, Configuration)] s
    /\ forall k, k <> i -> nth_error (tasks s) k = nth_error (tasks (start (map (program logging) requests))) k.
Proof.
  intros logging rs i j r u N Hi Hj Hr Hu.
  assert (Pi : nth_error (map (program logging) rs) i = Some (program logging r)) by (rewrite nth_error_map, Hi; reflexivity).
  assert (Pj : nth_error (map (program logging) rs) j = Some (program logging u)) by (rewrite nth_error_map, Hj; reflexivity).
  destruct (start_reaches _ i _ _ _ _ Pi (series_reaches logging r Hr)) as (events & b & F & R).
  destruct (updates_begins logging u Hu) as (c & Ec).
  set (ts := set_nth i (Task [(Configuration, Read)] (Acquire Configuration Read :: b))
               (tasks (start (map (program logging) rs)))) in *.
  assert (Ti : nth_error ts i = Some (Task [(Configuration, Read)] (Acquire Configuration Read :: b))).
  { unfold ts. rewrite nth_set, Nat.eqb_refl, (start_nth _ _ _ Pi). reflexivity. }
  assert (Tj : nth_error ts j = Some (Task [] (Acquire Configuration Write :: c))).
  { unfold ts. rewrite nth_set. destruct (Nat.eqb_spec j i); [congruence|].
    rewrite (start_nth _ _ _ Pj), Ec. reflexivity. }
  set (s1 := State ts (fun _ => [])).
  assert (U : available Configuration Write s1 = false).
  { apply (unavailable s1 Configuration Write i _ Read Ti); [now left|now left]. }
  set (s2 := State ts (set_queue Configuration [(j, Write)] (fun _ => []))).
  assert (E1 : step (Ask j) s1 = Some s2).
  { cbn [step]. unfold s1 at 1. cbn [tasks]. rewrite Tj. unfold s1 at 1 2. cbn [queue].
    cbn [waiting existsb]. rewrite U. reflexivity. }
  set (s3 := State ts (set_queue Configuration [(j, Write); (i, Read)] (queue s2))).
  assert (E2 : step (Ask i) s2 = Some s3).
  { cbn [step]. unfold s2 at 1. cbn [tasks]. rewrite Ti. unfold s2 at 1 2. cbn [queue]. rewrite queue_same.
    cbn [waiting existsb fst orb]. destruct (Nat.eqb_spec j i); [congruence|]. reflexivity. }
  exists (events ++ [Ask j; Ask i]), s3. split.
  { apply Forall_app. split; [exact F|]. repeat constructor. }
  split. { rewrite run_app, R. fold s1. cbn [run]. now rewrite E1, E2. }
  split.
  - assert (J : jammed [(i, Configuration); (j, Configuration)] s3 Configuration).
    { exists j, Write, [(i, Read)], i, (Task [(Configuration, Read)] (Acquire Configuration Read :: b)), Read.
      split; [reflexivity|]. split; [right; now left|]. split; [now left|]. split; [exact Ti|].
      split; [now left|now left]. }
    intros k l [E|[E|[]]]; injection E as <- <-; (split; [|exact J]).
    + exists Read. cbn. right. now left.
    + exists Write. cbn. now left.
  - intros k Nk. cbn [s3 tasks]. unfold ts. rewrite nth_set. now destruct (Nat.eqb_spec k i).
Qed.

Lemma kill_deadlock : forall logging requests i j r u, i <> j ->
  nth_error requests i = Some r -> nth_error requests j = Some u ->
  kills r = true -> updates_storage u = true ->
  exists events s, Forall (fun e => proceeds e = true) events
    /\ run events (start (map (program logging) requests)) = Some s
    /\ stuck [(i, Configuration); (j, Storage)] s
    /\ forall k, k <> i -> k <> j ->
       nth_error (tasks s) k = nth_error (tasks (start (map (program logging) requests))) k.
Proof.
  intros logging rs i j r u N Hi Hj Hr Hu.
  assert (Pi : nth_error (map (program logging) rs) i = Some (program logging r)) by (rewrite nth_error_map, Hi; reflexivity).
  assert (Pj : nth_error (map (program logging) rs) j = Some (program logging u)) by (rewrite nth_error_map, Hj; reflexivity).
  destruct (start_reaches _ i _ _ _ _ Pi (kill_reaches logging r [] Hr (or_introl eq_refl))) as (events & b & F & R).
  destruct (updates_storage_reaches logging u Hu) as (c & Ec).
  set (ts := set_nth i (Task [(Storage, Write)] (Acquire Configuration Read :: b))
               (tasks (start (map (program logging) rs)))) in *.
  assert (Ti : nth_error ts i = Some (Task [(Storage, Write)] (Acquire Configuration Read :: b))).
  { unfold ts. rewrite nth_set, Nat.eqb_refl, (start_nth _ _ _ Pi). reflexivity. }
  assert (Tj : nth_error ts j = Some (Task [] (Acquire Configuration Write :: Acquire Storage Write :: c))).
  { unfold ts. rewrite nth_set. destruct (Nat.eqb_spec j i); [congruence|].
    rewrite (start_nth _ _ _ Pj), Ec. reflexivity. }
  set (s1 := State ts (fun _ => [])).
  assert (U : available Configuration Write s1 = true).
  { apply available_iff. intros k t n Hk Hn. exfalso. cbn [s1 tasks] in Hk. unfold ts in Hk.
    apply nth_set_some in Hk. destruct Hk as [(_ & ->)|(_ & Hk)]; [|exact (start_held _ _ _ _ Hk Hn)].
    cbn in Hn. destruct Hn as [Hn|[]]. discriminate. }
  set (ts2 := set_nth j (Task [(Configuration, Write)] (Acquire Storage Write :: c)) ts).
  set (s2 := State ts2 (fun _ => [])).
  assert (E1 : step (Ask j) s1 = Some s2).
  { cbn [step]. unfold s1 at 1. cbn [tasks]. rewrite Tj. unfold s1 at 1 2. cbn [queue].
    cbn [waiting existsb]. rewrite U. reflexivity. }
  assert (Ti2 : nth_error ts2 i = Some (Task [(Storage, Write)] (Acquire Configuration Read :: b))).
  { unfold ts2. rewrite nth_set. destruct (Nat.eqb_spec i j); [congruence|exact Ti]. }
  assert (Tj2 : nth_error ts2 j = Some (Task [(Configuration, Write)] (Acquire Storage Write :: c))).
  { unfold ts2. rewrite nth_set, Nat.eqb_refl, Tj. reflexivity. }
  assert (U2 : available Storage Write s2 = false).
  { apply (unavailable s2 Storage Write i _ Write Ti2); [now left|now left]. }
  set (s3 := State ts2 (set_queue Storage [(j, Write)] (fun _ => []))).
  assert (E2 : step (Ask j) s2 = Some s3).
  { cbn [step]. unfold s2 at 1. cbn [tasks]. rewrite Tj2. unfold s2 at 1 2. cbn [queue].
    cbn [waiting existsb]. rewrite U2. reflexivity. }
  assert (U3 : available Configuration Read s3 = false).
  { apply (unavailable s3 Configuration Read j _ Write Tj2); [now left|now right]. }
  set (s4 := State ts2 (set_queue Configuration [(i, Read)] (queue s3))).
  assert (E3 : step (Ask i) s3 = Some s4).
  { cbn [step]. unfold s3 at 1. cbn [tasks]. rewrite Ti2. unfold s3 at 1 2. cbn [queue].
    rewrite queue_other by discriminate. cbn [waiting existsb]. rewrite U3. reflexivity. }
  exists (events ++ [Ask j; Ask j; Ask i]), s4. split.
  { apply Forall_app. split; [exact F|]. repeat constructor. }
  split. { rewrite run_app, R. fold s1. cbn [run]. now rewrite E1, E2, E3. }
  split.
  - intros k l [E|[E|[]]]; injection E as <- <-.
    + split; [exists Read; cbn; now left|].
      exists i, Read, [], j, (Task [(Configuration, Write)] (Acquire Storage Write :: c)), Write.
      split; [reflexivity|]. split; [now left|]. split; [right; now left|]. split; [exact Tj2|].
      split; [now left|now right].
    + split; [exists Write; cbn; now left|].
      exists j, Write, [], i, (Task [(Storage, Write)] (Acquire Configuration Read :: b)), Write.
      split; [reflexivity|]. split; [right; now left|]. split; [now left|]. split; [exact Ti2|].
      split; [now left|now right].
  - intros k Nk Nj. cbn [s4 tasks]. unfold ts2, ts. rewrite !nth_set.
    destruct (Nat.eqb_spec k j); [congruence|]. now destruct (Nat.eqb_spec k i).
Qed.

Lemma three_deadlock : forall logging requests i j k r u d, i <> j -> i <> k -> j <> k ->
  nth_error requests i = Some r -> nth_error requests j = Some u -> nth_error requests k = Some d ->
  kills r = true -> updates u = true -> of_tables d = true ->
  exists events s, Forall (fun e => proceeds e = true) events
    /\ run events (start (map (program logging) requests)) = Some s
    /\ stuck [(i, Configuration); (j, Configuration); (k, Storage)] s
    /\ forall o, o <> i -> o <> k ->
       nth_error (tasks s) o = nth_error (tasks (start (map (program logging) requests))) o.
Proof.
  intros logging rs i j k r u d Nij Nik Njk Hi Hj Hk Hr Hu Hd.
  assert (Pi : nth_error (map (program logging) rs) i = Some (program logging r)) by (rewrite nth_error_map, Hi; reflexivity).
  assert (Pj : nth_error (map (program logging) rs) j = Some (program logging u)) by (rewrite nth_error_map, Hj; reflexivity).
  assert (Pk : nth_error (map (program logging) rs) k = Some (program logging d)) by (rewrite nth_error_map, Hk; reflexivity).
  destruct (start_reaches _ k _ _ _ _ Pk (tables_reach logging d Hd)) as (e1 & b & F1 & R1).
  set (ts := set_nth k (Task [(Configuration, Read)] (Acquire Storage Write :: b))
               (tasks (start (map (program logging) rs)))) in *.
  destruct (kill_reaches logging r [(Configuration, Read)] Hr (or_intror eq_refl)) as (a & c & Ea & Al & Af).
  assert (Ti : nth_error ts i = Some (Task [] (a ++ Acquire Configuration Read :: c))).
  { unfold ts. rewrite nth_set. destruct (Nat.eqb_spec i k); [congruence|].
    rewrite (start_nth _ _ _ Pi), Ea. reflexivity. }
  destruct (alone_runs a [(Configuration, Read)] [] (State ts (fun _ => [])) i (Acquire Configuration Read :: c))
    as (e2 & F2 & R2).
  { exact Ti. } { reflexivity. } { exact Al. }
  { intros o t x No Ho Hx. cbn [tasks] in Ho. unfold ts in Ho. apply nth_set_some in Ho.
    destruct Ho as [(_ & ->)|(_ & Ho)]; [exact Hx|destruct (start_held _ _ _ _ Ho Hx)]. }
  rewrite Af in R2. cbn [tasks queue] in R2.
  set (ts2 := set_nth i (Task [(Storage, Write)] (Acquire Configuration Read :: c)) ts) in *.
  destruct (updates_begins logging u Hu) as (f & Ef).
  assert (Ti2 : nth_error ts2 i = Some (Task [(Storage, Write)] (Acquire Configuration Read :: c))).
  { unfold ts2. rewrite nth_set, Nat.eqb_refl, Ti. reflexivity. }
  assert (Tk2 : nth_error ts2 k = Some (Task [(Configuration, Read)] (Acquire Storage Write :: b))).
  { unfold ts2. rewrite nth_set. destruct (Nat.eqb_spec k i); [congruence|].
    unfold ts. rewrite nth_set, Nat.eqb_refl, (start_nth _ _ _ Pk). reflexivity. }
  assert (Tj2 : nth_error ts2 j = Some (Task [] (Acquire Configuration Write :: f))).
  { unfold ts2. rewrite nth_set. destruct (Nat.eqb_spec j i); [congruence|].
    unfold ts. rewrite nth_set. destruct (Nat.eqb_spec j k); [congruence|].
    rewrite (start_nth _ _ _ Pj), Ef. reflexivity. }
  set (s1 := State ts2 (fun _ => [])).
  assert (U : available Configuration Write s1 = false).
  { apply (unavailable s1 Configuration Write k _ Read Tk2); [now left|now left]. }
  set (s2 := State ts2 (set_queue Configuration [(j, Write)] (fun _ => []))).
  assert (E1 : step (Ask j) s1 = Some s2).
  { cbn [step]. unfold s1 at 1. cbn [tasks]. rewrite Tj2. unfold s1 at 1 2. cbn [queue].
    cbn [waiting existsb]. rewrite U. reflexivity. }
  set (s3 := State ts2 (set_queue Configuration [(j, Write); (i, Read)] (queue s2))).
  assert (E2 : step (Ask i) s2 = Some s3).
  { cbn [step]. unfold s2 at 1. cbn [tasks]. rewrite Ti2. unfold s2 at 1 2. cbn [queue]. rewrite queue_same.
    cbn [waiting existsb fst orb]. destruct (Nat.eqb_spec j i); [congruence|]. reflexivity. }
  assert (U3 : available Storage Write s3 = false).
  { apply (unavailable s3 Storage Write i _ Write Ti2); [now left|now left]. }
  set (s4 := State ts2 (set_queue Storage [(k, Write)] (queue s3))).
  assert (E3 : step (Ask k) s3 = Some s4).
  { cbn [step]. unfold s3 at 1. cbn [tasks]. rewrite Tk2. unfold s3 at 1 2. cbn [queue].
    rewrite queue_other by discriminate. unfold s2. cbn [queue]. rewrite queue_other by discriminate.
    cbn [waiting existsb]. rewrite U3. reflexivity. }
  exists ((e1 ++ e2) ++ [Ask j; Ask i; Ask k]), s4. split.
  { apply Forall_app. split; [apply Forall_app; now split|]. repeat constructor. }
  split. { rewrite !run_app, R1, R2. fold s1. cbn [run]. now rewrite E1, E2, E3. }
  split.
  - assert (J : jammed [(i, Configuration); (j, Configuration); (k, Storage)] s4 Configuration).
    { exists j, Write, [(i, Read)], k, (Task [(Configuration, Read)] (Acquire Storage Write :: b)), Read.
      split; [reflexivity|]. split; [right; now left|]. split; [right; right; now left|]. split; [exact Tk2|].
      split; [now left|now left]. }
    intros o l [E|[E|[E|[]]]]; injection E as <- <-.
    + split; [exists Read; cbn; right; now left|exact J].
    + split; [exists Write; cbn; now left|exact J].
    + split; [exists Write; cbn; now left|].
      exists k, Write, [], i, (Task [(Storage, Write)] (Acquire Configuration Read :: c)), Write.
      split; [reflexivity|]. split; [right; right; now left|]. split; [now left|]. split; [exact Ti2|].
      split; [now left|now right].
  - intros o No1 No2. cbn [s4 tasks]. unfold ts2, ts. rewrite !nth_set.
    destruct (Nat.eqb_spec o i); [congruence|]. now destruct (Nat.eqb_spec o k).
Qed.

(** ** What happens afterwards. *)

(** Requests that wait for each other, and all others that need the configuration, are not answered
    as long as those that wait for each other are not cancelled. *)
Lemma deadlock_lasts : forall S ps events s, run events (start ps) = Some s -> stuck S s ->
  forall later s', (forall i, In i (map fst S) -> waits i later) -> run later s = Some s' ->
  (forall i, In i (map fst S) -> pending i s')
  /\ forall k l m b, (exists i, In (i, l) S) -> waits k later ->
     nth_error (tasks s) k = Some (Task [] (Acquire l m :: b)) -> pending k s'.
Proof.
  intros S ps events s R K later s' W H.
  assert (Q : queued s) by (exact (run_invariant queued queued_step events _ _ (queued_start ps) R)).
  destruct (stuck_forever S later s s' Q K W H) as (Q' & K' & P). split.
  - intros i I. exact (stuck_pending S s' i Q' K' I).
  - intros k l m b I Wk E. apply (wants_pending k l). apply P; [exact I| |exact Wk]. now exists [], m, b.
Qed.

Lemma proceeds_waits : forall later i, Forall (fun e => proceeds e = true) later -> waits i later.
Proof. intros later i F I. rewrite Forall_forall in F. specialize (F _ I). discriminate. Qed.

Lemma deadlock_unanswerable : forall S ps events s i, run events (start ps) = Some s -> stuck S s ->
  In i (map fst S) -> ~ answerable s.
Proof.
  intros S ps events s i R K I (later & s' & F & H & A).
  destruct (deadlock_lasts S ps events s R K later s') as (P & _).
  { intros j _. now apply proceeds_waits. } { exact H. }
  destruct (P i I) as (t & E & N). apply N. unfold all_answered in A. rewrite Forall_forall in A.
  exact (A t (nth_error_In _ _ E)).
Qed.

Lemma existsb_nth : forall A (f : A -> bool) l, existsb f l = true ->
  exists i x, nth_error l i = Some x /\ f x = true.
Proof.
  intros A f l H. apply existsb_exists in H. destruct H as (x & Hx & E). apply In_nth_error in Hx.
  destruct Hx as (i & Hi). now exists i, x.
Qed.

(** The requests can always be answered exactly if they are harmless. *)
Lemma answerable_iff : forall logging requests,
  (forall events s, run events (start (map (program logging) requests)) = Some s -> answerable s)
  <-> harmless requests.
Proof.
  intros logging rs. split.
  - intros A. unfold harmless.
    destruct (existsb updates rs) eqn:U; [right|now left].
    destruct (existsb_nth _ _ _ U) as (j & u & Hj & Hu).
    destruct (existsb of_series rs) eqn:O.
    { exfalso. destruct (existsb_nth _ _ _ O) as (i & r & Hi & Hr).
      assert (N : i <> j) by (intros ->; rewrite Hi in Hj; injection Hj as ->; destruct u; discriminate).
      destruct (twice_deadlock logging rs i j r u N Hi Hj Hr Hu) as (events & s & _ & R & K & _).
      refine (deadlock_unanswerable _ _ _ _ i R K _ (A events s R)). now left. }
    split; [reflexivity|]. destruct (existsb kills rs) eqn:K; [right|now left].
    destruct (existsb_nth _ _ _ K) as (i & r & Hi & Hr). split.
    + destruct (existsb updates_storage rs) eqn:V; [|reflexivity]. exfalso.
      destruct (existsb_nth _ _ _ V) as (k & v & Hk & Hv).
      assert (N : i <> k) by (intros ->; rewrite Hi in Hk; injection Hk as ->; destruct v; discriminate).
      destruct (kill_deadlock logging rs i k r v N Hi Hk Hr Hv) as (events & s & _ & R & S & _).
      refine (deadlock_unanswerable _ _ _ _ i R S _ (A events s R)). now left.
    + destruct (existsb of_tables rs) eqn:V; [|reflexivity]. exfalso.
      destruct (existsb_nth _ _ _ V) as (k & v & Hk & Hv).
      assert (N1 : i <> j) by (intros ->; rewrite Hi in Hj; injection Hj as ->; destruct u; discriminate).
      assert (N2 : i <> k) by (intros ->; rewrite Hi in Hk; injection Hk as ->; destruct v; discriminate).
      assert (N3 : j <> k) by (intros ->; rewrite Hj in Hk; injection Hk as ->; destruct v; discriminate).
      destruct (three_deadlock logging rs i j k r u v N1 N2 N3 Hi Hj Hk Hr Hu Hv) as (events & s & _ & R & S & _).
      refine (deadlock_unanswerable _ _ _ _ i R S _ (A events s R)). now left.
  - intros H events s R. exact (all_can_finish logging rs events s H R).
Qed.

(** A table is changed while the configuration is: nothing that needs the configuration is answered. *)
Lemma twice_lasts : forall logging requests i j r u, i <> j ->
  nth_error requests i = Some r -> nth_error requests j = Some u ->
  of_series r = true -> updates u = true ->
  exists events s, Forall (fun e => proceeds e = true) events
    /\ run events (start (map (program logging) requests)) = Some s
    /\ forall later s', waits i later -> waits j later -> run later s = Some s' ->
       pending i s' /\ pending j s'
       /\ forall k q, nth_error requests k = Some q -> needs_configuration q -> waits k later -> pending k s'.
Proof.
  intros logging rs i j r u N Hi Hj Hr Hu.
  destruct (twice_deadlock logging rs i j r u N Hi Hj Hr Hu) as (events & s & F & R & K & T).
  exists events, s. split; [exact F|]. split; [exact R|]. intros later s' Wi Wj H.
  destruct (deadlock_lasts _ _ events s R K later s') as (P & O).
  { intros o [<-|[<-|[]]]; assumption. } { exact H. }
  split; [apply P; now left|]. split; [apply P; right; now left|]. intros k q Hk Hq Wk.
  destruct (Nat.eq_dec k i) as [->|Nk]; [apply P; now left|].
  destruct (Hq logging) as (m & l & E).
  apply (O k Configuration m l); [exists i; now left|exact Wk|].
  rewrite (T k Nk). rewrite (start_nth _ k (program logging q)); [now rewrite E|].
  rewrite nth_error_map, Hk. reflexivity.
Qed.

Lemma kill_lasts : forall logging requests i j r u, i <> j ->
  nth_error requests i = Some r -> nth_error requests j = Some u ->
  kills r = true -> updates_storage u = true ->
  exists events s, Forall (fun e => proceeds e = true) events
    /\ run events (start (map (program logging) requests)) = Some s
    /\ forall later s', waits i later -> waits j later -> run later s = Some s' ->
       pending i s' /\ pending j s'
       /\ forall k q, nth_error requests k = Some q -> needs_configuration q \/ needs_storage q ->
          waits k later -> pending k s'.
Proof.
  intros logging rs i j r u N Hi Hj Hr Hu.
  destruct (kill_deadlock logging rs i j r u N Hi Hj Hr Hu) as (events & s & F & R & K & T).
  exists events, s. split; [exact F|]. split; [exact R|]. intros later s' Wi Wj H.
  destruct (deadlock_lasts _ _ events s R K later s') as (P & O).
  { intros o [<-|[<-|[]]]; assumption. } { exact H. }
  split; [apply P; now left|]. split; [apply P; right; now left|]. intros k q Hk Hq Wk.
  destruct (Nat.eq_dec k i) as [->|Nk]; [apply P; now left|].
  destruct (Nat.eq_dec k j) as [->|Nj]; [apply P; right; now left|].
  assert (Pk : nth_error (map (program logging) rs) k = Some (program logging q)) by (rewrite nth_error_map, Hk; reflexivity).
  destruct Hq as [Hq|Hq]; destruct (Hq logging) as (m & l & E).
  - apply (O k Configuration m l); [exists i; now left|exact Wk|].
    rewrite (T k Nk Nj), (start_nth _ k _ Pk), E. reflexivity.
  - apply (O k Storage m l); [exists j; right; now left|exact Wk|].
    rewrite (T k Nk Nj), (start_nth _ k _ Pk), E. reflexivity.
Qed.

Lemma three_last : forall logging requests i j k r u d, i <> j -> i <> k -> j <> k ->
  nth_error requests i = Some r -> nth_error requests j = Some u -> nth_error requests k = Some d ->
  kills r = true -> updates u = true -> of_tables d = true ->
  exists events s, Forall (fun e => proceeds e = true) events
    /\ run events (start (map (program logging) requests)) = Some s
    /\ forall later s', waits i later -> waits j later -> waits k later -> run later s = Some s' ->
       pending i s' /\ pending j s' /\ pending k s'.
Proof.
  intros logging rs i j k r u d Nij Nik Njk Hi Hj Hk Hr Hu Hd.
  destruct (three_deadlock logging rs i j k r u d Nij Nik Njk Hi Hj Hk Hr Hu Hd) as (events & s & F & R & K & _).
  exists events, s. split; [exact F|]. split; [exact R|]. intros later s' Wi Wj Wk H.
  destruct (deadlock_lasts _ _ events s R K later s') as (P & _).
  { intros o [<-|[<-|[<-|[]]]]; assumption. } { exact H. }
  split; [apply P; now left|]. split; [apply P; right; now left|apply P; right; right; now left].
Qed.
