(** Proofs about servers whose write-ahead log is enabled or disabled. *)
From Coq Require Import ZArith List Bool String Permutation Lia.
From Verif Require Import Model.Base Model.LogModes Spec.LogModesSpec.
Import ListNotations.
Open Scope list_scope.

Lemma sub_permutation : forall {A} (l v : list A), NoDup l -> incl l v ->
  exists rest, Permutation v (l ++ rest).
Proof.
  intros A l. induction l as [|a l IH]; intros v N I.
  - now exists v.
  - inversion N as [|? ? Na Nl]; subst. destruct (in_split a v (I a (or_introl eq_refl))) as (v1 & v2 & ->).
    destruct (IH (v1 ++ v2) Nl) as (rest & P).
    { intros c Hc. assert (H : In c (v1 ++ a :: v2)) by (apply I; now right).
      apply in_app_iff in H. apply in_app_iff. destruct H as [H|[H|H]]; auto. subst. contradiction. }
    exists rest. rewrite <- Permutation_middle. cbn [app]. now constructor.
Qed.

Lemma nodup_suffix : forall {A} (a b : list A), NoDup (a ++ b) -> NoDup b.
Proof. intros A a b. induction a as [|x a IH]; intros H; [exact H|]. inversion H. now apply IH. Qed.
Lemma nodup_prefix : forall {A} (a b : list A), NoDup (a ++ b) -> NoDup a.
Proof.
  intros A a b H. apply (nodup_suffix b). exact (Permutation_NoDup (Permutation_app_comm a b) H).
Qed.

Section Modes.
Variable batch : Type.
Notation item := (item batch).
Notation ids := (ids batch).

Lemma ids_app : forall a b : list item, ids (a ++ b) = ids a ++ ids b.
Proof. intros a b. apply flat_map_app. Qed.
Lemma ids_in : forall (l : list item) id, In id (ids l) <-> exists b, In (b, Some id) l.
Proof.
  intros l id. unfold LogModes.ids. rewrite in_flat_map. split.
  - intros ((b & [i|]) & H & Hi); cbn in Hi; [|contradiction]. destruct Hi as [->|[]]. now exists b.
  - intros (b & H). exists (b, Some id). split; [exact H|now left].
Qed.
Lemma ids_permutation : forall a b : list item, Permutation a b -> Permutation (ids a) (ids b).
Proof. intros a b H. now apply Permutation_flat_map. Qed.
Lemma ids_unique : forall (l : list item) b b' id, NoDup (ids l) -> In (b, Some id) l ->
  In (b', Some id) l -> b = b'.
Proof.
  induction l as [|(c, [i|]) l IH]; intros b b' id N H H'; [contradiction| |].
  - cbn in N. inversion N as [|? ? N1 N2]; subst.
    destruct H as [H|H], H' as [H'|H'].
    + congruence.
    + injection H as -> ->. destruct N1. apply ids_in. now exists b'.
    + injection H' as -> ->. destruct N1. apply ids_in. now exists b.
    + exact (IH b b' id N2 H H').
  - cbn in N. destruct H as [H|H]; [discriminate|]. destruct H' as [H'|H']; [discriminate|].
    exact (IH b b' id N H H').
Qed.
Lemma contains_iff : forall l id, contains l id = true <-> In id l.
Proof.
  intros l id. unfold contains. rewrite existsb_exists. split.
  - intros (y & H & E). apply Z.eqb_eq in E. now subst.
  - intros H. exists id. split; [exact H|apply Z.eqb_refl].
Qed.
Lemma unpersisted_in : forall d es b o, In (b, o) (unpersisted batch d es) <->
  exists id, o = Some id /\ In (id, b) es /\ ~ In id d.
Proof.
  intros d es b o. unfold unpersisted. rewrite in_map_iff. split.
  - intros ((id & c) & E & H). cbn in E. injection E as <- <-. apply filter_In in H.
    destruct H as (H & C). cbn in C. exists id. split; [reflexivity|]. split; [exact H|].
    intros X. apply contains_iff in X. rewrite X in C. discriminate.
  - intros (id & -> & H & N). exists (id, b). split; [reflexivity|]. apply filter_In.
    split; [exact H|]. cbn. destruct (contains d id) eqn:C; [|reflexivity].
    apply contains_iff in C. contradiction.
Qed.
Lemma unpersisted_nodup : forall d es, NoDup (map fst es) -> NoDup (unpersisted batch d es).
Proof.
  intros d es N. unfold unpersisted.
  assert (M : NoDup (map fst (filter (fun e => negb (contains d (fst e))) es))).
  { clear - N. induction es as [|e es IH]; [constructor|]. cbn in N. inversion N as [|? ? N1 N2]; subst.
    cbn [filter]. destruct (negb (contains d (fst e))); [|now apply IH]. cbn. constructor; [|now apply IH].
    intros H. apply N1. apply in_map_iff in H. destruct H as (y & E & H). apply filter_In in H.
    apply in_map_iff. exists y. now split. }
  apply (NoDup_map_inv (fun i => match snd i with Some id => id | None => 0 end)).
  rewrite map_map. cbn [snd]. exact M.
Qed.

(** The batches of a table, the batches of its log, the batches in memory, and the batches that
    should exist. *)
Record good (t : table batch) (entries : list (Z * batch)) (mem : list item) (nxt : Z)
  (srv : option bool) (items : list item) : Prop := Good {
  g_lost : exists lost, Permutation items (saved t ++ mem ++ lost);
  g_unique : NoDup (ids items);
  g_items_next : forall id, In id (ids items) -> id < nxt;
  g_done_next : forall id, In id (done t) -> id < nxt;
  g_entries_next : forall id, In id (map fst entries) -> id < nxt;
  g_done_saved : forall id b, In id (done t) -> In (b, Some id) items -> In (b, Some id) (saved t);
  g_saved_done : forall id b, In (b, Some id) (saved t) -> In id (done t);
  g_entry : forall id b, In (id, b) entries -> ~ In id (done t) -> In (b, Some id) items;
  g_logged : forall id b, In (b, Some id) items -> ~ In id (done t) -> In (id, b) entries;
  g_entries_unique : NoDup (map fst entries);
  g_memory : srv = Some true -> forall id b, In (b, Some id) items -> ~ In id (done t) ->
             In (b, Some id) mem;
  g_memory_not_done : forall id b, In (b, Some id) mem -> ~ In id (done t);
  g_stopped : srv = None -> mem = []
}.

Lemma good_start : forall (enabled : bool) t es mem nxt items, good t es mem nxt None items ->
  good t es (if enabled then unpersisted batch (done t) es else []) nxt (Some enabled) items.
Proof.
  intros enabled t es mem nxt items [L U IN DN EN DS SD E LG EU M MN S].
  specialize (S eq_refl). subst mem. destruct L as (lost & L). cbn [app] in L. destruct enabled.
  - constructor; auto.
    + assert (I : incl (unpersisted batch (done t) es) lost).
      { intros (b, o) H. apply unpersisted_in in H. destruct H as (id & -> & H & N).
        pose proof (E id b H N) as H1. apply (Permutation_in _ L) in H1. apply in_app_iff in H1.
        destruct H1 as [H1|H1]; [|exact H1]. apply SD in H1. contradiction. }
      destruct (sub_permutation _ _ (unpersisted_nodup (done t) es EU) I) as (rest & P).
      exists rest. rewrite L. now apply Permutation_app_head.
    + intros _ id b H N. apply unpersisted_in. exists id. split; [reflexivity|].
      split; [now apply LG|exact N].
    + intros id b H. apply unpersisted_in in H. destruct H as (i & X & _ & N). congruence.
    + discriminate.
  - constructor; auto; try discriminate; try contradiction. now exists lost.
Qed.

Lemma good_stop : forall t es mem nxt srv items, good t es mem nxt srv items ->
  good t es [] nxt None items.
Proof.
  intros t es mem nxt srv items [L U IN DN EN DS SD E LG EU M MN S].
  constructor; auto; try discriminate; try contradiction. destruct L as (lost & L). now exists (mem ++ lost).
Qed.

Lemma good_insert_logged : forall t es mem nxt items b, good t es mem nxt (Some true) items ->
  good t (es ++ [(nxt, b)]) (mem ++ [(b, Some nxt)]) (nxt + 1) (Some true) (items ++ [(b, Some nxt)]).
Proof.
  intros t es mem nxt items b [L U IN DN EN DS SD E LG EU M MN S].
  assert (ND : ~ In nxt (done t)) by (intros H; apply DN in H; lia).
  constructor; try discriminate; auto.
  - destruct L as (lost & L). exists lost.
    rewrite L, <- !app_assoc. apply Permutation_app_head, Permutation_app_head. apply Permutation_app_comm.
  - rewrite ids_app. cbn. apply (Permutation_NoDup (Permutation_cons_append _ _)).
    constructor; [|exact U]. intros H. apply IN in H. lia.
  - intros id H. rewrite ids_app in H. apply in_app_iff in H. cbn in H.
    destruct H as [H|[<-|[]]]; [apply IN in H|]; lia.
  - intros id H. apply DN in H. lia.
  - intros id H. rewrite map_app in H. apply in_app_iff in H. cbn in H.
    destruct H as [H|[<-|[]]]; [apply EN in H|]; lia.
  - intros id c D H. apply in_app_iff in H. destruct H as [H|[H|[]]]; [now apply DS|].
    injection H as <- <-. contradiction.
  - intros id c H N. apply in_app_iff in H. apply in_app_iff. destruct H as [H|[H|[]]].
    + left. now apply E.
    + injection H as <- <-. right. now left.
  - intros id c H N. apply in_app_iff in H. apply in_app_iff. destruct H as [H|[H|[]]].
    + left. now apply LG.
    + injection H as <- <-. right. now left.
  - rewrite map_app. cbn. apply (Permutation_NoDup (Permutation_cons_append _ _)).
    constructor; [|exact EU]. intros H. apply EN in H. lia.
  - intros _ id c H N. apply in_app_iff in H. apply in_app_iff. destruct H as [H|[H|[]]].
    + left. now apply M.
    + right. now left.
  - intros id c H. apply in_app_iff in H. destruct H as [H|[H|[]]]; [now apply (MN id c)|].
    injection H as <- <-. exact ND.
Qed.

Lemma good_insert : forall t es mem nxt items b, good t es mem nxt (Some false) items ->
  good t es (mem ++ [(b, None)]) nxt (Some false) (items ++ [(b, None)]).
Proof.
  intros t es mem nxt items b [L U IN DN EN DS SD E LG EU M MN S].
  assert (X : forall (l : list item) id c, In (c, Some id) (l ++ [(b, None)]) -> In (c, Some id) l).
  { intros l id c H. apply in_app_iff in H. destruct H as [H|[H|[]]]; [exact H|discriminate]. }
  assert (Y : ids (items ++ [(b, None)]) = ids items) by (rewrite ids_app; apply app_nil_r).
  constructor; try discriminate; auto.
  - destruct L as (lost & L). exists lost.
    rewrite L, <- !app_assoc. apply Permutation_app_head, Permutation_app_head. apply Permutation_app_comm.
  - now rewrite Y.
  - now rewrite Y.
  - intros id c H N. apply in_app_iff. left. now apply E.
  - intros id c H. apply (MN id c). now apply X.
Qed.

Lemma good_save : forall t es first rest nxt srv items,
  good t es (first ++ rest) nxt srv items ->
  good (Table (saved t ++ first) (done t ++ ids first)) es rest nxt srv items.
Proof.
  intros t es first rest nxt srv items [L U IN DN EN DS SD E LG EU M MN S].
  destruct L as (lost & L).
  assert (FI : forall i, In i first -> In i items).
  { intros i H. apply (Permutation_in _ (Permutation_sym L)). rewrite !in_app_iff. auto. }
  assert (NF : NoDup (ids first ++ ids rest)).
  { apply ids_permutation in L. apply (Permutation_NoDup L) in U. rewrite !ids_app in U.
    apply nodup_suffix in U. now apply nodup_prefix in U. }
  constructor; cbn [saved done]; auto.
  - exists lost. rewrite L. rewrite <- !app_assoc. apply Permutation_refl.
  - intros id H. apply in_app_iff in H. destruct H as [H|H]; [now apply DN|].
    apply ids_in in H. destruct H as (b & H). apply IN. apply ids_in. exists b. now apply FI.
  - intros id b D H. apply in_app_iff. apply in_app_iff in D. destruct D as [D|D].
    + left. now apply DS.
    + right. apply ids_in in D. destruct D as (c & D).
      now rewrite (ids_unique items b c id U H (FI _ D)).
  - intros id b H. apply in_app_iff in H. apply in_app_iff. destruct H as [H|H].
    + left. now apply (SD id b).
    + right. apply ids_in. now exists b.
  - intros id b H N. apply E; [exact H|]. intros D. apply N, in_app_iff. now left.
  - intros id b H N. apply LG; [exact H|]. intros D. apply N, in_app_iff. now left.
  - intros Hs id b H N. assert (H1 : In (b, Some id) (first ++ rest)).
    { apply (M Hs); [exact H|]. intros D. apply N, in_app_iff. now left. }
    apply in_app_iff in H1. destruct H1 as [H1|H1]; [|exact H1].
    destruct N. apply in_app_iff. right. apply ids_in. now exists b.
  - intros id b H D. apply in_app_iff in D. destruct D as [D|D].
    + apply (MN id b); [|exact D]. apply in_app_iff. now right.
    + clear - H D NF. induction (ids first) as [|i l IH]; [contradiction|].
      cbn in NF. inversion NF as [|? ? N1 N2]; subst. destruct D as [->|D]; [|now apply IH].
      apply N1, in_app_iff. right. apply ids_in. now exists b.
  - intros Hs. specialize (S Hs). now destruct first, rest.
Qed.

Lemma good_clean : forall t es mem nxt srv items id, In id (done t) -> good t es mem nxt srv items ->
  good t (filter (fun e => negb (fst e =? id)) es) mem nxt srv items.
Proof.
  intros t es mem nxt srv items id D [L U IN DN EN DS SD E LG EU M MN S].
  constructor; auto.
  - intros i H. apply in_map_iff in H. destruct H as (e & <- & H). apply filter_In in H.
    apply EN, in_map, H.
  - intros i b H N. apply filter_In in H. now apply E.
  - intros i b H N. apply filter_In. split; [now apply LG|]. cbn.
    destruct (Z.eqb_spec i id) as [->|]; [contradiction|reflexivity].
  - clear - EU. induction es as [|e es IH]; [constructor|]. cbn in EU.
    inversion EU as [|? ? N1 N2]; subst. cbn [filter].
    destruct (negb (fst e =? id)); [|now apply IH]. cbn. constructor; [|now apply IH].
    intros H. apply N1. apply in_map_iff in H. destruct H as (y & E & H). apply filter_In in H.
    apply in_map_iff. exists y. now split.
Qed.

Lemma good_next : forall t es mem nxt nxt' srv items, nxt <= nxt' -> good t es mem nxt srv items ->
  good t es mem nxt' srv items.
Proof.
  intros t es mem nxt nxt' srv items Hn [L U IN DN EN DS SD E LG EU M MN S].
  constructor; auto; intros id H; [apply IN in H|apply DN in H|apply EN in H]; lia.
Qed.

Lemma good_empty : forall d nxt srv, (forall id, In id d -> id < nxt) ->
  good (Table [] d) [] [] nxt srv [].
Proof.
  intros d nxt srv H. constructor; cbn; try contradiction; auto; try constructor.
  exists (@nil item). constructor.
Qed.

(** The same for a table that may not exist. *)
Definition entries_of (x : string) (w : world batch) : list (Z * batch) :=
  match logs w x with Some e => e | None => [] end.
Definition good_at (x : string) (w : world batch) (items : list item) : Prop :=
  match tables w x with
  | Some t => good t (entries_of x w) (memory w x) (next w) (server w) items
  | None => items = [] /\ memory w x = [] /\ entries_of x w = []
  end.

Lemma put_same : forall {A} x (a : A) f, put x a f x = a.
Proof. intros A x a f. unfold put. now rewrite String.eqb_refl. Qed.
Lemma put_other : forall {A} x y (a : A) f, x <> y -> put x a f y = f y.
Proof. intros A x y a f H. unfold put. now rewrite (proj2 (String.eqb_neq x y) H). Qed.

Lemma good_flush : forall x w items, good_at x w items -> good_at x (flush batch w) items
  /\ memory (flush batch w) x = [].
Proof.
  intros x w items G. split; [|reflexivity]. unfold good_at, flush in *. cbn [tables memory next server].
  unfold entries_of in *. cbn [logs]. destruct (tables w x) as [t|].
  - apply good_save. now rewrite app_nil_r.
  - tauto.
Qed.

Definition is_some (i : item) : batch * bool :=
  (fst i, match snd i with Some _ => true | None => false end).
Definition add (x : string) (mode : bool) (e : event batch) (old : list (batch * bool))
  : list (batch * bool) :=
  match e with
  | Inserted y b => if String.eqb x y then old ++ [(b, mode)] else old
  | Truncated y | Dropped y => if String.eqb x y then [] else old
  | _ => old
  end.

Lemma good_step : forall x w e w' mode items, step w e = Ok w' ->
  (forall m, server w = Some m -> m = mode) ->
  match e with Truncated _ | Dropped _ => mode = true | _ => True end ->
  good_at x w items ->
  (forall m, server w' = Some m -> m = mode_after mode e)
  /\ exists items', good_at x w' items'
       /\ map is_some items' = add x (mode_after mode e) e (map is_some items).
Proof.
  intros x w e w' mode items H Hm He G. unfold step in H.
  destruct e as [enabled|y|y b|n y|y|y|y id|]; destruct (server w) as [m|] eqn:Sw; try discriminate;
    cbn [mode_after add] in *.
  - assert (w' = start batch enabled w) as -> by congruence.
    split; [destruct enabled; cbn; congruence|]. exists items. split; [|reflexivity].
    clear H. unfold good_at, entries_of, start in *. rewrite Sw in G.
    destruct enabled; cbn [tables logs memory next server]; destruct (tables w x) as [t|].
    + apply (good_start true) in G. destruct (logs w x); exact G.
    + tauto.
    + now apply (good_start false) in G.
    + tauto.
  - assert (m = mode) by now apply Hm. subst m. unfold create in H.
    destruct (tables w y) as [t|] eqn:Ty; [discriminate|].
    injection H as <-. split; [cbn [server]; congruence|]. exists items. split; [|reflexivity].
    unfold good_at, entries_of in *. cbn [tables logs memory next server].
    destruct (String.eqb_spec y x) as [E|N].
    + subst y. rewrite put_same, Ty in *. destruct G as (-> & -> & Ge).
      assert (Z1 : match (if mode then put x (Some (match logs w x with Some e => e | None => [] end))
                                         (logs w) else logs w) x with
                   | Some e => e | None => [] end = []).
      { destruct mode; [now rewrite put_same|exact Ge]. }
      rewrite Z1. apply good_empty. intros id [].
    + rewrite (put_other y x _ _ N).
      replace ((if mode then put y (Some (match logs w y with Some e => e | None => [] end)) (logs w)
                else logs w) x) with (logs w x)
        by (destruct mode; [now rewrite put_other|reflexivity]).
      exact G.
  - assert (m = mode) by now apply Hm. subst m. unfold insert in H.
    destruct (tables w y) as [t|] eqn:Ty; [|discriminate].
    destruct mode.
    + destruct (logs w y) as [es|] eqn:Ly; [|discriminate]. injection H as <-.
      split; [cbn [server]; congruence|].
      unfold good_at, entries_of in *. cbn [tables logs memory next server].
      rewrite String.eqb_sym. destruct (String.eqb_spec y x) as [E|N].
      * subst y. rewrite !put_same. rewrite Ty in *. rewrite Ly in G. rewrite Sw in *.
        exists (items ++ [(b, Some (next w))]).
        split; [now apply good_insert_logged|]. rewrite map_app. reflexivity.
      * rewrite !(put_other y x) by exact N. exists items. split; [|reflexivity].
        destruct (tables w x) as [t'|]; [|exact G]. rewrite Sw in *.
        apply (good_next _ _ _ (next w)); [lia|exact G].
    + injection H as <-. split; [cbn [server]; congruence|].
      unfold good_at, entries_of in *. cbn [tables logs memory next server].
      rewrite String.eqb_sym. destruct (String.eqb_spec y x) as [E|N].
      * subst y. rewrite !put_same. rewrite Ty in *. rewrite Sw in *.
        exists (items ++ [(b, None)]). split; [now apply good_insert|]. rewrite map_app. reflexivity.
      * rewrite !(put_other y x) by exact N. exists items. split; [|reflexivity].
        rewrite Sw in *. exact G.
  - assert (w' = save_first batch n y w) as -> by congruence. unfold save_first.
    destruct (tables w y) as [t|] eqn:Ty.
    + split; [cbn [server]; now rewrite Sw|]. exists items. split; [|reflexivity].
      unfold good_at, entries_of in *. cbn [tables logs memory next server].
      destruct (String.eqb_spec y x) as [E|N].
      * subst y. rewrite !put_same. rewrite Ty in *. apply good_save. now rewrite firstn_skipn.
      * rewrite !(put_other y x) by exact N. exact G.
    + split; [now rewrite Sw|]. exists items. now split.
  - assert (m = mode) by now apply Hm. subst m. rewrite He in *. clear He.
    unfold truncate in H. destruct (tables w y) as [t|] eqn:Ty; [|discriminate].
    destruct (tables (flush batch w) y) as [t'|] eqn:Ty'; [|discriminate]. injection H as <-.
    split; [cbn [server flush]; congruence|].
    destruct (good_flush x w items G) as (G' & M').
    unfold good_at, entries_of in *. cbn [tables logs memory next server].
    rewrite String.eqb_sym. destruct (String.eqb_spec y x) as [E|N].
    + subst y. rewrite !put_same. exists (@nil item). split; [|reflexivity].
      rewrite Ty' in G'. apply good_empty. exact (g_done_next _ _ _ _ _ _ G').
    + rewrite !(put_other y x) by exact N. exists items. split; [exact G'|reflexivity].
  - assert (m = mode) by now apply Hm. subst m. rewrite He in *. clear He.
    unfold drop in H. destruct (tables w y) as [t|] eqn:Ty; [|discriminate]. injection H as <-.
    split; [cbn [server flush]; congruence|].
    destruct (good_flush x w items G) as (G' & M').
    unfold good_at, entries_of in *. cbn [tables logs memory next server].
    rewrite String.eqb_sym. destruct (String.eqb_spec y x) as [E|N].
    + subst y. rewrite !put_same. exists (@nil item). repeat split.
    + rewrite !(put_other y x) by exact N. exists items. split; [exact G'|reflexivity].
  - assert (m = mode) by now apply Hm. subst m. destruct mode; [|discriminate].
    destruct (tables w y) as [t|] eqn:Ty; [|discriminate].
    destruct (logs w y) as [es|] eqn:Ly; [|discriminate].
    destruct (contains (done t) id) eqn:C; [|discriminate]. injection H as <-.
    apply contains_iff in C. split; [cbn [server]; congruence|]. exists items. split; [|reflexivity].
    unfold good_at, entries_of in *. cbn [tables logs memory next server]. rewrite Sw in G.
    destruct (String.eqb_spec y x) as [E|N].
    + subst y. rewrite !put_same. rewrite Ty in *. rewrite Ly in G. apply good_clean; [exact C|exact G].
    + rewrite !(put_other y x) by exact N. exact G.
  - injection H as <-. split; [discriminate|]. exists items. split; [|reflexivity].
    unfold good_at, entries_of in *. cbn [tables logs memory next server].
    destruct (tables w x) as [t|]; [now apply good_stop in G|tauto].
Qed.

Lemma good_run : forall x es w w' mode items, run w es w' ->
  (forall m, server w = Some m -> m = mode) -> emptied_with_log mode es -> good_at x w items ->
  exists items', good_at x w' items'
    /\ map is_some items' = inserted x mode (map is_some items) es.
Proof.
  intros x es w w' mode items R. revert mode items.
  induction R as [w|w e w1 es w2 H R IH]; intros mode items Hm He G.
  - exists items. now split.
  - cbn [emptied_with_log] in He. destruct He as (He & Hes).
    destruct (good_step x w e w1 mode items H Hm He G) as (Hm' & items' & G' & E').
    destruct (IH _ _ Hm' Hes G') as (items2 & G2 & E2). exists items2. split; [exact G2|].
    rewrite E2, E'. cbn [inserted]. destruct e; reflexivity.
Qed.

Lemma map_is_some : forall items : list item, map fst items = map fst (map is_some items).
Proof. intros items. now rewrite map_map. Qed.
Definition has_id (i : item) : bool := match snd i with Some _ => true | None => false end.
Lemma map_logged : forall items : list item,
  map fst (filter has_id items) = map fst (filter snd (map is_some items)).
Proof.
  induction items as [|(b, [i|]) items IH]; [reflexivity| |]; cbn; [now rewrite IH|exact IH].
Qed.

Lemma new_good : forall x, good_at x (new_world : world batch) [].
Proof. intros x. now repeat split. Qed.

Lemma nothing_returns : forall x (es : list (event batch)) w, run new_world es w -> emptied_with_log false es ->
  exists lost, Permutation (live x es) (visible x w ++ lost).
Proof.
  intros x es w R E. destruct (good_run x es _ w false [] R ltac:(discriminate) E (new_good x))
    as (items & G & H). unfold live. cbn [map] in H. rewrite <- H, <- map_is_some.
  unfold visible, good_at in *. destruct (tables w x) as [t|].
  - destruct (g_lost _ _ _ _ _ _ G) as (lost & L). exists (map fst lost).
    rewrite <- map_app. apply Permutation_map. now rewrite <- app_assoc.
  - destruct G as (-> & -> & _). exists []. constructor.
Qed.

Lemma logged_nodup : forall items : list item, NoDup (ids items) -> NoDup (filter has_id items).
Proof.
  induction items as [|(b, [i|]) items IH]; intros N; [constructor| |]; cbn in *.
  - inversion N as [|? ? N1 N2]; subst. constructor; [|now apply IH]. intros H. apply N1.
    apply filter_In in H. apply ids_in. exists b. apply H.
  - now apply IH.
Qed.

Lemma logged_kept : forall x (es : list (event batch)) w, run new_world es w -> emptied_with_log false es ->
  server w = Some true -> exists rest, Permutation (visible x w) (logged x es ++ rest).
Proof.
  intros x es w R E Hs. destruct (good_run x es _ w false [] R ltac:(discriminate) E (new_good x))
    as (items & G & H). unfold logged. cbn [map] in H. rewrite <- H, <- map_logged.
  unfold visible, good_at in *. destruct (tables w x) as [t|].
  - destruct (sub_permutation (filter has_id items) (saved t ++ memory w x)) as (rest & P).
    + apply logged_nodup, G.
    + intros (b, o) Hi. apply filter_In in Hi. destruct Hi as (Hi & Ho).
      destruct o as [id|]; [|discriminate]. apply in_app_iff.
      destruct (in_dec Z.eq_dec id (done t)) as [D|D].
      * left. exact (g_done_saved _ _ _ _ _ _ G id b D Hi).
      * right. exact (g_memory _ _ _ _ _ _ G Hs id b Hi D).
    + exists (map fst rest). rewrite <- map_app. now apply Permutation_map.
  - destruct G as (-> & -> & _). exists []. constructor.
Qed.

(** With a log that is always enabled. *)
Lemma always_emptied : forall (es : list (event batch)) w w' mode, run w es w' -> Forall log_enabled es ->
  (forall m, server w = Some m -> mode = true) -> emptied_with_log mode es.
Proof.
  intros es w w' mode R. revert mode.
  induction R as [w|w e w1 es w2 H R IH]; intros mode F Hm; cbn [emptied_with_log]; [exact I|].
  inversion F as [|? ? F1 F2]; subst. split.
  - destruct e; try exact I; unfold step in H; destruct (server w) as [m|] eqn:Sw; try discriminate;
      now apply (Hm m).
  - apply IH; [exact F2|]. intros m Hs.
    destruct e; cbn [mode_after]; try exact F1; unfold step in H;
      destruct (server w) as [m'|] eqn:Sw; try discriminate; try (now apply (Hm m')).
Qed.

Lemma always_logged : forall x (es : list (event batch)) mode old w w', run w es w' -> Forall log_enabled es ->
  (forall m, server w = Some m -> mode = true) -> Forall (fun i => snd i = true) old ->
  Forall (fun i => snd i = true) (inserted x mode old es).
Proof.
  intros x es mode old w w' R. revert mode old.
  induction R as [w|w e w1 es w2 H R IH]; intros mode old F Hm Ho; cbn [inserted]; [exact Ho|].
  inversion F as [|? ? F1 F2]; subst. apply IH; [exact F2| |].
  - intros m Hs. destruct e; cbn [mode_after]; try exact F1; unfold step in H;
      destruct (server w) as [m'|] eqn:Sw; try discriminate; try (now apply (Hm m')).
  - destruct e as [enabled|y|y b|n y|y|y|y id|]; try exact Ho.
    + destruct (String.eqb x y); [|exact Ho]. apply Forall_app. split; [exact Ho|].
      constructor; [|constructor]. cbn [snd mode_after]. unfold step in H.
      destruct (server w) as [m|] eqn:Sw; [|discriminate]. now apply (Hm m).
    + destruct (String.eqb x y); [constructor|exact Ho].
    + destruct (String.eqb x y); [constructor|exact Ho].
Qed.

Lemma filter_all : forall {A} (f : A -> bool) l, Forall (fun a => f a = true) l -> filter f l = l.
Proof.
  intros A f l H. induction H as [|a l Ha H IH]; [reflexivity|]. cbn. now rewrite Ha, IH.
Qed.

Lemma always_exact : forall x (es : list (event batch)) w, run new_world es w -> Forall log_enabled es ->
  server w = Some true -> Permutation (live x es) (visible x w).
Proof.
  intros x es w R F Hs.
  assert (E : emptied_with_log false es) by (apply (always_emptied es _ w false R F); discriminate).
  destruct (nothing_returns x es w R E) as (lost & P1).
  destruct (logged_kept x es w R E Hs) as (rest & P2).
  assert (L : logged x es = live x es).
  { unfold logged, live. f_equal. apply filter_all.
    apply (always_logged x es false [] new_world w R F); [discriminate|constructor]. }
  rewrite L in P2.
  pose proof (Permutation_length P1) as N1. pose proof (Permutation_length P2) as N2.
  rewrite app_length in N1, N2. destruct lost; [|cbn in N1; lia]. now rewrite app_nil_r in P1.
Qed.
End Modes.

(** Running given events. *)
Fixpoint run_all {batch} (w : world batch) (es : list (event batch)) : option (world batch) :=
  match es with
  | [] => Some w
  | e :: es => match step w e with Ok w => run_all w es | _ => None end
  end.
Lemma run_all_run : forall batch (es : list (event batch)) w w', run_all w es = Some w' -> run w es w'.
Proof.
  intros batch es. induction es as [|e es IH]; intros w w' H; cbn [run_all] in H.
  - injection H as <-. constructor.
  - destruct (step w e) as [w1| |] eqn:E; try discriminate. apply (Then _ w e w1); [exact E|now apply IH].
Qed.
Lemma run_given : forall batch (es : list (event batch)) (P : world batch -> Prop),
  match run_all new_world es with Some w => P w | None => False end ->
  exists w, run new_world es w /\ P w.
Proof.
  intros batch es P H. destruct (run_all new_world es) as [w|] eqn:E; [|contradiction].
  exists w. split; [now apply run_all_run|exact H].
Qed.

(** Truncating or dropping a table without the log. *)
Open Scope string_scope.
Open Scope list_scope.
Lemma truncated_returns : forall batch (b : batch),
  let es := [Started true; Created "wind"; Inserted "wind" b; Stopped; Started false; Truncated "wind";
             Stopped; Started true] in
  exists w, run new_world es w /\ live "wind" es = [] /\ visible "wind" w = [b].
Proof.
  intros batch b. apply run_given. vm_compute. split; reflexivity.
Qed.
Lemma dropped_returns : forall batch (b : batch),
  let es := [Started true; Created "wind"; Inserted "wind" b; Saved 1 "wind"; Stopped; Started false;
             Dropped "wind"; Created "wind"; Stopped; Started true] in
  exists w, run new_world es w /\ live "wind" es = [] /\ visible "wind" w = [b].
Proof.
  intros batch b. apply run_given. vm_compute. split; reflexivity.
Qed.
