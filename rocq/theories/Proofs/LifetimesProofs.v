(** Proofs about inserts while tables are created, truncated and dropped. *)
From Coq Require Import Arith Bool ZArith List Permutation Lia.
From Verif Require Import Model.Base Model.Lifetimes Spec.LifetimesSpec.
Import ListNotations.
Open Scope nat_scope.
Open Scope list_scope.

Lemma find_in : forall p l x, find_process p l = Some x -> In (p, x) l.
Proof.
  intros p l x. induction l as [|[q y] l IH]; intro H; [discriminate|]. cbn in H.
  destruct (Nat.eqb_spec q p) as [->|N].
  - injection H as ->. now left.
  - right. now apply IH.
Qed.

Lemma in_without : forall p l q y, In (q, y) (without p l) <-> q <> p /\ In (q, y) l.
Proof.
  intros p l q y. unfold without. rewrite filter_In. cbn. rewrite negb_true_iff, Nat.eqb_neq. tauto.
Qed.

(** * Buffers *)

(** Rows of a table. *)
Definition of_table (t : table) (r : row) : Prop := into r = inc t /\ length (values r) = fields t.
Definition buffer_of (t : table) (b : buffer) : Prop :=
  b_table b = t /\ Forall (fun p => of_table t (snd p)) (b_points b).

Lemma insert_ok : forall t id r memory, Forall (buffer_of t) memory -> of_table t r ->
  exists m, insert memory t id r = Ok m /\ Forall (buffer_of t) m
    /\ Permutation (points m) (points memory ++ [(id, r)]).
Proof.
  intros t id r memory F R. induction F as [|b memory B F IH].
  - eexists. split; [reflexivity|]. split; [|reflexivity].
    constructor; [|constructor]. split; [reflexivity|]. constructor; [exact R|constructor].
  - cbn [insert]. destruct (Nat.eqb_spec (b_tags b) (tags r)) as [E|N].
    + destruct B as [B1 B2]. destruct (Nat.ltb_spec (fields (b_table b)) (length (values r))) as [L|L].
      { exfalso. destruct R as [_ R]. rewrite B1, R in L. lia. }
      eexists. split; [reflexivity|]. split.
      * constructor; [|exact F]. split; [exact B1|]. cbn. apply Forall_app.
        split; [exact B2|constructor; [exact R|constructor]].
      * unfold points. cbn [map concat b_points]. rewrite <- !app_assoc.
        apply Permutation_app_head. apply Permutation_app_comm.
    + destruct IH as (m & E & Fm & P). rewrite E. eexists. split; [reflexivity|].
      split; [now constructor|]. unfold points in *. cbn [map concat]. rewrite <- app_assoc.
      now apply Permutation_app_head.
Qed.

Lemma replay_ok : forall t l memory, Forall (buffer_of t) memory ->
  Forall (fun p => of_table t (snd p)) l ->
  exists m, replay t l memory = Ok m /\ Forall (buffer_of t) m
    /\ Permutation (points m) (points memory ++ l).
Proof.
  intros t l. induction l as [|[id r] l IH]; intros memory F L.
  - exists memory. rewrite app_nil_r. now split.
  - apply Forall_cons_iff in L as [R L]. destruct (insert_ok t id r memory F R) as (m & E & Fm & P).
    cbn [replay]. rewrite E. cbn [bind]. destruct (IH m Fm L) as (m' & E' & F' & P').
    exists m'. split; [exact E'|]. split; [exact F'|]. rewrite P', P, <- app_assoc. reflexivity.
Qed.

Lemma not_ragged : forall t bs, Forall (buffer_of t) bs -> existsb is_ragged bs = false.
Proof.
  intros t bs F. induction F as [|b bs [B1 B2] F IH]; [reflexivity|]. cbn. rewrite IH, orb_false_r.
  unfold is_ragged. rewrite negb_false_iff. apply forallb_forall. intros p I.
  rewrite Forall_forall in B2. destruct (B2 p I) as [_ L]. rewrite B1. now apply Nat.eqb_eq.
Qed.

Lemma points_split : forall f memory,
  Permutation (points memory)
    (points (filter f memory) ++ points (filter (fun b => negb (f b)) memory)).
Proof.
  intros f memory. unfold points. induction memory as [|b memory IH]; [reflexivity|].
  cbn. destruct (f b); cbn [map concat negb].
  - rewrite <- app_assoc. now apply Permutation_app_head.
  - rewrite IH. rewrite !app_assoc. apply Permutation_app_tail, Permutation_app_comm.
Qed.


Lemma member_iff : forall id ids, member id ids = true <-> In id ids.
Proof.
  intros id ids. unfold member. rewrite existsb_exists. split.
  - intros (x & I & E). apply Nat.eqb_eq in E. now subst.
  - intro I. exists id. split; [exact I|apply Nat.eqb_refl].
Qed.

(** Removing the saved batches from the log leaves those that are still in memory. *)
Lemma filter_saved : forall (l a b : list (nat * row)), Permutation l (a ++ b) ->
  NoDup (map fst l) ->
  Permutation (filter (fun x => negb (member (fst x) (map fst a))) l) b.
Proof.
  intros l a b P N.
  assert (N' : NoDup (map fst (a ++ b))).
  { eapply Permutation_NoDup; [|exact N]. now apply Permutation_map. }
  assert (F : forall f (x y : list (nat * row)), Permutation x y ->
    Permutation (filter f x) (filter f y)).
  { clear. intros f x y P. induction P; cbn.
    - constructor.
    - destruct (f x); [now constructor|assumption].
    - destruct (f x), (f y); try reflexivity. constructor.
    - now transitivity (filter f l'). }
  rewrite (F _ _ _ P). rewrite filter_app.
  assert (A : filter (fun x => negb (member (fst x) (map fst a))) a = []).
  { clear. assert (forall c, (forall x, In x c -> In x a) ->
      filter (fun x => negb (member (fst x) (map fst a))) c = []) as G.
    { induction c as [|x c IH]; intro H; [reflexivity|]. cbn.
      assert (member (fst x) (map fst a) = true) as ->
        by (apply member_iff, in_map, H; now left).
      cbn. apply IH. intros y Y. apply H. now right. }
    now apply G. }
  rewrite A. cbn [app].
  assert (B : filter (fun x => negb (member (fst x) (map fst a))) b = b).
  { clear - N'. rewrite map_app in N'.
    assert (forall c, (forall x, In x c -> In x b) ->
      filter (fun x => negb (member (fst x) (map fst a))) c = c) as G.
    { induction c as [|x c IH]; intro H; [reflexivity|]. cbn.
      assert (member (fst x) (map fst a) = false) as ->.
      { destruct (member (fst x) (map fst a)) eqn:E; [|reflexivity]. apply member_iff in E.
        exfalso. assert (In (fst x) (map fst b)) as I by (apply in_map, H; now left).
        clear - N' E I. induction (map fst a) as [|y l IH]; [contradiction|].
        cbn in N'. inversion N' as [|? ? Ny Nl]; subst. destruct E as [->|E].
        - apply Ny, in_or_app. now right.
        - now apply IH. }
      cbn. f_equal. apply IH. intros y Y. apply H. now right. }
    now apply G. }
  now rewrite B.
Qed.

Lemma filter_none : forall (l : list (nat * row)) commits,
  (forall id, In id (map fst l) -> ~ In id commits) ->
  filter (fun b => negb (member (fst b) commits)) l = l.
Proof.
  intros l commits D. induction l as [|x l IH]; [reflexivity|]. cbn.
  assert (member (fst x) commits = false) as ->.
  { destruct (member (fst x) commits) eqn:E; [|reflexivity]. apply member_iff in E.
    exfalso. apply (D (fst x)); [now left|exact E]. }
  cbn. f_equal. apply IH. intros id I. apply D. now right.
Qed.

Lemma nodup_filter : forall f (l : list (nat * row)), NoDup (map fst l) ->
  NoDup (map fst (filter f l)).
Proof.
  intros f l N. induction l as [|x c IH]; [constructor|]. cbn in *.
  inversion N as [|? ? Nx C]; subst. destruct (f x); [|now apply IH].
  cbn. constructor; [|now apply IH]. intro D. apply Nx.
  apply in_map_iff in D as (y & E & D). apply filter_In in D as [D _]. rewrite <- E.
  now apply in_map.
Qed.

(** * The invariant *)

(** The table that exists and its rows. *)
Definition holds (s : state) : Prop :=
  match saved s with
  | None => memory s = [] /\ rows s = [] /\ commits s = []
  | Some t => Forall (buffer_of t) (memory s) /\ Forall (of_table t) (rows s)
  end.

Definition log_holds (s : state) : Prop :=
  match log s with
  | None => memory s = [] /\ (commits s = [] \/ exists p, In (p, DropDelete) (processes s))
  | Some l =>
      saved s <> None /\ Permutation (batches l) (points (memory s)) /\ NoDup (map fst (batches l))
      /\ (forall id, In id (map fst (batches l)) \/ In id (commits s) -> id < next_id l)
      /\ (forall id, In id (map fst (batches l)) -> ~ In id (commits s))
  end.

Definition processes_hold (wal : bool) (s : state) : Prop :=
  forall p x, In (p, x) (processes s) ->
    (forall y, In (p, y) (processes s) -> y = x)
    /\ (is_statement x -> forall q y, In (q, y) (processes s) -> q <> p -> ~ is_statement y)
    /\ (has_flushed x -> memory s = [])
    /\ (x = DropDelete -> wal = true -> log s = None)
    /\ (x = CreateLog -> saved s <> None).

Record inv (wal : bool) (s : state) (l : list row) : Prop := {
  i_aborted : aborted s = false;
  i_writer : writer s = true;
  i_holds : holds s;
  i_stored : Permutation (rows s ++ map snd (points (memory s))) l;
  i_log : wal = true -> log_holds s;
  i_processes : processes_hold wal s
}.

Lemma inv_init : forall wal, inv wal init [].
Proof.
  intro wal. constructor; try reflexivity.
  - cbn. auto.
  - intros _. cbn. split; [reflexivity|now left].
  - intros p x [].
Qed.

(** Processes that change their place but nothing else. *)
Lemma holds_processes : forall s l, holds s -> holds (set_processes s l).
Proof. intros s l H. exact H. Qed.

(** A process that is not at [DropDelete] goes on with [x'], or ends, with other changes to the state
    that keep the data. *)
Lemma processes_go_on : forall wal s s' p x x',
  processes_hold wal s -> In (p, x) (processes s) -> (is_statement x) ->
  processes s' = (p, x') :: without p (processes s) ->
  (has_flushed x' -> memory s' = []) ->
  (x' = DropDelete -> wal = true -> log s' = None) ->
  (x' = CreateLog -> saved s' <> None) ->
  processes_hold wal s'.
Proof.
  intros wal s s' p x x' H I S E Fl Dd Cl q y Q. rewrite E in Q. rewrite E.
  destruct (H p x I) as (_ & One & _).
  assert (Others : forall q y, In (q, y) (without p (processes s)) -> ~ is_statement y).
  { intros r z R. apply in_without in R as [N R]. exact (One S r z R N). }
  destruct Q as [Q|Q].
  - injection Q as <- <-. split; [|split; [|split; [assumption|split; assumption]]].
    { intros y [Y|Y]; [now injection Y|]. apply in_without in Y as [Y _]. contradiction. }
    intros _ r z [R|R] N; [injection R as -> _; contradiction|]. exact (Others r z R).
  - pose proof (Others q y Q) as NS.
    assert (P : exists t, y = Putting t).
    { destruct y; try (exfalso; apply NS; intros t0; discriminate). eauto. }
    destruct P as [t ->]. apply in_without in Q as [Nq Q]. split.
    { intros z [Z|Z]; [injection Z as ->; contradiction|]. apply in_without in Z as [_ Z].
      now apply (H q _ Q). }
    split; [intro C; contradiction|]. split; [|split].
    + intros [C|[C|[C|C]]]; discriminate.
    + discriminate.
    + discriminate.
Qed.

Lemma processes_end : forall wal s s' p,
  processes_hold wal s -> processes s' = without p (processes s) ->
  (memory s = [] -> memory s' = []) -> (log s = None -> log s' = None) ->
  saved s' = saved s -> processes_hold wal s'.
Proof.
  intros wal s s' p H E M L Sv q y Q. rewrite E in Q. apply in_without in Q as [N Q].
  destruct (H q y Q) as (Un & One & Fl & Dd & Cl). split; [|split; [|split; [|split]]].
  - intros z Z. rewrite E in Z. apply in_without in Z as [_ Z]. now apply Un.
  - intros S r z R Nr. rewrite E in R. apply in_without in R as [_ R]. exact (One S r z R Nr).
  - intro F. auto.
  - intros -> W. auto.
  - rewrite Sv. exact Cl.
Qed.

(** A statement is the only one, so all others are puts. *)
Lemma processes_end_statement : forall wal s s' p x,
  processes_hold wal s -> In (p, x) (processes s) -> is_statement x ->
  processes s' = without p (processes s) -> processes_hold wal s'.
Proof.
  intros wal s s' p x H I S E q y Q. rewrite E in Q. apply in_without in Q as [N Q].
  destruct (H p x I) as (_ & One & _). pose proof (One S q y Q N) as NS.
  assert (P : exists t, y = Putting t).
  { destruct y; try (exfalso; apply NS; intros t0; discriminate). eauto. }
  destruct P as [t ->]. split; [|split; [|split; [|split]]].
  - intros z Z. rewrite E in Z. apply in_without in Z as [_ Z]. now apply (H q _ Q).
  - intro C. contradiction.
  - intros [C|[C|[C|C]]]; discriminate.
  - discriminate.
  - discriminate.
Qed.

(** * Saving *)

Lemma save_inv : forall wal fatal s l bs rest, inv wal s l ->
  Forall (fun b => In b (memory s)) bs -> Forall (fun b => In b (memory s)) rest ->
  Permutation (points (memory s)) (points bs ++ points rest) ->
  let s' := save wal fatal s bs rest in
  inv wal s' l /\ processes s' = processes s /\ (bs <> [] -> memory s' = rest) /\ (bs = [] -> s' = s).
Proof.
  intros wal fatal s l bs rest I Ib Ir P s'. pose proof I as [A W H St Lg Pr].
  destruct bs as [|b bs].
  { subst s'. cbn. split; [exact I|]. split; [reflexivity|]. split; [congruence|reflexivity]. }
  apply Forall_cons_iff in Ib as X. destruct X as [Inb _].
  assert (T : exists t, saved s = Some t /\ Forall (buffer_of t) (memory s)
    /\ Forall (of_table t) (rows s)).
  { unfold holds in H. destruct (saved s) as [t|]; [exists t; tauto|]. exfalso.
    destruct H as (M & _). rewrite M in Inb. destruct Inb. }
  destruct T as (t & Sv & Fm & Fr).
  assert (Sub : forall c, Forall (fun b => In b (memory s)) c -> Forall (buffer_of t) c).
  { intros c C. rewrite Forall_forall in *. auto. }
  pose proof (Sub _ Ib) as Fb. pose proof (Sub _ Ir) as Frest.
  assert (Rows : Forall (of_table t) (rows s ++ map snd (points (b :: bs)))).
  { apply Forall_app. split; [exact Fr|]. apply Forall_forall. intros r R.
    apply in_map_iff in R as ([id r'] & <- & R). unfold points in R. apply in_concat in R as (ps & C & R).
    apply in_map_iff in C as (c & <- & C). rewrite Forall_forall in Fb. destruct (Fb c C) as [_ F].
    rewrite Forall_forall in F. exact (F _ R). }
  assert (Stored : Permutation ((rows s ++ map snd (points (b :: bs))) ++ map snd (points rest)) l).
  { rewrite <- app_assoc, <- map_app, <- P. exact St. }
  assert (NE : memory s <> []) by (intro M; rewrite M in Inb; destruct Inb).
  assert (Pr' : forall s'', processes s'' = processes s -> memory s'' = rest ->
    (log s = None -> log s'' = None) -> saved s'' = saved s -> processes_hold wal s'').
  { intros s'' E1 E2 E3 E4 p x X. rewrite E1 in *. destruct (Pr p x X) as (B0 & B1 & B2 & B3 & B4).
    split; [exact B0|]. split; [exact B1|]. rewrite E2. split; [intro F; contradiction (NE (B2 F))|].
    split; [intros D Wt; auto|]. rewrite E4. exact B4. }
  subst s'. unfold save. rewrite (not_ragged t _ Fb). rewrite Sv. destruct wal.
  - specialize (Lg eq_refl). unfold log_holds in Lg. destruct (log s) as [L|] eqn:EL.
    + destruct Lg as (L1 & L2 & L3 & L4 & L5).
      set (ids := map fst (points (b :: bs))) in *.
      assert (Fil : Permutation (filter (fun x => negb (member (fst x) ids)) (batches L)) (points rest)).
      { apply filter_saved; [|exact L3]. rewrite L2. exact P. }
      assert (Inn : forall id, In id (map fst (filter (fun x => negb (member (fst x) ids)) (batches L))) ->
        In id (map fst (batches L)) /\ ~ In id ids).
      { intros id D. apply in_map_iff in D as (x & <- & D). apply filter_In in D as [D1 D2].
        split; [now apply in_map|]. apply negb_true_iff in D2. intro C. apply member_iff in C.
        congruence. }
      assert (Ids : forall id, In id ids -> In id (map fst (batches L))).
      { intros id D. assert (In id (map fst (points (memory s)))) as D'.
        { eapply Permutation_in; [apply Permutation_sym, Permutation_map, P|].
          rewrite map_app. apply in_or_app. now left. }
        eapply Permutation_in; [apply Permutation_sym, Permutation_map, L2|exact D']. }
      split; [|split; [reflexivity|split; [reflexivity|discriminate]]].
      constructor; cbn [aborted writer rows memory]; try assumption.
      * unfold holds. cbn [saved memory rows]. split; [exact Frest|exact Rows].
      * intros _. unfold log_holds. cbn [log saved batches memory next_id commits processes].
        split; [discriminate|]. split; [exact Fil|]. split.
        { now apply nodup_filter. }
        split.
        { intros id [D|D].
          - apply L4. left. now apply Inn.
          - apply in_app_or in D as [D|D]; [apply L4; now right|]. apply L4. left. now apply Ids. }
        intros id D C. apply Inn in D as [D1 D2]. apply in_app_or in C as [C|C]; [|contradiction].
        exact (L5 id D1 C).
      * apply Pr'; [reflexivity|reflexivity|congruence|now symmetry].
    + exfalso. destruct Lg as (Lg & _). contradiction.
  - split; [|split; [reflexivity|split; [reflexivity|discriminate]]].
    constructor; cbn [aborted writer rows memory]; try assumption.
    + unfold holds. cbn [saved memory rows]. split; [exact Frest|exact Rows].
    + discriminate.
    + apply Pr'; [reflexivity|reflexivity|auto|now symmetry].
Qed.

Lemma in_self : forall (l : list buffer), Forall (fun b => In b l) l.
Proof. intro l. apply Forall_forall. auto. Qed.
Lemma in_filter : forall f (l : list buffer), Forall (fun b => In b l) (filter f l).
Proof. intros f l. apply Forall_forall. intros b B. now apply filter_In in B as [B _]. Qed.

Lemma flush_inv : forall wal s l, inv wal s l ->
  let s' := save wal false s (memory s) [] in
  inv wal s' l /\ processes s' = processes s /\ memory s' = [].
Proof.
  intros wal s l I s'. destruct (save_inv wal false s l (memory s) [] I) as (I' & P & M & M').
  - apply in_self.
  - constructor.
  - cbn. now rewrite app_nil_r.
  - split; [exact I'|]. split; [exact P|]. subst s'. destruct (memory s) as [|b m] eqn:E.
    + rewrite M' by reflexivity. exact E.
    + apply M. discriminate.
Qed.

(** * Inserting *)

Lemma nodup_snoc : forall (l : list nat) x, NoDup l -> ~ In x l -> NoDup (l ++ [x]).
Proof.
  intros l x N I. apply Permutation_NoDup with (x :: l); [apply Permutation_cons_append|].
  now constructor.
Qed.

Lemma put_inv : forall wal s l p g v t, inv wal s l ->
  find_process p (processes s) = Some (Putting t) -> saved s = Some t -> length v = fields t ->
  (forall q x, In (q, x) (processes s) -> ~ has_flushed x) ->
  inv wal (put wal s p t (Row (inc t) g v)) (inserted wal s (Batch p g v) l).
Proof.
  intros wal s l p g v t I Fp Sv Len Fl. pose proof I as [A W H St Lg Pr].
  assert (R : of_table t (Row (inc t) g v)) by (split; [reflexivity|exact Len]).
  unfold holds in H. rewrite Sv in H. destruct H as [Hm Hr].
  unfold inserted. rewrite Fp. unfold put. destruct wal.
  - specialize (Lg eq_refl). unfold log_holds in Lg. destruct (log s) as [L|] eqn:EL.
    + destruct Lg as (L1 & L2 & L3 & L4 & L5).
      destruct (insert_ok t (next_id L) _ (memory s) Hm R) as (m & E & Fm & P). rewrite E.
      constructor; cbn [aborted writer rows memory]; try assumption.
      * unfold holds. cbn [saved memory rows]. rewrite Sv. now split.
      * rewrite P, map_app, app_assoc. apply Permutation_app_tail. exact St.
      * intros _. unfold log_holds. cbn [log saved batches memory next_id commits].
        split; [exact L1|]. split; [rewrite P; now apply Permutation_app_tail|].
        rewrite map_app. cbn [map fst].
        assert (Fresh : forall id, In id (map fst (batches L)) -> id <> next_id L).
        { intros id D ->. specialize (L4 (next_id L) (or_introl D)). lia. }
        split; [apply nodup_snoc; [exact L3|intro D; now apply (Fresh _ D)]|]. split.
        { intros id [D|D].
          - apply in_app_or in D as [D|[<-|[]]]; [|lia]. specialize (L4 id (or_introl D)). lia.
          - specialize (L4 id (or_intror D)). lia. }
        intros id D C. apply in_app_or in D as [D|[<-|[]]]; [exact (L5 id D C)|].
        specialize (L4 _ (or_intror C)). lia.
      * intros q x Q. cbn [processes] in *. destruct (Pr q x Q) as (B0 & B1 & B2 & B3 & B4).
        split; [exact B0|]. split; [exact B1|]. split; [intro F; now contradiction (Fl q x Q)|].
        split; [|exact B4]. intros -> _. exfalso. apply (Fl q _ Q). right. now left.
    + constructor; cbn [ends set_processes aborted writer rows memory]; try assumption.
      * unfold holds. cbn. rewrite Sv. now split.
      * intros _. unfold log_holds. cbn. rewrite EL. destruct Lg as [Lg1 Lg2]. split; [exact Lg1|].
        destruct Lg2 as [Lg2|(q & Q)]; [now left|]. exfalso. apply (Fl q _ Q). right. now left.
      * apply processes_end with s p; [exact Pr|reflexivity|auto|auto|reflexivity].
  - destruct (insert_ok t 0 _ (memory s) Hm R) as (m & E & Fm & P). rewrite E.
    assert (G : match log s with Some _ | _ => l ++ [Row (inc t) g v] end = l ++ [Row (inc t) g v])
      by now destruct (log s).
    constructor; cbn [aborted writer rows memory]; try assumption.
    + unfold holds. cbn [saved memory rows]. rewrite Sv. now split.
    + rewrite P, map_app, app_assoc. apply Permutation_app_tail. exact St.
    + discriminate.
    + intros q x Q. cbn [processes] in *. destruct (Pr q x Q) as (B0 & B1 & B2 & B3 & B4).
      split; [exact B0|]. split; [exact B1|]. split; [intro F; now contradiction (Fl q x Q)|]. split; [discriminate|exact B4].
Qed.

(** * Statements *)

(** A statement that changes nothing but where it is. *)
Lemma keep_inv : forall wal s s' l p x x', inv wal s l -> In (p, x) (processes s) -> is_statement x ->
  x <> DropDelete ->
  (processes s' = (p, x') :: without p (processes s) \/ processes s' = without p (processes s)) ->
  aborted s' = aborted s -> writer s' = writer s -> saved s' = saved s -> rows s' = rows s ->
  commits s' = commits s -> log s' = log s -> memory s' = memory s ->
  (has_flushed x' -> memory s = []) -> (x' = DropDelete -> wal = true -> log s = None) ->
  (x' = CreateLog -> saved s <> None) ->
  inv wal s' l.
Proof.
  intros wal s s' l p x x' [A W H St Lg Pr] I S ND P Ea Ew Es Er Ec El Em Fl Dd Cl.
  constructor; try congruence.
  - unfold holds in *. rewrite Es, Em, Er, Ec. exact H.
  - intro Wt. specialize (Lg Wt). unfold log_holds in *. rewrite El, Es, Em, Ec.
    destruct (log s) as [L|]; [exact Lg|]. destruct Lg as [L1 [L2|(q & Q)]]; [tauto|].
    split; [exact L1|]. exfalso. destruct (Nat.eq_dec q p) as [->|N].
    + destruct (Pr p x I) as (Un & _). now apply ND, eq_sym, Un.
    + destruct (Pr p x I) as (_ & One & _). apply (One S q _ Q N). intros t C. discriminate.
  - destruct P as [P|P].
    + eapply processes_go_on; try eassumption; rewrite ?Em, ?El, ?Es; assumption.
    + now apply processes_end_statement with s p x.
Qed.

Lemma statement : forall x, (forall t, x <> Putting t) -> is_statement x.
Proof. intros x H. exact H. Qed.

Ltac stmt := apply statement; intros ?; discriminate.
Ltac not_flushed := intros [?|[?|[?|?]]]; discriminate.
Ltac ends_or := solve [stmt | now left | now right | not_flushed | auto | intros; congruence].

Lemma advance_inv : forall wal s l p x s', inv wal s l -> find_process p (processes s) = Some x ->
  advance wal s p x = Some s' -> inv wal s' (inserted wal s (Step p) l).
Proof.
  intros wal s l p x s' I Fp E. pose proof I as [A W H St Lg Pr]. pose proof (find_in _ _ _ Fp) as In_p.
  unfold inserted. rewrite Fp. destruct x; cbn [advance] in E; try discriminate.
  - (* CreateCheck *)
    injection E as <-. destruct (registered s).
    + apply (keep_inv wal s _ l p (CreateCheck fields) (CreateCheck 0)); try reflexivity;
      try assumption; try discriminate; ends_or.
    + apply (keep_inv wal s _ l p (CreateCheck fields) (CreateSave fields)); try reflexivity;
      try assumption; try discriminate; ends_or.
  - (* CreateSave *)
    injection E as <-. destruct (saved s) as [t|] eqn:Sv.
    + apply (keep_inv wal s _ l p (CreateSave fields) (CreateCheck 0)); try reflexivity;
      try assumption; try discriminate; ends_or.
    + unfold holds in H. rewrite Sv in H. destruct H as (Hm & Hr & Hc).
      constructor; cbn [goes_on set_processes aborted writer rows memory]; try assumption.
      * unfold holds. cbn. rewrite Hm. split; constructor.
      * rewrite Hr in St. exact St.
      * intro Wt. specialize (Lg Wt). unfold log_holds in *. cbn. destruct (log s) as [L|].
        { destruct Lg as [L1 _]. rewrite Sv in L1. contradiction. }
        split; [exact Hm|now left].
      * eapply processes_go_on; [exact Pr|exact In_p|stmt|reflexivity|not_flushed|discriminate|discriminate].
  - (* CreateRegister *)
    injection E as <-. destruct (saved s) as [t0|] eqn:Sv.
    + apply (keep_inv wal s _ l p (CreateRegister t) CreateLog); try reflexivity;
      try assumption; try discriminate; ends_or.
    + apply (keep_inv wal s _ l p (CreateRegister t) (CreateCheck 0)); try reflexivity;
      try assumption; try discriminate; ends_or.
  - (* CreateLog *)
    assert (D : inv wal (ends s p) l).
    { apply (keep_inv wal s _ l p CreateLog DropCheck); try reflexivity;
      try assumption; try discriminate; ends_or. }
    destruct wal; [|injection E as <-; exact D].
    destruct (log s) as [L|] eqn:EL; injection E as <-; [exact D|].
    specialize (Lg eq_refl). unfold log_holds in Lg. rewrite EL in Lg. destruct Lg as [L1 L2].
    destruct L2 as [L2|(q & Q)].
    2: { exfalso. destruct (Pr p _ In_p) as (Un & One & _). destruct (Nat.eq_dec q p) as [->|N].
         - specialize (Un _ Q). discriminate.
         - apply (One ltac:(stmt) q _ Q N). stmt. }
    constructor; cbn [ends set_processes aborted writer rows memory]; try assumption.
    + intros _. unfold log_holds. cbn. rewrite L1, L2. destruct (Pr p _ In_p) as (_ & _ & _ & _ & Cl).
      split; [now apply Cl|]. split; [constructor|]. split; [constructor|].
      split; [intros id [[]|[]]|intros id []].
    + eapply processes_end_statement; [exact Pr|exact In_p|stmt|reflexivity].
  - (* DropCheck *)
    injection E as <-. destruct (registered s).
    + apply (keep_inv wal s _ l p DropCheck DropDeregister); try reflexivity;
      try assumption; try discriminate; ends_or.
    + apply (keep_inv wal s _ l p DropCheck DropCheck); try reflexivity;
      try assumption; try discriminate; ends_or.
  - (* DropDeregister *)
    injection E as <-. apply (keep_inv wal s _ l p DropDeregister DropFlush); try reflexivity;
      try assumption; try discriminate; ends_or.
  - (* DropFlush *)
    rewrite W in E. injection E as <-. destruct (flush_inv wal s l I) as (I' & P' & M').
    rewrite (i_aborted _ _ _ I').
    apply (keep_inv wal (save wal false s (memory s) []) _ l p DropFlush DropLog); try reflexivity;
      try assumption; try discriminate; ends_or.
  - (* DropLog *)
    assert (M : memory s = []) by (apply (Pr p _ In_p); now left).
    injection E as <-. destruct wal.
    2: { apply (keep_inv false s _ l p DropLog DropDelete); try reflexivity;
      try assumption; try discriminate; ends_or. }
    specialize (Lg eq_refl). unfold log_holds in Lg.
    destruct (saved s) as [t|] eqn:Sv; destruct (log s) as [L|] eqn:EL.
    + constructor; cbn [goes_on set_processes aborted writer rows memory]; try assumption.
      * unfold holds in *. cbn. rewrite Sv in *. exact H.
      * intros _. unfold log_holds. cbn. split; [exact M|]. right. exists p. now left.
      * eapply processes_go_on; [exact Pr|exact In_p|stmt|reflexivity|auto|reflexivity|discriminate].
    + apply (keep_inv true s _ l p DropLog DropLog); try reflexivity;
      try assumption; try discriminate; ends_or.
    + destruct Lg as [L1 _]. contradiction.
    + apply (keep_inv true s _ l p DropLog DropDelete); try reflexivity;
      try assumption; try discriminate; ends_or.
  - (* DropDelete *)
    assert (M : memory s = []) by (apply (Pr p _ In_p); right; now left).
    injection E as <-. constructor; cbn [ends set_processes aborted writer rows memory]; try assumption.
    + unfold holds. cbn. auto.
    + rewrite M. constructor.
    + intro Wt. unfold log_holds. cbn. destruct (Pr p _ In_p) as (_ & _ & _ & N & _).
      rewrite (N eq_refl Wt). auto.
    + eapply processes_end_statement; [exact Pr|exact In_p|stmt|reflexivity].
  - (* TruncateCheck *)
    injection E as <-. destruct (registered s).
    + apply (keep_inv wal s _ l p TruncateCheck TruncateFlush); try reflexivity;
      try assumption; try discriminate; ends_or.
    + apply (keep_inv wal s _ l p TruncateCheck TruncateCheck); try reflexivity;
      try assumption; try discriminate; ends_or.
  - (* TruncateFlush *)
    rewrite W in E. injection E as <-. destruct (flush_inv wal s l I) as (I' & P' & M').
    rewrite (i_aborted _ _ _ I').
    apply (keep_inv wal (save wal false s (memory s) []) _ l p TruncateFlush TruncateLog);
      try reflexivity;
      try assumption; try discriminate; ends_or.
  - (* TruncateLog *)
    assert (M : memory s = []) by (apply (Pr p _ In_p); right; right; now left).
    injection E as <-. destruct wal.
    2: { apply (keep_inv false s _ l p TruncateLog TruncateDelete); try reflexivity;
      try assumption; try discriminate; ends_or. }
    specialize (Lg eq_refl). unfold log_holds in Lg.
    destruct (saved s) as [t|] eqn:Sv; destruct (log s) as [L|] eqn:EL.
    + constructor; cbn [goes_on set_processes aborted writer rows memory]; try assumption.
      * unfold holds in *. cbn. rewrite Sv in *. exact H.
      * intros _. unfold log_holds. cbn. destruct Lg as (L1 & L2 & L3 & L4 & L5). rewrite M.
        split; [discriminate|]. split; [constructor|]. split; [constructor|]. split; [|intros id []].
        intros id [[]|D]. apply L4. now right.
      * eapply processes_go_on; [exact Pr|exact In_p|stmt|reflexivity|auto|discriminate|discriminate].
    + apply (keep_inv true s _ l p TruncateLog TruncateLog); try reflexivity;
      try assumption; try discriminate; ends_or.
    + destruct Lg as [L1 _]. contradiction.
    + apply (keep_inv true s _ l p TruncateLog TruncateDelete); try reflexivity;
      try assumption; try discriminate; ends_or.
  - (* TruncateDelete *)
    assert (M : memory s = []) by (apply (Pr p _ In_p); right; right; now right).
    injection E as <-. constructor; cbn [ends set_processes aborted writer rows memory]; try assumption.
    + unfold holds in *. cbn. destruct (saved s); [|tauto]. rewrite M. split; constructor.
    + rewrite M. constructor.
    + intro Wt. specialize (Lg Wt). unfold log_holds in *. cbn.
      destruct (log s) as [L|]; [exact Lg|]. destruct Lg as [L1 [L2|(q & Q)]]; [tauto|].
      split; [exact L1|]. exfalso. destruct (Pr p _ In_p) as (Un & One & _).
      destruct (Nat.eq_dec q p) as [->|N].
      * specialize (Un _ Q). discriminate.
      * apply (One ltac:(stmt) q _ Q N). stmt.
    + eapply processes_end_statement; [exact Pr|exact In_p|stmt|reflexivity].
Qed.

Lemma restart_inv : forall s l, inv true s l -> (forall p, ~ In (p, DropDelete) (processes s)) ->
  inv true (restart true s) l.
Proof.
  intros s l [A W H St Lg Pr] N. specialize (Lg eq_refl). unfold log_holds in Lg. unfold restart.
  assert (NoP : forall s'', processes s'' = [] -> processes_hold true s'').
  { intros s'' E p x X. rewrite E in X. destruct X. }
  assert (NoC : log s = None -> memory s = [] /\ commits s = []).
  { intro EL. rewrite EL in Lg. destruct Lg as [L1 [L2|(p & Q)]]; [tauto|]. now apply N in Q. }
  destruct (saved s) as [t|] eqn:Sv.
  - unfold holds in H. rewrite Sv in H. destruct H as [Hm Hr].
    set (L := match log s with Some l => l | None => Log 0 [] end).
    assert (Q : Permutation (batches L) (points (memory s)) /\ NoDup (map fst (batches L))
      /\ (forall id, In id (map fst (batches L)) \/ In id (commits s) -> id < next_id L)
      /\ (forall id, In id (map fst (batches L)) -> ~ In id (commits s))).
    { subst L. destruct (log s) as [L|] eqn:EL; [tauto|]. destruct (NoC eq_refl) as [-> ->]. cbn.
      split; [constructor|]. split; [constructor|]. split; [intros id [[]|[]]|intros id []]. }
    destruct Q as (Q1 & Q2 & Q3 & Q4). rewrite (filter_none _ _ Q4).
    destruct (replay_ok t (batches L) []) as (m & E & Fm & Pm).
    + constructor.
    + apply Forall_forall. intros x X. apply (Permutation_in x Q1) in X. unfold points in X.
      apply in_concat in X as (ps & C & X). apply in_map_iff in C as (c & <- & C).
      rewrite Forall_forall in Hm. destruct (Hm c C) as [_ F]. rewrite Forall_forall in F. auto.
    + rewrite E. cbn [points map concat app] in Pm.
      constructor; cbn [aborted writer rows memory]; try reflexivity.
      * unfold holds. cbn. now split.
      * rewrite Pm, Q1. exact St.
      * intros _. unfold log_holds. cbn. split; [discriminate|].
        split; [now rewrite Pm|]. tauto.
      * now apply NoP.
  - unfold holds in H. rewrite Sv in H. destruct H as (Hm & Hr & Hc).
    assert (EL : log s = None).
    { destruct (log s); [|reflexivity]. destruct Lg as [L1 _]. contradiction. }
    constructor; cbn [aborted writer rows memory]; try reflexivity.
    + unfold holds. cbn. now split.
    + rewrite Hm in St. exact St.
    + intros _. unfold log_holds. cbn. rewrite EL. split; [reflexivity|now left].
    + now apply NoP.
Qed.

Lemma start_inv : forall wal s l p x, inv wal s l -> find_process p (processes s) = None ->
  (is_statement x -> forall q y, In (q, y) (processes s) -> ~ is_statement y) ->
  ~ has_flushed x -> x <> DropDelete -> x <> CreateLog -> inv wal (goes_on s p x) l.
Proof.
  intros wal s l p x [A W H St Lg Pr] Fp Only NF ND NC.
  constructor; try assumption.
  - intro Wt. specialize (Lg Wt). unfold log_holds in *. cbn. destruct (log s); [exact Lg|].
    destruct Lg as [L1 [L2|(q & Q)]]; [tauto|]. split; [exact L1|]. right. exists q. right.
    apply in_without. split; [|exact Q]. intros ->. clear - Fp Q.
    induction (processes s) as [|[r z] c IH]; [destruct Q|]. cbn in Fp.
    destruct (Nat.eqb_spec r p) as [->|N]; [discriminate|].
    destruct Q as [Q|Q]; [injection Q as -> _; contradiction|]. now apply IH.
  - intros q y Q. cbn [goes_on set_processes processes memory log saved] in *.
    destruct Q as [Q|Q].
    + injection Q as <- <-. split.
      { intros z [Z|Z]; [now injection Z|]. apply in_without in Z as [Z _]. contradiction. }
      split; [|split; [|split]]; try contradiction.
      intros S r z [R|R] Nr; [injection R as -> _; contradiction|]. apply in_without in R as [_ R].
      exact (Only S r z R).
    + apply in_without in Q as [Nq Q]. destruct (Pr q y Q) as (Un & One & Fl & Dd & Cl). split.
      { intros z [Z|Z]; [injection Z as <- _; contradiction|]. apply in_without in Z as [_ Z].
        now apply Un. }
      split; [|split; [exact Fl|split; [exact Dd|exact Cl]]].
      intros S r z [R|R] Nr.
      * injection R as <- <-. intro Sx. exact (Only Sx q y Q S).
      * apply in_without in R as [_ R]. exact (One S r z R Nr).
Qed.

Lemma step_inv : forall wal s l e s', inv wal s l -> kept_apart wal s e -> step wal s e = Some s' ->
  inv wal s' (inserted wal s e l).
Proof.
  intros wal s l e s' I K E. pose proof I as [A W H St Lg Pr]. unfold step in E. rewrite A in E.
  destruct e as [p q|p g v|p|p|g|].
  - destruct (find_process p (processes s)) eqn:Fp; [discriminate|]. cbn [inserted].
    destruct q as [|n| |]; cbn [kept_apart] in K.
    + destruct (registered s) as [t|]; [|discriminate]. injection E as <-.
      apply start_inv; try assumption; try discriminate; [|not_flushed].
      intros S. exfalso. now apply (S t).
    + injection E as <-. apply start_inv; try assumption; try discriminate; [auto|not_flushed].
    + injection E as <-. apply start_inv; try assumption; try discriminate; [auto|not_flushed].
    + injection E as <-. apply start_inv; try assumption; try discriminate; [auto|not_flushed].
  - cbn [kept_apart] in K. destruct (find_process p (processes s)) as [[t| | | | | | | | | | | | |]|] eqn:Fp;
      try discriminate.
    destruct (Nat.eqb_spec (length v) (fields t)) as [Len|]; [|discriminate]. injection E as <-.
    destruct (K t eq_refl) as [Sv Fl]. now apply put_inv.
  - destruct (find_process p (processes s)) as [x|] eqn:Fp; [|discriminate].
    now apply advance_inv with x.
  - cbn [kept_apart inserted] in *. destruct (find_process p (processes s)) as [x|] eqn:Fp; [|discriminate].
    injection E as <-. pose proof (find_in _ _ _ Fp) as In_p.
    constructor; try assumption.
    + intro Wt. specialize (Lg Wt). unfold log_holds in *. cbn. destruct (log s); [exact Lg|].
      destruct Lg as [L1 [L2|(q & Q)]]; [tauto|]. split; [exact L1|]. right. exists q.
      apply in_without. split; [|exact Q]. intros ->. apply K. f_equal. symmetry.
      now apply (Pr p x In_p).
    + apply processes_end with s p; [exact Pr|reflexivity|auto|auto|reflexivity].
  - rewrite W in E. injection E as <-. cbn [inserted].
    apply save_inv; [exact I|apply in_filter|apply in_filter|apply points_split].
  - injection E as <-. destruct K as [-> K]. cbn [inserted]. now apply restart_inv.
Qed.

Lemma calm_inv : forall wal s l, calm wal s l -> inv wal s l.
Proof.
  intros wal s l C. induction C as [|s l e s' C IH K E]; [apply inv_init|]. now apply step_inv.
Qed.

(** Every row that was inserted is in the table or in memory. *)
Theorem rows_are_kept : forall wal s l, calm wal s l ->
  Permutation (rows s ++ map snd (points (memory s))) l.
Proof. intros wal s l C. exact (i_stored _ _ _ (calm_inv _ _ _ C)). Qed.

Theorem rows_are_not_mixed : forall wal s l r, calm wal s l -> In r (rows s) ->
  exists t, saved s = Some t /\ into r = inc t /\ length (values r) = fields t.
Proof.
  intros wal s l r C R. pose proof (i_holds _ _ _ (calm_inv _ _ _ C)) as H. unfold holds in H.
  destruct (saved s) as [t|].
  - exists t. destruct H as [_ H]. rewrite Forall_forall in H. split; [reflexivity|]. now apply H.
  - destruct H as (_ & E & _). rewrite E in R. destruct R.
Qed.

Theorem server_runs : forall wal s l, calm wal s l -> aborted s = false /\ writer s = true.
Proof. intros wal s l C. destruct (calm_inv _ _ _ C). now split. Qed.

(** A statement can always go on. *)
Theorem statements_go_on : forall wal s l p x, calm wal s l ->
  find_process p (processes s) = Some x -> is_statement x -> exists s', step wal s (Step p) = Some s'.
Proof.
  intros wal s l p x C Fp S. destruct (server_runs _ _ _ C) as [A W]. unfold step. rewrite A, Fp.
  destruct x; cbn [advance]; try (eexists; reflexivity).
  - exfalso. now apply (S t).
  - rewrite W. eexists; reflexivity.
  - rewrite W. eexists; reflexivity.
Qed.

(** * The table that is used is the one that is saved *)
Definition fits (s : state) (x : process) : Prop :=
  match x with
  | CreateRegister t => saved s = Some t
  | DropFlush | DropLog | DropDelete => registered s = None
  | _ => True
  end.
Definition agrees (s : state) : Prop :=
  (registered s = None \/ registered s = saved s)
  /\ forall p x, In (p, x) (processes s) -> fits s x.

Lemma save_agrees : forall wal fatal s bs rest, agrees s ->
  agrees (save wal fatal s bs rest)
  /\ (aborted (save wal fatal s bs rest) = false -> registered (save wal fatal s bs rest) = registered s
      /\ processes (save wal fatal s bs rest) = processes s /\ saved (save wal fatal s bs rest) = saved s).
Proof.
  intros wal fatal s bs rest [H1 H2]. unfold save. destruct (existsb is_ragged bs).
  { split; [|discriminate]. split; [left; reflexivity|]. intros p x []. }
  destruct bs as [|b bs]; [split; [split; assumption|auto]|].
  unfold agrees, fits in *. destruct (saved s) as [t|]; [destruct wal; [destruct (log s)|]|];
    cbn [saved registered processes aborted]; (split; [split; assumption|auto]).
Qed.

Lemma others_fit : forall wal s l p x, inv wal s l -> In (p, x) (processes s) -> is_statement x ->
  forall q y, In (q, y) (without p (processes s)) -> forall s', fits s' y.
Proof.
  intros wal s l p x I Hp Hs q y Hq s'. apply in_without in Hq. destruct Hq as [N Hq].
  destruct (i_processes _ _ _ I p x Hp) as (_ & H & _). specialize (H Hs q y Hq N).
  destruct y; try exact Logic.I; exfalso; apply H; intros t0; discriminate.
Qed.

Lemma go_on_agrees : forall wal s l p x, inv wal s l -> In (p, x) (processes s) -> is_statement x ->
  forall s' x', processes s' = processes s -> registered s' = None \/ registered s' = saved s' -> fits s' x' ->
  agrees (goes_on s' p x').
Proof.
  intros wal s l p x I Hp Hs s' x' E R Fx. split; [exact R|]. unfold goes_on, set_processes. cbn [processes].
  intros q y [H|H]; [injection H as <- <-; exact Fx|]. rewrite E in H.
  exact (others_fit wal s l p x I Hp Hs q y H _).
Qed.
Lemma end_agrees : forall wal s l p x, inv wal s l -> In (p, x) (processes s) -> is_statement x ->
  forall s', processes s' = processes s -> registered s' = None \/ registered s' = saved s' ->
  agrees (ends s' p).
Proof.
  intros wal s l p x I Hp Hs s' E R. split; [exact R|]. unfold ends, set_processes. cbn [processes].
  intros q y H. rewrite E in H. exact (others_fit wal s l p x I Hp Hs q y H _).
Qed.

Lemma advance_agrees : forall wal s l p x s', inv wal s l -> agrees s -> In (p, x) (processes s) ->
  advance wal s p x = Some s' -> agrees s'.
Proof.
  intros wal s l p x s' I A Hp E. pose proof A as [R Fs].
  assert (Hs : is_statement x) by (destruct x; [discriminate E|..]; intros t1; discriminate).
  pose proof (go_on_agrees wal s l p x I Hp Hs) as G. pose proof (end_agrees wal s l p x I Hp Hs) as D.
  pose proof (Fs p x Hp) as Fx.
  destruct x; cbn [advance] in E; cbn [fits] in Fx.
  - discriminate E.
  - injection E as <-. destruct (registered s) eqn:Er; [now apply D; [|rewrite Er]|now apply G; [|rewrite Er|]].
  - injection E as <-. destruct (saved s) eqn:Es; [apply D; [reflexivity|now rewrite Es]|].
    apply G; [reflexivity| |reflexivity]. cbn [registered saved]. left. destruct R as [R|R]; exact R.
  - injection E as <-. destruct (saved s) eqn:Es; [|apply D; [reflexivity|now rewrite Es]].
    apply G; [reflexivity| |exact Logic.I]. right. cbn [registered saved]. symmetry. exact Fx.
  - injection E as <-. destruct wal; [destruct (log s)|]; apply D; try reflexivity; exact R.
  - injection E as <-. destruct (registered s) eqn:Er; [now apply G; [|rewrite Er|]|now apply D; [|rewrite Er]].
  - injection E as <-. apply G; [reflexivity|left; reflexivity|reflexivity].
  - destruct (writer s); [|discriminate E]. injection E as <-.
    destruct (save_agrees wal false s (memory s) [] A) as [A' K].
    destruct (aborted (save wal false s (memory s) [])); [exact A'|]. destruct (K eq_refl) as (K1 & K2 & K3).
    apply G; [exact K2|apply A'|]. cbn [fits]. rewrite K1. exact Fx.
  - injection E as <-. destruct wal; [destruct (saved s) eqn:Es; [destruct (log s)|]|].
    + apply G; [reflexivity|left; exact Fx|exact Fx].
    + apply D; [reflexivity|now rewrite Es].
    + apply G; [reflexivity|left; exact Fx|exact Fx].
    + apply G; [reflexivity|left; exact Fx|exact Fx].
  - injection E as <-. apply D; [reflexivity|left; exact Fx].
  - injection E as <-. destruct (registered s) eqn:Er; [now apply G; [|rewrite Er|]|now apply D; [|rewrite Er]].
  - destruct (writer s); [|discriminate E]. injection E as <-.
    destruct (save_agrees wal false s (memory s) [] A) as [A' K].
    destruct (aborted (save wal false s (memory s) [])); [exact A'|]. destruct (K eq_refl) as (K1 & K2 & K3).
    apply G; [exact K2|apply A'|exact Logic.I].
  - injection E as <-. destruct wal; [destruct (saved s) eqn:Es; [destruct (log s)|]|].
    + apply G; [reflexivity|exact R|exact Logic.I].
    + apply D; [reflexivity|now rewrite Es].
    + apply G; [reflexivity|now rewrite Es|exact Logic.I].
    + apply G; [reflexivity|exact R|exact Logic.I].
  - injection E as <-. apply D; [reflexivity|exact R].
Qed.

Lemma step_agrees : forall wal s l e s', inv wal s l -> agrees s -> step wal s e = Some s' -> agrees s'.
Proof.
  intros wal s l e s' I A E. pose proof A as [R Fs]. unfold step in E. rewrite (i_aborted _ _ _ I) in E. destruct e.
  - destruct (find_process p (processes s)); [discriminate E|].
    assert (G : forall x, fits s x -> agrees (goes_on s p x)).
    { intros x Hx. split; [exact R|]. unfold goes_on, set_processes. cbn [processes].
      intros q0 y [H|H]; [injection H as <- <-; exact Hx|]. apply in_without in H. exact (Fs q0 y (proj2 H)). }
    destruct q; [destruct (registered s); [|discriminate E]|..]; injection E as <-; apply G; exact Logic.I.
  - destruct (find_process p (processes s)) as [[t| | | | | | | | | | | | |]|]; try discriminate E.
    destruct (_ =? fields t); [|discriminate E]. injection E as <-.
    assert (X : forall r, agrees (put wal s p t r)); [|apply X].
    intros r. unfold put. destruct wal; [destruct (log s) as [g|]|].
    + destruct (insert (memory s) t (next_id g) r); [exact A|split; [left; reflexivity|intros ? ? []]..].
    + split; [exact R|]. unfold ends, set_processes. cbn [processes]. intros q y H. apply in_without in H. exact (Fs q y (proj2 H)).
    + destruct (insert (memory s) t 0 r); [exact A|split; [left; reflexivity|intros ? ? []]..].
  - destruct (find_process p (processes s)) as [x|] eqn:Fp; [|discriminate E].
    exact (advance_agrees wal s l p x s' I A (find_in _ _ _ Fp) E).
  - destruct (find_process p (processes s)); [|discriminate E]. injection E as <-. split; [exact R|].
    unfold ends, set_processes. cbn [processes]. intros q y H. apply in_without in H. exact (Fs q y (proj2 H)).
  - destruct (writer s); [|discriminate E]. injection E as <-. apply save_agrees. exact A.
  - injection E as <-. unfold restart. destruct (saved s); [destruct wal|].
    + destruct (replay _ _ _); (split; [cbn; auto|intros ? ? []]).
    + split; [right; reflexivity|intros ? ? []].
    + split; [left; reflexivity|intros ? ? []].
Qed.

Theorem used_is_saved : forall wal s l t, calm wal s l -> registered s = Some t -> saved s = Some t.
Proof.
  intros wal s l t C. assert (A : agrees s).
  { induction C as [|s l e s' C IH K E]; [split; [left; reflexivity|intros ? ? []]|].
    exact (step_agrees wal s l e s' (calm_inv _ _ _ C) IH E). }
  destruct A as [[A|A] _]; intros H; congruence.
Qed.
