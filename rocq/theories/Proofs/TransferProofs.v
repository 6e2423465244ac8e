(** Lemmas about the transfer of data to the remote data folder. *)
From Coq Require Import ZArith Bool String List Lia Permutation.
From Verif.Model Require Import Base Transfer.
From Verif.Spec Require Import TransferSpec.
Import ListNotations.
Open Scope Z_scope.

(** ** Maps and lists *)

Lemma size_of_set : forall t z m k,
  size_of k (set_size t z m) = if String.eqb t k then Some z else size_of k m.
Proof.
  intros t z m k. induction m as [|[u y] m IH]; cbn [set_size size_of].
  - reflexivity.
  - destruct (String.eqb u t) eqn:E; cbn [size_of].
    + apply String.eqb_eq in E. subst u. destruct (String.eqb t k); reflexivity.
    + destruct (String.eqb u k) eqn:F; [|exact IH].
      apply String.eqb_eq in F. subst u. rewrite String.eqb_sym, E. reflexivity.
Qed.

Lemma size_of_remove : forall t m k,
  size_of k (remove_size t m) = if String.eqb t k then None else size_of k m.
Proof.
  intros t m k. unfold remove_size. induction m as [|[u y] m IH]; cbn [filter size_of fst].
  - destruct (String.eqb t k); reflexivity.
  - destruct (String.eqb u t) eqn:E; cbn [negb size_of].
    + rewrite IH. apply String.eqb_eq in E. subst u. destruct (String.eqb t k); reflexivity.
    + destruct (String.eqb u k) eqn:F; [|exact IH].
      apply String.eqb_eq in F. subst u. rewrite String.eqb_sym, E. reflexivity.
Qed.

Lemma mem_true : forall t l, mem t l = true <-> In t l.
Proof.
  intros t l. unfold mem. rewrite existsb_exists. split.
  - intros (k & Hk & E). apply String.eqb_eq in E. subst k. exact Hk.
  - intros H. exists t. split; [exact H | apply String.eqb_refl].
Qed.

Lemma mem_filter : forall t k l,
  mem k (filter (fun u => negb (String.eqb u t)) l) = if String.eqb t k then false else mem k l.
Proof.
  intros t k l. unfold mem. induction l as [|u l IH]; cbn [filter existsb].
  - destruct (String.eqb t k); reflexivity.
  - destruct (String.eqb u t) eqn:E; cbn [negb existsb].
    + rewrite IH. apply String.eqb_eq in E. subst u. rewrite (String.eqb_sym k t).
      destruct (String.eqb t k); reflexivity.
    + rewrite IH. destruct (String.eqb k u) eqn:F; [|reflexivity].
      apply String.eqb_eq in F. subst u. rewrite String.eqb_sym, E. reflexivity.
Qed.

Lemma nth_set : forall A i j (a b : A) l,
  nth_error (set_nth i a l) j = Some b ->
  (j = i /\ b = a /\ exists c, nth_error l i = Some c) \/ (j <> i /\ nth_error l j = Some b).
Proof.
  intros A i. induction i as [|i IH]; intros [|j] a b [|c l] H; cbn in *; try discriminate.
  - left. injection H as <-. split; [reflexivity|]. split; [reflexivity|]. exists c. reflexivity.
  - right. split; [discriminate | exact H].
  - right. split; [discriminate | exact H].
  - destruct (IH j a b l H) as [(E & E2 & d & Hd)|(N & Hn)].
    + left. subst. split; [reflexivity|]. split; [reflexivity|]. exists d. exact Hd.
    + right. split; [congruence | exact Hn].
Qed.

Lemma nth_set_same : forall A i (a c : A) l,
  nth_error l i = Some c -> nth_error (set_nth i a l) i = Some a.
Proof.
  intros A i. induction i as [|i IH]; intros a c [|d l] H; cbn in *; try discriminate;
    [reflexivity | exact (IH _ _ _ H)].
Qed.

Lemma nth_set_other : forall A i j (a : A) l,
  j <> i -> nth_error (set_nth i a l) j = nth_error l j.
Proof.
  intros A i. induction i as [|i IH]; intros [|j] a [|d l] H; cbn; try reflexivity;
    try congruence. apply IH. congruence.
Qed.

Lemma set_nth_length : forall A i (a : A) l, List.length (set_nth i a l) = List.length l.
Proof.
  intros A i. induction i as [|i IH]; intros a [|d l]; cbn; try reflexivity.
  rewrite IH. reflexivity.
Qed.

Lemma update_same : forall t v f, update t v f t = v.
Proof. intros. unfold update. rewrite String.eqb_refl. reflexivity. Qed.

Lemma update_other : forall t k v f, k <> t -> update t v f k = f k.
Proof.
  intros. unfold update. destruct (String.eqb k t) eqn:E; [|reflexivity].
  apply String.eqb_eq in E. contradiction.
Qed.

(** ** Steps *)

(** The steps of [DataTransfer] that a task can make. *)
Lemma is_free_spec : forall i s, is_free i s = true -> nth_error (x_tasks s) i = Some Free.
Proof.
  intros i s H. unfold is_free in H.
  destruct (nth_error (x_tasks s) i) as [[]|]; try discriminate. reflexivity.
Qed.

Lemma write_free_spec : forall s j a,
  write_free s = true -> nth_error (x_tasks s) j = Some a -> holds a = false.
Proof.
  intros s j a H Hj. unfold write_free in H. apply negb_true_iff in H.
  destruct (holds a) eqn:E; [|reflexivity]. exfalso.
  assert (existsb holds (x_tasks s) = true).
  { apply existsb_exists. exists a. split; [exact (nth_error_In _ _ Hj) | exact E]. }
  congruence.
Qed.

Lemma read_free_spec : forall s j a,
  read_free s = true -> nth_error (x_tasks s) j = Some a -> holds_exclusive a = false.
Proof.
  intros s j a H Hj. unfold read_free in H. apply negb_true_iff in H.
  destruct (holds_exclusive a) eqn:E; [|reflexivity]. exfalso.
  assert (existsb holds_exclusive (x_tasks s) = true).
  { apply existsb_exists. exists a. split; [exact (nth_error_In _ _ Hj) | exact E]. }
  congruence.
Qed.

Lemma restart_tasks : forall (tasks : list task) (w : task) j a,
  nth_error match tasks with [] => [] | _ :: l => w :: map (fun _ => Free) l end j = Some a ->
  (j = 0%nat /\ a = w) \/ a = Free.
Proof.
  intros [|b l] w [|j] a H; cbn in H; try discriminate.
  - left. injection H as <-. split; reflexivity.
  - right. rewrite nth_error_map in H. destruct (nth_error l j); [|discriminate].
    cbn in H. injection H as <-. reflexivity.
Qed.

(** The cases of a step, for goals about the state after it. *)
Ltac branch H :=
  match type of H with
  | Went _ = Went _ => injection H as <-
  | Disabled = Went _ => discriminate H
  | Aborted = Went _ => discriminate H
  | (if ?b then _ else _) = Went _ => let E := fresh "E" in destruct b eqn:E; branch H
  | match ?x with _ => _ end = Went _ => let E := fresh "E" in destruct x eqn:E; branch H
  | _ => idtac
  end.

Ltac step_cases H :=
  unfold step, restart, begin_transfers, go, transfer_step, finish, fail in H; cbv zeta in H;
  branch H; cbn [x_local x_remote x_sizes x_dropped x_batch x_tasks set_task with_sizes] in *.

Lemma saved_app : forall t a b, saved t (a ++ b) = saved t a ++ saved t b.
Proof.
  intros t a b. induction a as [|e a IH]; [reflexivity|].
  destruct e; cbn [saved app]; try exact IH. rewrite IH, app_assoc. reflexivity.
Qed.

(** Induction over an execution. *)
Lemma run_invariant : forall (P : event -> state -> Prop) (I : list event -> state -> Prop),
  (forall past e s s', I past s -> P e s -> step e s = Went s' -> I (past ++ [e]) s') ->
  forall events past s s',
  I past s -> along P events s -> run events s = Went s' -> I (past ++ events) s'.
Proof.
  intros P I Hstep events. induction events as [|e events IH]; intros past s s' HI Ha Hr.
  - cbn in Hr. injection Hr as <-. rewrite app_nil_r. exact HI.
  - cbn [run along] in *. destruct Ha as [He Ha].
    destruct (step e s) as [s1| |] eqn:E; try discriminate.
    replace (past ++ e :: events) with ((past ++ [e]) ++ events)
      by (rewrite <- app_assoc; reflexivity).
    exact (IH _ _ _ (Hstep _ _ _ _ HI He E) Ha Hr).
Qed.

Lemma along_and : forall (P Q : event -> state -> Prop) events s,
  along P events s -> along Q events s -> along (fun e s => P e s /\ Q e s) events s.
Proof.
  intros P Q events. induction events as [|e events IH]; intros s HP HQ; [exact I|].
  cbn [along] in *. destruct HP as [HP HP'], HQ as [HQ HQ']. split; [split; assumption|].
  destruct (step e s); [apply IH; assumption | exact I | exact I].
Qed.

Lemma along_true : forall events s, along (fun _ _ => True) events s.
Proof.
  intros events. induction events as [|e events IH]; intros s; [exact I|].
  cbn [along]. split; [exact I|]. destruct (step e s); [apply IH | exact I | exact I].
Qed.

Lemma start_tasks : forall n i a,
  nth_error (repeat Free n) i = Some a -> a = Free.
Proof. intros n i a H. apply nth_error_In in H. exact (repeat_spec _ _ _ H). Qed.

(** ** No rows are lost (C31) *)

Definition kept (t : string) (past : list event) (s : state) : Prop :=
  incl (saved t past) (x_local s t ++ x_remote s t)
  /\ (forall i l size rows todo for_,
        nth_error (x_tasks s) i = Some (Holds l (Transfers (Scanned t size rows) todo for_)) ->
        incl (x_local s t) rows)
  /\ (forall i l size todo for_,
        nth_error (x_tasks s) i = Some (Holds l (Transfers (Written t size) todo for_)) ->
        incl (x_local s t) (x_remote s t)).

Ltac tasks_cases :=
  repeat match goal with
  | H : nth_error (set_nth _ _ _) _ = Some _ |- _ =>
      let Ej := fresh "Ej" in let Ea := fresh "Ea" in let Ec := fresh "Ec" in
      apply nth_set in H; destruct H as [(Ej & Ea & Ec)|(Ej & H)];
      [try discriminate Ea | ]
  | H : nth_error match _ with [] => [] | _ :: _ => _ end _ = Some _ |- _ =>
      let Ea := fresh "Ea" in
      apply restart_tasks in H; destruct H as [(_ & Ea)|Ea]; try discriminate Ea
  end.

Lemma kept_step : forall t past e s s',
  kept t past s -> no_save_while_moving e s -> step e s = Went s' -> kept t (past ++ [e]) s'.
Proof.
  intros t past e s s' (K1 & K2 & K3) Hns Hstep.
  assert (Hsame : forall local remote,
    (forall u, saved u (past ++ [e]) = saved u past) ->
    local = x_local s t -> remote = x_remote s t ->
    incl (saved t (past ++ [e])) (local ++ remote)).
  { intros local remote E -> ->. rewrite E. exact K1. }
  assert (Hpast : match e with Save _ _ _ _ => True
                  | _ => forall u, saved u (past ++ [e]) = saved u past end).
  { destruct e; try exact I; intros u; rewrite saved_app; cbn [saved]; apply app_nil_r. }
  destruct e; step_cases Hstep; unfold kept;
    cbn [x_local x_remote x_sizes x_dropped x_batch x_tasks set_task with_sizes] in *.
  all: try (split; [apply Hsame; [exact Hpast | reflexivity | reflexivity]|];
            split; intros; tasks_cases; first [solve [eapply K2; eassumption]
            | solve [eapply K3; eassumption] | idtac]).
  - (* Save *)
    rewrite saved_app. cbn [saved]. rewrite app_nil_r.
    destruct (String.eqb t0 t) eqn:Et.
    + apply String.eqb_eq in Et. subst t0. rewrite update_same. split.
      * intros x Hx. apply in_app_or in Hx. destruct Hx as [Hx|Hx].
        -- apply K1 in Hx. apply in_app_or in Hx. rewrite <- app_assoc, !in_app_iff. tauto.
        -- rewrite <- app_assoc, !in_app_iff. tauto.
      * split; intros; tasks_cases; exfalso;
          eapply Hns; try (eapply nth_error_In; eassumption); reflexivity.
    + assert (t <> t0) by (intros ->; rewrite String.eqb_refl in Et; discriminate).
      rewrite update_other by assumption. rewrite app_nil_r. split; [exact K1|].
      split; intros; tasks_cases; [eapply K2; eassumption | eapply K3; eassumption].
  - (* Started -> Scanned *)
    injection Ea as -> -> -> -> -> ->. apply incl_refl.
  - (* Scanned -> Written *)
    destruct (String.eqb t1 t) eqn:Et.
    + apply String.eqb_eq in Et. subst t1. rewrite update_same. split.
      * rewrite Hpast. intros x Hx. apply K1 in Hx. rewrite !in_app_iff in *. tauto.
      * split; intros; tasks_cases.
        -- eapply K2; eassumption.
        -- intros x Hx. apply in_or_app. right. revert x Hx.
           change (incl (x_local s t) rows). eapply K2. eassumption.
        -- intros x Hx. apply in_or_app. left. revert x Hx.
           change (incl (x_local s t) (x_remote s t)). eapply K3; eassumption.
    + assert (t <> t1) by (intros ->; rewrite String.eqb_refl in Et; discriminate).
      rewrite update_other by assumption. rewrite Hpast. split; [exact K1|].
      split; intros; tasks_cases.
      * eapply K2; eassumption.
      * congruence.
      * eapply K3; eassumption.
  - (* Written -> Truncated *)
    destruct (String.eqb t1 t) eqn:Et.
    + apply String.eqb_eq in Et. subst t1. rewrite update_same. split.
      * rewrite Hpast. intros x Hx. apply K1 in Hx. apply in_app_or in Hx. cbn [app].
        destruct Hx as [Hx|Hx]; [|exact Hx]. eapply K3; eassumption.
      * split; intros; apply incl_nil_l.
    + assert (t <> t1) by (intros ->; rewrite String.eqb_refl in Et; discriminate).
      rewrite update_other by assumption. rewrite Hpast. split; [exact K1|].
      split; intros; tasks_cases; [eapply K2; eassumption | eapply K3; eassumption].
Qed.

Lemma kept_start : forall t n batch, kept t [] (start n batch).
Proof.
  intros t n batch. split; [apply incl_refl|].
  split; intros; cbn [start x_tasks] in *; apply start_tasks in H; discriminate.
Qed.

Theorem nothing_lost : forall n batch events s t,
  run events (start n batch) = Went s ->
  along no_save_while_moving events (start n batch) ->
  incl (saved t events) (x_local s t ++ x_remote s t).
Proof.
  intros n batch events s t Hr Ha.
  exact (proj1 (run_invariant _ _ (kept_step t) events [] _ _ (kept_start t n batch) Ha Hr)).
Qed.

(** ** Each row is in one of the tables (C31) *)

Definition once (t : string) (past : list event) (s : state) : Prop :=
  (forall i j a b, nth_error (x_tasks s) i = Some a -> nth_error (x_tasks s) j = Some b ->
     transfers t a -> transfers t b -> i = j)
  /\ ((forall i a, nth_error (x_tasks s) i = Some a -> ~ has_written t a) ->
      Permutation (saved t past) (x_local s t ++ x_remote s t))
  /\ (forall i l size rows todo for_,
        nth_error (x_tasks s) i = Some (Holds l (Transfers (Scanned t size rows) todo for_)) ->
        rows = x_local s t)
  /\ (forall i a, nth_error (x_tasks s) i = Some a -> has_written t a ->
        Permutation (saved t past) (x_remote s t)).

Definition orderly (e : event) (s : state) : Prop :=
  no_save_while_moving e s /\ one_transfer_at_a_time e s /\ truncates_what_is_written e s.

Lemma written_transfers : forall t a, has_written t a -> transfers t a.
Proof. intros t [|u z|l []]; cbn; try tauto. destruct p; tauto. Qed.

Lemma written_moves : forall t a, has_written t a -> moves t a.
Proof. intros t [|u z|l []]; cbn; try tauto. destruct p; tauto. Qed.

(** A step of a task that neither begins nor ends the transfer of [t]. *)
Lemma once_same : forall t past past' s s' i a b,
  once t past s ->
  saved t past' = saved t past ->
  x_local s' t = x_local s t -> x_remote s' t = x_remote s t ->
  nth_error (x_tasks s) i = Some a -> x_tasks s' = set_nth i b (x_tasks s) ->
  (transfers t b -> transfers t a) ->
  (has_written t b <-> has_written t a) ->
  (forall l size rows todo for_, b = Holds l (Transfers (Scanned t size rows) todo for_) ->
     rows = x_local s t) ->
  once t past' s'.
Proof.
  intros t past past' s s' i a b (O1 & O2 & O3 & O4) Ep El Er Ea Es Hb Hw Hs.
  unfold once. rewrite Es, Ep, El, Er.
  assert (Hback : forall j c, nth_error (set_nth i b (x_tasks s)) j = Some c ->
            exists d, nth_error (x_tasks s) j = Some d /\ (transfers t c -> transfers t d)
                      /\ (has_written t c -> has_written t d)).
  { intros j c Hj. apply nth_set in Hj. destruct Hj as [(-> & -> & _)|(Nj & Hj)].
    - exists a. split; [exact Ea|]. split; [exact Hb | apply Hw].
    - exists c. split; [exact Hj|]. split; intros H; exact H. }
  split; [|split; [|split]].
  - intros j k c d Hj Hk Tc Td. apply Hback in Hj, Hk.
    destruct Hj as (c' & Hj & Hc & _), Hk as (d' & Hk & Hd & _).
    exact (O1 j k c' d' Hj Hk (Hc Tc) (Hd Td)).
  - intros Hno. apply O2. intros j c Hj Hc.
    destruct (Nat.eq_dec j i) as [->|Nj].
    + rewrite Ea in Hj. injection Hj as <-.
      apply (Hno i b); [exact (nth_set_same _ _ _ _ _ Ea) | apply Hw; exact Hc].
    + apply (Hno j c); [rewrite nth_set_other by exact Nj; exact Hj | exact Hc].
  - intros j l size rows todo for_ Hj. apply nth_set in Hj.
    destruct Hj as [(-> & E & _)|(Nj & Hj)]; [exact (Hs _ _ _ _ _ (eq_sym E))|].
    exact (O3 _ _ _ _ _ _ Hj).
  - intros j c Hj Hc. apply Hback in Hj. destruct Hj as (d & Hj & _ & Hd).
    exact (O4 j d Hj (Hd Hc)).
Qed.

Lemma once_quiet : forall t past past' s s',
  once t past s ->
  saved t past' = saved t past ->
  x_local s' t = x_local s t -> x_remote s' t = x_remote s t ->
  x_tasks s' = x_tasks s -> once t past' s'.
Proof.
  intros t past past' s s' O Ep El Er Es. unfold once in *. rewrite Ep, El, Er, Es. exact O.
Qed.

Ltac same_task O Hpast :=
  eapply once_same;
  [ exact O | apply Hpast | reflexivity | reflexivity | eassumption | reflexivity
  | cbn [transfers]; tauto | cbn [has_written]; tauto | try (intros; discriminate) ].

Lemma once_step : forall t past e s s',
  once t past s -> orderly e s -> step e s = Went s' -> once t (past ++ [e]) s'.
Proof.
  intros t past e s s' O (Hns & Hone & Htr) Hstep.
  assert (Hpast : match e with Save _ _ _ _ => True
                  | _ => forall u, saved u (past ++ [e]) = saved u past end).
  { destruct e; try exact I; intros u; rewrite saved_app; cbn [saved]; apply app_nil_r. }
  destruct e; unfold step, begin_transfers, restart in Hstep; cbv zeta in Hstep.
  - (* Save *)
    branch Hstep. apply is_free_spec in E. destruct (String.eqb t0 t) eqn:Et.
    + apply String.eqb_eq in Et. subst t0.
      destruct O as (O1 & O2 & O3 & O4).
      assert (Hw : forall j a, nth_error (x_tasks s) j = Some a -> ~ has_written t a).
      { intros j a Hj Ha. exact (Hns a (nth_error_In _ _ Hj) (written_moves _ _ Ha)). }
      unfold once. cbn [x_local x_remote x_tasks set_task]. rewrite saved_app. cbn [saved].
      rewrite String.eqb_refl, app_nil_r, update_same.
      split; [|split; [|split]].
      * intros j k a b Hj Hk Ta Tb. tasks_cases; subst; try contradiction.
        exact (O1 j k a b Hj Hk Ta Tb).
      * intros _. rewrite (O2 Hw). rewrite <- !app_assoc. apply Permutation_app_head.
        apply Permutation_app_comm.
      * intros. tasks_cases. exfalso.
        refine (Hns _ (nth_error_In _ _ H) _). reflexivity.
      * intros j a Hj Ha. tasks_cases; subst; try contradiction.
        destruct (Hw _ _ Hj Ha).
    + assert (t <> t0) by (intros ->; rewrite String.eqb_refl in Et; discriminate).
      eapply once_same; [exact O | | | reflexivity | eassumption | reflexivity | | | ];
        cbn [x_local x_remote transfers has_written set_task]; try tauto.
      * rewrite saved_app. cbn [saved]. rewrite Et. cbn [app]. apply app_nil_r.
      * apply update_other. assumption.
      * intros. discriminate.
  - branch Hstep. same_task O Hpast.
  - branch Hstep. apply andb_true_iff in E.
    destruct E as [Ef _]. apply is_free_spec in Ef. same_task O Hpast.
  - branch Hstep. apply andb_true_iff in E.
    destruct E as [Ef _]. apply is_free_spec in Ef. same_task O Hpast.
  - branch Hstep; apply andb_true_iff in E; destruct E as [Ef _]; apply is_free_spec in Ef;
      same_task O Hpast.
  - branch Hstep. eapply once_quiet; [exact O | apply Hpast | reflexivity..].
  - branch Hstep. eapply once_quiet; [exact O | apply Hpast | reflexivity..].
  - (* Go *)
    unfold go in Hstep. destruct (nth_error (x_tasks s) i) as [[|u z|l w]|] eqn:Ei;
      try discriminate.
    destruct w as [u z|u z|u z|u|p todo for_]; try (branch Hstep; same_task O Hpast).
    destruct p as [|u|u z|u z rows|u z|u z]; unfold transfer_step in Hstep; cbv zeta in Hstep.
    + (* Next *)
      destruct todo as [|u todo]; [unfold finish in Hstep|]; branch Hstep; same_task O Hpast.
    + (* Begin *)
      branch Hstep; [same_task O Hpast|].
      destruct O as (O1 & O2 & O3 & O4).
      assert (Hb : forall j a, nth_error (x_tasks s) j = Some a -> ~ transfers u a).
      { intros j a Hj. exact (Hone _ _ _ _ Ei a (nth_error_In _ _ Hj)). }
      unfold once. cbn [x_local x_remote x_tasks set_task]. rewrite Hpast.
      split; [|split; [|split]].
      * intros j k a b Hj Hk Ta Tb. tasks_cases; subst; cbn [transfers] in *; subst.
        all: first [reflexivity | solve [exfalso; eapply Hb; eassumption]
                   | solve [eapply O1; eassumption]].
      * intros Hno. apply O2. intros j a Hj Ha.
        destruct (Nat.eq_dec j i) as [->|Nj].
        -- rewrite Ei in Hj. injection Hj as <-. exact Ha.
        -- refine (Hno j a _ Ha). rewrite nth_set_other by exact Nj. exact Hj.
      * intros. tasks_cases. eapply O3. eassumption.
      * intros j a Hj Ha. tasks_cases; subst; [contradiction|]. exact (O4 _ _ Hj Ha).
    + (* Started *)
      branch Hstep; [|unfold fail in Hstep; branch Hstep; same_task O Hpast].
      same_task O Hpast. intros. injection H as -> -> -> -> -> ->. reflexivity.
    + (* Scanned *)
      branch Hstep; [|unfold fail in Hstep; branch Hstep; same_task O Hpast].
      destruct (String.eqb u t) eqn:Et.
      * apply String.eqb_eq in Et. subst u.
        destruct O as (O1 & O2 & O3 & O4).
        assert (Hno : forall j a, nth_error (x_tasks s) j = Some a -> ~ has_written t a).
        { intros j a Hj Ha.
          assert (j = i).
          { eapply O1; [exact Hj | exact Ei | exact (written_transfers _ _ Ha) | reflexivity]. }
          subst j. rewrite Ei in Hj. injection Hj as <-. exact Ha. }
        unfold once. cbn [x_local x_remote x_tasks set_task]. rewrite Hpast, update_same.
        split; [|split; [|split]].
        -- intros j k a b Hj Hk Ta Tb. tasks_cases; subst.
           all: first [reflexivity
             | solve [symmetry; eapply O1; [exact Hk | exact Ei | exact Tb | reflexivity]]
             | solve [eapply O1; [exact Hj | exact Ei | exact Ta | reflexivity]]
             | solve [exact (O1 _ _ _ _ Hj Hk Ta Tb)]].
        -- intros Hc. exfalso. eapply (Hc i); [exact (nth_set_same _ _ _ _ _ Ei) | reflexivity].
        -- intros. tasks_cases. eapply O3. eassumption.
        -- intros j a Hj Ha. rewrite (O2 Hno), (O3 _ _ _ _ _ _ Ei).
           apply Permutation_app_comm.
      * assert (t <> u) by (intros ->; rewrite String.eqb_refl in Et; discriminate).
        eapply once_same; [exact O | apply Hpast | reflexivity | | exact Ei | reflexivity | | | ];
          cbn [x_local x_remote transfers has_written set_task]; try tauto.
        -- apply update_other. assumption.
        -- split; [intros E0; congruence | contradiction].
        -- intros. discriminate.
    + (* Written *)
      branch Hstep; [|subst ok; exfalso; refine (Htr u _ Ei _); reflexivity].
      destruct (String.eqb u t) eqn:Et.
      * apply String.eqb_eq in Et. subst u.
        destruct O as (O1 & O2 & O3 & O4).
        unfold once. cbn [x_local x_remote x_tasks set_task]. rewrite Hpast, update_same.
        split; [|split; [|split]].
        -- intros j k a b Hj Hk Ta Tb. tasks_cases; subst.
           all: first [reflexivity
             | solve [symmetry; eapply O1; [exact Hk | exact Ei | exact Tb | reflexivity]]
             | solve [eapply O1; [exact Hj | exact Ei | exact Ta | reflexivity]]
             | solve [exact (O1 _ _ _ _ Hj Hk Ta Tb)]].
        -- intros _. cbn [app]. eapply O4; [exact Ei | reflexivity].
        -- intros. tasks_cases. exfalso. apply Ej.
           eapply O1; [exact H | exact Ei | reflexivity | reflexivity].
        -- intros j a Hj Ha. eapply O4; [exact Ei | reflexivity].
      * assert (t <> u) by (intros ->; rewrite String.eqb_refl in Et; discriminate).
        eapply once_same; [exact O | apply Hpast | | reflexivity | exact Ei | reflexivity | | | ];
          cbn [x_local x_remote transfers has_written set_task]; try tauto.
        -- apply update_other. assumption.
        -- split; [contradiction | intros E0; congruence].
        -- intros. discriminate.
    + (* Truncated *)
      branch Hstep. same_task O Hpast.
  - (* Crash *)
    branch Hstep. destruct O as (O1 & O2 & O3 & O4).
    unfold once. cbn [x_local x_remote x_tasks]. rewrite Hpast.
    split; [|split; [|split]].
    + intros j k a b Hj Hk Ta Tb. tasks_cases; subst; contradiction.
    + intros _. apply O2. intros j a Hj. exact (Htr t a (nth_error_In _ _ Hj)).
    + intros. tasks_cases.
    + intros j a Hj Ha. tasks_cases; subst; contradiction.
Qed.

Lemma once_start : forall t n batch, once t [] (start n batch).
Proof.
  intros t n batch. unfold once. cbn [start x_tasks x_local x_remote saved app].
  split; [|split; [|split]].
  - intros i j a b Hi Hj Ta. apply start_tasks in Hi. subst. contradiction.
  - intros _. apply Permutation_refl.
  - intros. apply start_tasks in H. discriminate.
  - intros i a Hi Ha. apply start_tasks in Hi. subst. contradiction.
Qed.

Theorem exactly_once : forall n batch events s t,
  run events (start n batch) = Went s ->
  along no_save_while_moving events (start n batch) ->
  along one_transfer_at_a_time events (start n batch) ->
  along truncates_what_is_written events (start n batch) ->
  (forall a, In a (x_tasks s) -> ~ has_written t a) ->
  Permutation (saved t events) (x_local s t ++ x_remote s t).
Proof.
  intros n batch events s t Hr H1 H2 H3 Hw.
  destruct (run_invariant orderly _ (once_step t) events [] _ _ (once_start t n batch)
              (along_and _ _ _ _ H1 (along_and _ _ _ _ H2 H3)) Hr) as (_ & O2 & _).
  apply O2. intros i a Hi. exact (Hw a (nth_error_In _ _ Hi)).
Qed.

(** ** Only saved rows are in the tables (C31) *)

Definition known (t : string) (past : list event) (s : state) : Prop :=
  incl (x_local s t) (saved t past) /\ incl (x_remote s t) (saved t past)
  /\ (forall i l size rows todo for_,
        nth_error (x_tasks s) i = Some (Holds l (Transfers (Scanned t size rows) todo for_)) ->
        incl rows (saved t past)).

Lemma known_step : forall t past e s s',
  known t past s -> True -> step e s = Went s' -> known t (past ++ [e]) s'.
Proof.
  intros t past e s s' (K1 & K2 & K3) _ Hstep.
  assert (Hpast : match e with Save _ _ _ _ => True
                  | _ => forall u, saved u (past ++ [e]) = saved u past end).
  { destruct e; try exact I; intros u; rewrite saved_app; cbn [saved]; apply app_nil_r. }
  destruct e; step_cases Hstep; unfold known;
    cbn [x_local x_remote x_sizes x_dropped x_batch x_tasks set_task with_sizes] in *.
  all: try (rewrite Hpast; split; [exact K1|]; split; [exact K2|]; intros; tasks_cases;
            first [solve [eapply K3; eassumption] | idtac]).
  - rewrite saved_app. cbn [saved]. rewrite app_nil_r.
    assert (Hk : forall rows', incl rows' (saved t past) ->
              incl rows' (saved t past ++ (if String.eqb t0 t then rows else []))).
    { intros rows' H. apply incl_appl. exact H. }
    split; [|split; [exact (Hk _ K2)|]].
    + destruct (String.eqb t0 t) eqn:Et.
      * apply String.eqb_eq in Et. subst t0. rewrite update_same.
        apply incl_app_app; [exact K1 | apply incl_refl].
      * rewrite update_other; [exact (Hk _ K1)|].
        intros ->. rewrite String.eqb_refl in Et. discriminate.
    + intros. tasks_cases. apply Hk. eapply K3. eassumption.
  - injection Ea as -> -> -> -> -> ->. exact K1.
  - rewrite Hpast. split; [exact K1|]. split.
    + destruct (String.eqb t1 t) eqn:Et.
      * apply String.eqb_eq in Et. subst t1. rewrite update_same.
        apply incl_app; [exact K2 | eapply K3; eassumption].
      * rewrite update_other; [exact K2|].
        intros ->. rewrite String.eqb_refl in Et. discriminate.
    + intros. tasks_cases. eapply K3. eassumption.
  - rewrite Hpast. split; [|split; [exact K2|]].
    + destruct (String.eqb t1 t) eqn:Et.
      * apply String.eqb_eq in Et. subst t1. rewrite update_same. apply incl_nil_l.
      * rewrite update_other; [exact K1|].
        intros ->. rewrite String.eqb_refl in Et. discriminate.
    + intros. tasks_cases. eapply K3. eassumption.
Qed.

Theorem nothing_invented : forall n batch events s t,
  run events (start n batch) = Went s ->
  incl (x_local s t ++ x_remote s t) (saved t events).
Proof.
  intros n batch events s t Hr.
  destruct (run_invariant (fun _ _ => True) _ (known_step t) events [] (start n batch) s) as (K1 & K2 & _).
  - split; [apply incl_nil_l|]. split; [apply incl_nil_l|].
    intros. cbn [start x_tasks] in H. apply start_tasks in H. discriminate.
  - apply along_true.
  - exact Hr.
  - apply incl_app; [exact K1 | exact K2].
Qed.
