(** Lemmas about the recorded sizes of tables, and about dropped tables. *)
From Coq Require Import ZArith Bool String List Lia Permutation.
From Verif.Model Require Import Base Transfer.
From Verif.Spec Require Import TransferSpec.
From Verif.Proofs Require Import TransferProofs.
Import ListNotations.
Open Scope Z_scope.

(** ** Dropped tables are not transferred (C32) *)

Definition not_moved (s : state) : Prop :=
  forall t, mem t (x_dropped s) = true ->
  forall i a, nth_error (x_tasks s) i = Some a -> ~ transfers t a.

Lemma not_holding : forall t a, holds a = false -> ~ transfers t a.
Proof. intros t [|u z|l w] H; cbn in *; try tauto. discriminate. Qed.

Lemma not_moved_step : forall e s s', not_moved s -> step e s = Went s' -> not_moved s'.
Proof.
  intros e s s' D Hstep.
  assert (Hset : forall i a b s1, x_dropped s1 = x_dropped s -> x_tasks s1 = set_nth i b (x_tasks s) ->
            nth_error (x_tasks s) i = Some a -> (forall t, transfers t b -> transfers t a) ->
            not_moved s1).
  { intros i a b s1 E1 E2 Ha Hb t Ht j c Hj. rewrite E1 in Ht. rewrite E2 in Hj.
    apply nth_set in Hj. destruct Hj as [(-> & -> & _)|(Nj & Hj)].
    - intros Tc. exact (D t Ht i a Ha (Hb t Tc)).
    - exact (D t Ht j c Hj). }
  destruct e; unfold step, begin_transfers, restart in Hstep; cbv zeta in Hstep.
  - branch Hstep. apply is_free_spec in E.
    eapply Hset; [reflexivity | reflexivity | exact E | cbn; tauto].
  - branch Hstep. eapply Hset; [reflexivity | reflexivity | exact E | cbn; tauto].
  - branch Hstep. apply andb_true_iff in E. destruct E as [E _]. apply is_free_spec in E.
    eapply Hset; [reflexivity | reflexivity | exact E | cbn; tauto].
  - branch Hstep. apply andb_true_iff in E. destruct E as [E _]. apply is_free_spec in E.
    eapply Hset; [reflexivity | reflexivity | exact E | cbn; tauto].
  - branch Hstep; apply andb_true_iff in E; destruct E as [E _]; apply is_free_spec in E;
      (eapply Hset; [reflexivity | reflexivity | exact E | cbn; tauto]).
  - branch Hstep. intros u Hu i a Hi. cbn [x_tasks] in Hi.
    exact (not_holding u a (write_free_spec _ _ _ E Hi)).
  - branch Hstep. intros u Hu i a Hi. cbn [x_tasks] in Hi.
    exact (not_holding u a (write_free_spec _ _ _ E Hi)).
  - unfold go in Hstep. destruct (nth_error (x_tasks s) i) as [[|u z|l w]|] eqn:Ei;
      try discriminate.
    destruct w as [u z|u z|u z|u|p todo for_];
      try (branch Hstep; (eapply Hset; [reflexivity | reflexivity | exact Ei | cbn; tauto])).
    destruct p as [|u|u z|u z rows|u z|u z]; unfold transfer_step, finish, fail in Hstep;
      cbv zeta in Hstep.
    2:{ branch Hstep; [eapply Hset; [reflexivity | reflexivity | exact Ei | cbn; tauto]|].
        intros t Ht j a Hj. cbn [set_task x_tasks x_dropped] in *. apply nth_set in Hj.
        destruct Hj as [(-> & -> & _)|(Nj & Hj)].
        - cbn [transfers]. intros ->. congruence.
        - exact (D t Ht j a Hj). }
    all: branch Hstep; (eapply Hset; [reflexivity | reflexivity | exact Ei | cbn; tauto]).
  - branch Hstep. intros u Hu. cbn [x_dropped] in Hu. discriminate.
Qed.

Lemma not_moved_run : forall n batch events s,
  run events (start n batch) = Went s -> not_moved s.
Proof.
  intros n batch events s Hr.
  refine (run_invariant (fun _ _ => True) (fun _ s => not_moved s) _ events [] (start n batch) s _
            (along_true _ _) Hr).
  - intros past e s0 s1 D _ Hs. exact (not_moved_step e s0 s1 D Hs).
  - intros t Ht. discriminate.
Qed.

(** No step changes the remote rows of a dropped table or deletes local rows of it. *)
Theorem dropped_untouched : forall n batch events s e s' t,
  run events (start n batch) = Went s ->
  mem t (x_dropped s) = true ->
  step e s = Went s' ->
  x_remote s' t = x_remote s t /\ exists rows, x_local s' t = x_local s t ++ rows.
Proof.
  intros n batch events s e s' t Hr Ht Hstep.
  pose proof (not_moved_run n batch events s Hr t Ht) as D.
  assert (Hsame : forall s1, x_remote s1 = x_remote s -> x_local s1 = x_local s ->
            x_remote s1 t = x_remote s t /\ exists rows, x_local s1 t = x_local s t ++ rows).
  { intros s1 -> ->. split; [reflexivity|]. exists []. symmetry. apply app_nil_r. }
  destruct e; step_cases Hstep; try (apply Hsame; reflexivity).
  - split; [reflexivity|]. cbn [x_local set_task]. unfold update.
    destruct (String.eqb t t0) eqn:Et.
    + apply String.eqb_eq in Et. subst t0. exists rows. reflexivity.
    + exists []. symmetry. apply app_nil_r.
  - cbn [x_local x_remote set_task]. split.
    + apply update_other. intros ->. apply (D _ _ E). reflexivity.
    + exists []. symmetry. apply app_nil_r.
  - cbn [x_local x_remote set_task]. split; [reflexivity|].
    exists []. rewrite app_nil_r. apply update_other. intros ->. apply (D _ _ E). reflexivity.
Qed.

(** ** No step panics (C32) *)

Definition needs (t : string) (a : task) : Prop :=
  match a with
  | Holds _ (Adding k _ | Checking k) => k = t
  | Holds _ (Transfers p todo _) =>
      In t todo \/ match p with
                   | Next => False
                   | Begin k | Started k _ | Scanned k _ _ | Written k _ | Truncated k _ => k = t
                   end
  | _ => False
  end.

Definition recorded (s : state) : Prop :=
  forall t i a, nth_error (x_tasks s) i = Some a -> needs t a -> size_of t (x_sizes s) <> None.

Lemma not_needing : forall t a, holds a = false -> ~ needs t a.
Proof. intros t [|u z|l w] H; cbn in *; try tauto. discriminate. Qed.

Lemma lists_tables_spec : forall over sizes todo,
  lists_tables over sizes todo = true ->
  (forall t, In t todo -> exists z, size_of t sizes = Some z /\ over z = true)
  /\ (forall t z, size_of t sizes = Some z -> over z = true -> In t todo).
Proof.
  intros over sizes todo H. unfold lists_tables in H.
  apply andb_true_iff in H. destruct H as [H H3].
  apply andb_true_iff in H. destruct H as [_ H2].
  rewrite forallb_forall in H2, H3. split.
  - intros t Ht. apply H2 in Ht. destruct (size_of t sizes) as [z|]; [|discriminate].
    exists z. split; [reflexivity | exact Ht].
  - intros t z Hz Ho.
    assert (Hin : exists y, In (t, y) sizes).
    { clear H2 H3. induction sizes as [|[k y] sizes IH]; cbn [size_of] in Hz; [discriminate|].
      destruct (String.eqb k t) eqn:E.
      - apply String.eqb_eq in E. subst k. exists y. left. reflexivity.
      - destruct (IH Hz) as [y' Hy]. exists y'. right. exact Hy. }
    destruct Hin as [y Hy]. apply H3 in Hy. cbn [fst] in Hy. rewrite Hz, Ho in Hy.
    apply mem_true. exact Hy.
Qed.

Lemma recorded_step : forall e s s', recorded s -> step e s = Went s' -> recorded s'.
Proof.
  intros e s s' R Hstep.
  assert (Hset : forall i a b s1, x_sizes s1 = x_sizes s -> x_tasks s1 = set_nth i b (x_tasks s) ->
            nth_error (x_tasks s) i = Some a ->
            (forall t, needs t b -> needs t a \/ size_of t (x_sizes s) <> None) -> recorded s1).
  { intros i a b s1 E1 E2 Ha Hb t j c Hj Hc. rewrite E1. rewrite E2 in Hj.
    apply nth_set in Hj. destruct Hj as [(-> & -> & _)|(Nj & Hj)].
    - destruct (Hb t Hc) as [Hn|Hn]; [exact (R t i a Ha Hn) | exact Hn].
    - exact (R t j c Hj Hc). }
  assert (Hput : forall i a b s1 u z,
            x_sizes s1 = set_size u z (x_sizes s) -> x_tasks s1 = set_nth i b (x_tasks s) ->
            nth_error (x_tasks s) i = Some a ->
            (forall t, needs t b -> needs t a \/ t = u) -> recorded s1).
  { intros i a b s1 u z E1 E2 Ha Hb t j c Hj Hc. rewrite E1, size_of_set. rewrite E2 in Hj.
    destruct (String.eqb u t) eqn:E; [discriminate|].
    apply nth_set in Hj. destruct Hj as [(-> & -> & _)|(Nj & Hj)].
    - destruct (Hb t Hc) as [Hn| ->]; [exact (R t i a Ha Hn)|].
      rewrite String.eqb_refl in E. discriminate.
    - exact (R t j c Hj Hc). }
  destruct e; unfold step, begin_transfers, restart in Hstep; cbv zeta in Hstep.
  - branch Hstep. apply is_free_spec in E.
    eapply Hset; [reflexivity | reflexivity | exact E | cbn; tauto].
  - branch Hstep. eapply Hset; [reflexivity | reflexivity | exact E | cbn; tauto].
  - branch Hstep. apply andb_true_iff in E. destruct E as [E _]. apply is_free_spec in E.
    eapply Hset; [reflexivity | reflexivity | exact E |].
    intros t [Ht|[]]. right. destruct (proj1 (lists_tables_spec _ _ _ E0) t Ht) as (z & Hz & _).
    rewrite Hz. discriminate.
  - branch Hstep. apply andb_true_iff in E. destruct E as [E _]. apply is_free_spec in E.
    eapply Hset; [reflexivity | reflexivity | exact E |].
    intros t [Ht|[]]. right. destruct (proj1 (lists_tables_spec _ _ _ E0) t Ht) as (z & Hz & _).
    rewrite Hz. discriminate.
  - branch Hstep; apply andb_true_iff in E; destruct E as [E _]; apply is_free_spec in E;
      (eapply Hset; [reflexivity | reflexivity | exact E |]); [|cbn; tauto].
    intros t [Ht|[]]. right. destruct (proj1 (lists_tables_spec _ _ _ E1) t Ht) as (z' & Hz & _).
    rewrite Hz. discriminate.
  - branch Hstep. intros u j a Hj Ha. cbn [x_tasks x_sizes] in *. exact (R u j a Hj Ha).
  - branch Hstep. intros u j a Hj Ha. cbn [x_tasks x_sizes] in *. exfalso.
    exact (not_needing u a (write_free_spec _ _ _ E Hj) Ha).
  - unfold go in Hstep. destruct (nth_error (x_tasks s) i) as [[|u z|l w]|] eqn:Ei;
      try discriminate.
    destruct w as [u z|u z|u z|u|p todo for_].
    + branch Hstep; (eapply Hset; [reflexivity | reflexivity | exact Ei |]); [|cbn; tauto].
      intros t Ht. cbn [needs] in Ht. subst t. right. rewrite E. discriminate.
    + branch Hstep. eapply Hput; [reflexivity | reflexivity | exact Ei |].
      intros t Ht. right. symmetry. exact Ht.
    + branch Hstep. eapply Hput; [reflexivity | reflexivity | exact Ei |].
      intros t Ht. right. symmetry. exact Ht.
    + branch Hstep; eapply Hset; try reflexivity; try exact Ei; cbn; tauto.
    + destruct p as [|u|u z|u z rows|u z|u z]; unfold transfer_step, finish, fail in Hstep;
        cbv zeta in Hstep.
      * destruct todo as [|u todo]; branch Hstep; eapply Hset; try reflexivity; try exact Ei;
          try (cbn; tauto).
      * branch Hstep; eapply Hset; try reflexivity; try exact Ei; cbn; tauto.
      * branch Hstep; eapply Hset; try reflexivity; try exact Ei; cbn; tauto.
      * branch Hstep; eapply Hset; try reflexivity; try exact Ei; cbn; tauto.
      * branch Hstep; eapply Hset; try reflexivity; try exact Ei; cbn; tauto.
      * branch Hstep. eapply Hput; [reflexivity | reflexivity | exact Ei |]. cbn; tauto.
  - branch Hstep. apply andb_true_iff in E. destruct E as [E _].
    intros t j a Hj Ha. cbn [x_tasks x_sizes] in *. tasks_cases; subst; [|contradiction].
    destruct Ha as [Ht|[]].
    destruct (proj1 (lists_tables_spec _ _ _ E) t Ht) as (z' & Hz & _).
    rewrite Hz. discriminate.
Qed.

Lemma recorded_run : forall n batch events s,
  run events (start n batch) = Went s -> recorded s.
Proof.
  intros n batch events s Hr.
  refine (run_invariant (fun _ _ => True) (fun _ s => recorded s) _ events [] (start n batch) s _
            (along_true _ _) Hr).
  - intros past e s0 s1 D _ Hs. exact (recorded_step e s0 s1 D Hs).
  - intros t i a Hi Ha. cbn [start x_tasks] in Hi. apply start_tasks in Hi. subst. contradiction.
Qed.

(** The only panic is the one of the periodic task when a data folder cannot be accessed. *)
Theorem only_periodic_panics : forall n batch events s e,
  run events (start n batch) = Went s ->
  step e s = Aborted ->
  exists i l p todo, e = Go i false
    /\ nth_error (x_tasks s) i = Some (Holds l (Transfers p todo Periodic)).
Proof.
  intros n batch events s e Hr Hstep. pose proof (recorded_run n batch events s Hr) as R.
  destruct e; unfold step, begin_transfers, restart in Hstep; cbv zeta in Hstep;
    try (repeat match type of Hstep with
                | (if ?b then _ else _) = _ => destruct b
                | match ?x with _ => _ end = _ => destruct x
                end; discriminate).
  unfold go in Hstep. destruct (nth_error (x_tasks s) i) as [[|u z|l w]|] eqn:Ei;
    try discriminate.
  destruct w as [u z|u z|u z|u|p todo for_].
  - destruct (size_of u (x_sizes s)); discriminate.
  - discriminate.
  - destruct (size_of u (x_sizes s)) eqn:E; [discriminate|].
    destruct (R u _ _ Ei eq_refl E).
  - destruct (x_batch s); [|discriminate].
    destruct (size_of u (x_sizes s)) eqn:E.
    + destruct (z <=? z0); discriminate.
    + destruct (R u _ _ Ei eq_refl E).
  - assert (Hfail : fail i for_ s = Aborted -> for_ = Periodic)
      by (destruct for_; [discriminate | discriminate | reflexivity]).
    destruct p as [|u|u z|u z rows|u z|u z]; unfold transfer_step, finish in Hstep;
        cbv zeta in Hstep.
    + destruct todo; [|discriminate]. destruct for_; discriminate.
    + destruct (mem u (x_dropped s)); [discriminate|].
      destruct (size_of u (x_sizes s)) eqn:E; [discriminate|].
      destruct (R u _ _ Ei (or_intror eq_refl) E).
    + destruct ok; [discriminate|]. apply Hfail in Hstep. subst for_.
      eexists _, _, _, _. split; [reflexivity | exact Ei].
    + destruct ok; [discriminate|]. apply Hfail in Hstep. subst for_.
      eexists _, _, _, _. split; [reflexivity | exact Ei].
    + destruct ok; [discriminate|]. apply Hfail in Hstep. subst for_.
      eexists _, _, _, _. split; [reflexivity | exact Ei].
    + destruct (size_of u (x_sizes s)) eqn:E; [discriminate|].
      destruct (R u _ _ Ei (or_intror eq_refl) E).
Qed.
