(** Executions in which inserts and statements are not kept apart. *)
From Coq Require Import Arith Bool ZArith List Permutation Lia.
From Verif Require Import Model.Base Model.Lifetimes Spec.LifetimesSpec Proofs.LifetimesProofs.
Import ListNotations.
Open Scope nat_scope.
Open Scope list_scope.

Definition steps (p n : nat) : list event := repeat (Step p) n.
Definition create (p n : nat) : list event := Start p (Create n) :: steps p 4.
Definition drop (p : nat) : list event := Start p Drop :: steps p 5.

(** A put goes on after the table was dropped and created again. *)
Definition put_goes_on (n m : nat) : list event :=
  create 0 n ++ [Start 1 Put] ++ drop 2 ++ create 3 m ++ [Batch 1 7 (repeat 5%Z n)].

Theorem rows_mixed : forall wal, exists s t r, reachable wal s /\ processes s = [(1, Putting (Table 0 1))]
  /\ saved s = Some t /\ In r (rows s) /\ into r <> inc t.
Proof.
  intro wal. destruct wal.
  - eexists. exists (Table 1 1), (Row 0 7 [5%Z]). split.
    + exists (put_goes_on 1 1 ++ [Free 7]). vm_compute. reflexivity.
    + split; [reflexivity|]. split; [reflexivity|]. split; [now left|]. discriminate.
  - eexists. exists (Table 1 1), (Row 0 7 [5%Z]). split.
    + exists (put_goes_on 1 1 ++ [Free 7]). vm_compute. reflexivity.
    + split; [reflexivity|]. split; [reflexivity|]. split; [now left|]. discriminate.
Qed.

Theorem insert_aborts : forall wal, exists s s' p t v, reachable wal s
  /\ find_process p (processes s) = Some (Putting t) /\ saved s = Some t /\ registered s = Some t
  /\ (forall q x, In (q, x) (processes s) -> ~ is_statement x)
  /\ step wal s (Batch p 7 v) = Some s' /\ aborted s' = true.
Proof.
  intro wal. destruct wal.
  - eexists. eexists. exists 4, (Table 1 2), [1%Z; 2%Z]. split.
    + exists (put_goes_on 1 2 ++ [Start 4 Put]). vm_compute. reflexivity.
    + split; [reflexivity|]. split; [reflexivity|]. split; [reflexivity|]. split.
      * intros q x [E|[E|[]]] S; injection E as <- <-; now eapply S.
      * split; [vm_compute; reflexivity|reflexivity].
  - eexists. eexists. exists 4, (Table 1 2), [1%Z; 2%Z]. split.
    + exists (put_goes_on 1 2 ++ [Start 4 Put]). vm_compute. reflexivity.
    + split; [reflexivity|]. split; [reflexivity|]. split; [reflexivity|]. split.
      * intros q x [E|[E|[]]] S; injection E as <- <-; now eapply S.
      * split; [vm_compute; reflexivity|reflexivity].
Qed.

(** * The writer stops *)

Lemma step_writer : forall wal s e s', writer s = false -> e <> Crash -> step wal s e = Some s' ->
  writer s' = false.
Proof.
  intros wal s e s' W N E. unfold step in E. destruct (aborted s).
  { destruct e; try discriminate. contradiction. }
  destruct e as [p q|p g v|p|p|g|].
  - destruct (find_process p (processes s)); [discriminate|].
    destruct q; [destruct (registered s); [|discriminate]| | |]; injection E as <-; exact W.
  - destruct (find_process p (processes s)) as [[t| | | | | | | | | | | | |]|]; try discriminate.
    destruct (length v =? fields t); [|discriminate]. injection E as <-. unfold put. destruct wal.
    + destruct (log s); [|exact W]. destruct (insert _ _ _ _); [exact W|reflexivity|reflexivity].
    + destruct (insert _ _ _ _); [exact W|reflexivity|reflexivity].
  - destruct (find_process p (processes s)) as [x|]; [|discriminate].
    destruct x; cbn [advance] in E; rewrite ?W in E; try discriminate; injection E as <-;
      try (first [exact W | reflexivity]);
      repeat match goal with
      | |- context [match ?x with _ => _ end] => destruct x; try (first [exact W | reflexivity])
      end.
  - destruct (find_process p (processes s)); [|discriminate]. injection E as <-. exact W.
  - rewrite W in E. discriminate.
  - contradiction.
Qed.

Lemma run_writer : forall wal l s s', writer s = false -> ~ In Crash l -> run wal s l = Some s' ->
  writer s' = false.
Proof.
  intros wal l. induction l as [|e l IH]; intros s s' W N E.
  - injection E as <-. exact W.
  - cbn in E. destruct (step wal s e) as [s1|] eqn:Es; [|discriminate].
    apply (IH s1 s'); [|intro I; apply N; now right|exact E].
    apply (step_writer wal s e s1); [exact W|intros ->; apply N; now left|exact Es].
Qed.

Theorem statements_wait : forall wal, exists s, reachable wal s /\ aborted s = false
  /\ saved s <> None /\ registered s = saved s
  /\ forall l s' p, ~ In Crash l -> run wal s l = Some s' ->
     find_process p (processes s') = Some DropFlush
     \/ find_process p (processes s') = Some TruncateFlush ->
     step wal s' (Step p) = None.
Proof.
  assert (G : forall wal s, writer s = false -> forall l s' p, ~ In Crash l -> run wal s l = Some s' ->
     find_process p (processes s') = Some DropFlush
     \/ find_process p (processes s') = Some TruncateFlush ->
     step wal s' (Step p) = None).
  { intros wal s W l s' p N R F. pose proof (run_writer wal l s s' W N R) as W'. unfold step.
    destruct (aborted s'); [reflexivity|]. destruct F as [F|F]; rewrite F; cbn [advance]; now rewrite W'. }
  intro wal. destruct wal.
  - eexists. split.
    + exists (create 0 1 ++ [Start 1 Put; Start 2 Drop] ++ steps 2 3 ++ [Batch 1 7 [5%Z]] ++ steps 2 2
              ++ [Free 7] ++ create 3 1). vm_compute. reflexivity.
    + split; [reflexivity|]. split; [discriminate|]. split; [reflexivity|]. now apply G.
  - eexists. split.
    + exists (create 0 1 ++ [Start 1 Put] ++ drop 2 ++ [Batch 1 7 [5%Z]; Free 7] ++ create 3 1).
      vm_compute. reflexivity.
    + split; [reflexivity|]. split; [discriminate|]. split; [reflexivity|]. now apply G.
Qed.

(** * Rows that are lost *)

Theorem another_table_dropped : forall wal, exists l1 l2 s1 s2 s3 p t1 t2 r,
  run wal init l1 = Some s1 /\ saved s1 = Some t1 /\ find_process p (processes s1) = Some DropDeregister
  /\ run wal s1 l2 = Some s2 /\ ~ In (Step p) l2 /\ saved s2 = Some t2 /\ inc t2 <> inc t1
  /\ In r (rows s2) /\ into r = inc t2
  /\ run wal s2 (repeat (Step p) 4) = Some s3 /\ saved s3 = None /\ rows s3 = [] /\ memory s3 = [].
Proof.
  intro wal.
  exists (create 0 1 ++ [Start 1 Drop; Step 1]),
    (drop 2 ++ create 3 1 ++ [Start 4 Put; Batch 4 7 [5%Z]; Free 7]).
  destruct wal.
  - eexists. eexists. eexists. exists 1, (Table 0 1), (Table 1 1), (Row 1 7 [5%Z]).
    split; [vm_compute; reflexivity|]. split; [reflexivity|]. split; [reflexivity|].
    split; [vm_compute; reflexivity|].
    split; [cbn; intros H; repeat (destruct H as [H|H]; [discriminate H|]); destruct H|].
    split; [reflexivity|]. split; [discriminate|]. split; [now left|]. split; [reflexivity|].
    split; [vm_compute; reflexivity|]. split; [reflexivity|]. split; reflexivity.
  - eexists. eexists. eexists. exists 1, (Table 0 1), (Table 1 1), (Row 1 7 [5%Z]).
    split; [vm_compute; reflexivity|]. split; [reflexivity|]. split; [reflexivity|].
    split; [vm_compute; reflexivity|].
    split; [cbn; intros H; repeat (destruct H as [H|H]; [discriminate H|]); destruct H|].
    split; [reflexivity|]. split; [discriminate|]. split; [now left|]. split; [reflexivity|].
    split; [vm_compute; reflexivity|]. split; [reflexivity|]. split; reflexivity.
Qed.

(** A batch is inserted while the table is dropped, and saved after it is created again: the id of the
    batch is that of another batch in the log of the new table. *)
Theorem row_lost : exists l s, run true init l = Some s /\ ~ In Crash l /\ lost_in_crash s.
Proof.
  exists (create 0 1 ++ [Start 1 Put; Start 2 Drop] ++ steps 2 3 ++ [Batch 1 7 [5%Z]; End 1] ++ steps 2 2
          ++ create 3 1 ++ [Free 7; Start 4 Put]). eexists.
  split; [vm_compute; reflexivity|].
  split; [cbn; intros H; repeat (destruct H as [H|H]; [discriminate H|]); destruct H|].
  eexists. eexists. exists 4, (Table 1 1), (Row 1 8 [6%Z]).
  split; [reflexivity|]. split; [reflexivity|]. split; [discriminate|].
  split; [intros q x [E|[]] S; injection E as <- <-; now eapply S|].
  split; [reflexivity|]. split; [reflexivity|]. split; [intros [H|[]]; discriminate H|].
  split; [vm_compute; reflexivity|]. split; [now left|].
  split; [vm_compute; reflexivity|]. split; [reflexivity|].
  split; [intros [H|[]]; discriminate H|]. intros [].
Qed.

(** * Deciding whether an execution is calm *)

Definition statementb (x : process) : bool := match x with Putting _ => false | _ => true end.
Definition flushedb (x : process) : bool :=
  match x with DropLog | DropDelete | TruncateLog | TruncateDelete => true | _ => false end.
Definition deletingb (x : process) : bool := match x with DropDelete => true | _ => false end.
Definition sameb (t : table) (o : option table) : bool :=
  match o with Some u => (inc u =? inc t) && (fields u =? fields t) | None => false end.

Definition kept_apartb (wal : bool) (s : state) (e : event) : bool :=
  match e with
  | Start _ Put => true
  | Start _ _ => forallb (fun x => negb (statementb (snd x))) (processes s)
  | Batch p _ _ =>
      match find_process p (processes s) with
      | Some (Putting t) =>
          sameb t (saved s) && forallb (fun x => negb (flushedb (snd x))) (processes s)
      | _ => true
      end
  | Step _ => true
  | End p => match find_process p (processes s) with Some x => negb (deletingb x) | None => true end
  | Free _ => true
  | Crash => wal && forallb (fun x => negb (deletingb (snd x))) (processes s)
  end.

Lemma kept_apart_sound : forall wal s e, kept_apartb wal s e = true -> kept_apart wal s e.
Proof.
  intros wal s e H. destruct e as [p q|p g v|p|p|g|]; cbn [kept_apartb kept_apart] in *; try exact I.
  - assert (G : forallb (fun x => negb (statementb (snd x))) (processes s) = true ->
      forall p0 x, In (p0, x) (processes s) -> ~ is_statement x).
    { intros F p0 x X S. rewrite forallb_forall in F. specialize (F _ X). cbn in F.
      destruct x; try discriminate. now apply (S t). }
    destruct q; [exact I|now apply G|now apply G|now apply G].
  - intros t F. rewrite F in H. apply andb_true_iff in H as [H1 H2]. split.
    + destruct (saved s) as [u|]; [|discriminate]. cbn in H1. apply andb_true_iff in H1 as [A B].
      apply Nat.eqb_eq in A, B. destruct u, t. cbn in *. now subst.
    + intros q x X Fl. rewrite forallb_forall in H2. specialize (H2 _ X). cbn in H2.
      destruct Fl as [->|[->|[->| ->]]]; discriminate.
  - intro F. rewrite F in H. discriminate.
  - apply andb_true_iff in H as [-> H]. split; [reflexivity|]. intros p X.
    rewrite forallb_forall in H. specialize (H _ X). discriminate.
Qed.

Fixpoint calm_run (wal : bool) (s : state) (l : list row) (es : list event) : option (state * list row) :=
  match es with
  | [] => Some (s, l)
  | e :: es =>
      if kept_apartb wal s e then
        match step wal s e with
        | Some s' => calm_run wal s' (inserted wal s e l) es
        | None => None
        end
      else None
  end.

Lemma calm_run_sound : forall wal es s l s' l', calm wal s l -> calm_run wal s l es = Some (s', l') ->
  calm wal s' l'.
Proof.
  intros wal es. induction es as [|e es IH]; intros s l s' l' C E; cbn in E.
  - injection E as <- <-. exact C.
  - destruct (kept_apartb wal s e) eqn:K; [|discriminate].
    destruct (step wal s e) as [s1|] eqn:Es; [|discriminate].
    apply (IH _ _ _ _ (calm_step wal s l e s1 C (kept_apart_sound _ _ _ K) Es) E).
Qed.

(** The server is stopped while a table is dropped: the table remains, but its log is new. *)
Theorem row_lost_interrupted : exists l1 l2 s0 s1 s2 p,
  run true init l1 = Some s1 /\ find_process p (processes s1) = Some DropDelete
  /\ calm true s1 s0 /\ run true s1 (Crash :: l2) = Some s2 /\ ~ In Crash l2
  /\ (forall q, ~ In (Start q Drop) l2) /\ lost_in_crash s2.
Proof.
  exists (create 0 1 ++ [Start 1 Put; Batch 1 7 [5%Z]; Free 7; End 1; Start 2 Drop] ++ steps 2 4),
    [Start 3 Put]. eexists. eexists. eexists. exists 2.
  split; [vm_compute; reflexivity|]. split; [reflexivity|]. split.
  - apply (calm_run_sound true (create 0 1 ++ [Start 1 Put; Batch 1 7 [5%Z]; Free 7; End 1; Start 2 Drop]
      ++ steps 2 4) init []); [constructor|]. vm_compute. reflexivity.
  - split; [vm_compute; reflexivity|].
    split; [cbn; intros H; repeat (destruct H as [H|H]; [discriminate H|]); destruct H|].
    split; [cbn; intros q H; repeat (destruct H as [H|H]; [discriminate H|]); destruct H|].
    eexists. eexists. exists 3, (Table 0 1), (Row 0 8 [6%Z]).
    split; [reflexivity|]. split; [reflexivity|]. split; [discriminate|].
    split; [intros q x [E|[]] S; injection E as <- <-; now eapply S|].
    split; [reflexivity|]. split; [reflexivity|]. split; [intros [H|[]]; discriminate H|].
    split; [vm_compute; reflexivity|]. split; [now left|].
    split; [vm_compute; reflexivity|]. split; [reflexivity|].
    split; [intros [H|[]]; discriminate H|]. intros [].
Qed.
