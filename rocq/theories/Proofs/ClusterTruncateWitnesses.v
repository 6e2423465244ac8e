(** Histories in which TRUNCATE CLUSTER does not do what it should. *)
From Coq Require Import ZArith Bool Ascii String List Lia.
From Verif Require Import Model.Base Model.Sql Model.ClusterTruncate Spec.StatementSpec
  Spec.ClusterTruncateSpec Proofs.ClusterTruncateProofs.
Import ListNotations.
Open Scope nat_scope.
Open Scope list_scope.

Definition t : string := "t".
Definition other : string := "other".
Lemma t_sendable : sendable [t].
Proof.
  split; [discriminate|]. split.
  - constructor; [|constructor]. exists "t"%char, EmptyString. repeat split. constructor.
  - intros x l H. injection H as <- _. discriminate.
Qed.

(** Two nodes, and a row that was inserted into the second one. *)
Definition history : list event := [Join 1; Join 2; Insert 2 t [7%Z]; Save 2 t 1].
Definition truncating : list event := repeat (Work 0 true) 5.

Lemma moved_meanwhile : exists tables before u ts es x s, sendable ts /\ In s ts
  /\ let c := run (new_cluster tables) before in
     let c' := run c (Begin u ts :: es) in
     In (next c, true) (results c') /\ ~ inserted es s x /\ In x (remote c' s).
Proof.
  exists [t], history, 1, [t],
    ([Proceed 0; Scan 2 t; Write 2; Delete 2; Proceed 0] ++ truncating ++ [Proceed 0]
       ++ truncating ++ [Proceed 0]), 7%Z, t.
  split; [exact t_sendable|]. split; [now left|]. cbv zeta. split; [|split].
  - vm_compute. now left.
  - intros (v & l & H & _). cbn in H. repeat (destruct H as [H|H]; [discriminate|]). exact H.
  - vm_compute. now left.
Qed.

(** The second node is stopped when the table is truncated. *)
Lemma returns_later : exists tables before u ts es later x s, sendable ts /\ In s ts
  /\ let c := run (new_cluster tables) before in
     let c' := run c (Begin u ts :: es) in
     no_transfer ts (step c (Begin u ts)) es /\ all_saved (step c (Begin u ts)) es
     /\ In (next c, true) (results c') /\ ~ inserted (es ++ later) s x /\ In x (remote (run c' later) s).
Proof.
  exists [t], (history ++ [Leave 2]), 1, [t],
    ([Proceed 0; Proceed 0; Proceed 0] ++ truncating ++ [Proceed 0]),
    [Join 2; Scan 2 t; Write 2], 7%Z, t.
  split; [exact t_sendable|]. split; [now left|]. cbv zeta. split; [|split; [|split; [|split]]].
  - cbn [app truncating repeat no_transfer]. tauto.
  - cbn [app truncating repeat all_saved]. tauto.
  - vm_compute. now left.
  - intros (v & l & H & _). cbn in H. repeat (destruct H as [H|H]; [discriminate|]). exact H.
  - vm_compute. now left.
Qed.

(** The second node has crashed and is still listed. *)
Lemma half_done : exists tables before u ts es x y s, sendable ts /\ In s ts
  /\ let c := run (new_cluster tables) before in
     let c' := run c (Begin u ts :: es) in
     In (next c, false) (results c') /\ statements c' = [] /\ jobs c' = []
     /\ In x (remote c s) /\ remote c' s = []
     /\ In y (disk (nodes c u) s) /\ In y (disk (nodes c' u) s).
Proof.
  exists [t], (history ++ [Scan 2 t; Write 2; Delete 2; Insert 1 t [8%Z]; Save 1 t 1; Crash 2]), 1, [t],
    [Proceed 0; Proceed 0; Work 0 true], 7%Z, 8%Z, t.
  split; [exact t_sendable|]. split; [now left|]. cbv zeta. split; [vm_compute; now left|].
  split; [reflexivity|]. split; [reflexivity|]. split; [vm_compute; now left|]. split; [reflexivity|].
  split; vm_compute; now left.
Qed.

(** A mark stays when no node has something to do for a statement. *)
Lemma stays_marked : forall es c u s x, statements c = [] -> jobs c = [] ->
  In s (marked (nodes c u)) -> In x (disk (nodes c u) s) ->
  (forall l b, moving (nodes c u) <> Some (s, l, b)) ->
  (forall e, In e es -> e <> Crash u /\ e <> Leave u /\ forall v ts, e <> Begin v ts) ->
  let c' := run c es in
  In x (disk (nodes c' u) s) /\ forall l b, moving (nodes c' u) <> Some (s, l, b).
Proof.
  induction es as [|e es IH]; intros c u s x E J M D V H; [now split|]. cbn.
  assert (H' : forall e, In e es -> e <> Crash u /\ e <> Leave u /\ forall v ts, e <> Begin v ts).
  { intros e' He. apply H. now right. }
  destruct (H e (or_introl eq_refl)) as (H1 & H2 & H3). clear H.
  assert (K : forall c', statements c' = [] -> jobs c' = [] -> In s (marked (nodes c' u)) ->
            In x (disk (nodes c' u) s) -> (forall l b, moving (nodes c' u) <> Some (s, l, b)) ->
            In x (disk (nodes (run c' es) u) s)
            /\ forall l b, moving (nodes (run c' es) u) <> Some (s, l, b)).
  { intros c' A1 A2 A3 A4 A5. exact (IH c' u s x A1 A2 A3 A4 A5 H'). }
  clear IH H'.
  destruct e as [v r l|v r k|v r|v|v|v ts|i|i|k ok|k|v|v|v]; cbn [step].
  - destruct (_ && _); [|now apply K]. apply K; cbn; auto; unfold set_node;
      destruct (u =? v) eqn:Q; auto; apply Nat.eqb_eq in Q; subst; auto.
  - destruct (_ && _); [|now apply K]. apply K; cbn; auto; unfold set_node;
      destruct (u =? v) eqn:Q; auto; apply Nat.eqb_eq in Q; subst; auto.
    cbn. unfold set_rows. destruct (String.eqb_spec s r) as [->|]; [|exact D]. apply in_app_iff. now left.
  - destruct (moving (nodes c v)) eqn:Mv; [now apply K|].
    destruct (_ && _) eqn:B; [|now apply K]. apply K; cbn; auto; unfold set_node;
      destruct (u =? v) eqn:Q; auto; apply Nat.eqb_eq in Q; subst; auto.
    cbn. intros l b X. injection X as -> _ _. apply andb_prop in B. destruct B as (_ & B).
    apply negb_true_iff in B. apply member_iff in M. congruence.
  - destruct (moving (nodes c v)) as [((r, l), [])|] eqn:Mv; try now apply K.
    apply K; cbn; auto; unfold set_node;
      destruct (u =? v) eqn:Q; auto; apply Nat.eqb_eq in Q; subst; auto.
    cbn. intros l' b X. injection X as -> _ _. exact (V _ _ Mv).
  - destruct (moving (nodes c v)) as [((r, l), [])|] eqn:Mv; try now apply K.
    apply K; cbn; auto; unfold set_node;
      destruct (u =? v) eqn:Q; auto; apply Nat.eqb_eq in Q; subst; auto.
    + cbn. rewrite set_other; [exact D|]. intros ->. exact (V _ _ Mv).
    + cbn. discriminate.
  - destruct (H3 v ts eq_refl).
  - rewrite E. now apply K.
  - unfold ended. rewrite E. now apply K.
  - rewrite J. rewrite (proj2 (nth_error_None [] k)) by (cbn; lia). now apply K.
  - rewrite J. rewrite (proj2 (nth_error_None [] k)) by (cbn; lia). now apply K.
  - unfold stopped. rewrite E, J. apply K; cbn; auto; unfold set_node;
      destruct (u =? v) eqn:Q; auto; apply Nat.eqb_eq in Q; subst; contradiction.
  - unfold stopped. rewrite E, J. apply K; cbn; auto; unfold set_node;
      destruct (u =? v) eqn:Q; auto; apply Nat.eqb_eq in Q; subst; contradiction.
  - destruct (alive (nodes c v)); [now apply K|]. apply K; cbn; auto; unfold set_node;
      destruct (u =? v) eqn:Q; auto; apply Nat.eqb_eq in Q; subst; auto.
Qed.

(** The second node waits for the transfer of another table when the third one crashes. *)
Lemma never_transferred : exists tables before u ts es w x s, sendable ts /\ In s ts
  /\ let c := run (new_cluster tables) before in
     let c' := run c (Begin u ts :: es) in
     In (next c, false) (results c') /\ alive (nodes c' w) = true
     /\ forall later,
        (forall e, In e later -> e <> Crash w /\ e <> Leave w /\ forall v ts, e <> Begin v ts) ->
        let c'' := run c' later in
        In x (disk (nodes c'' w) s) /\ forall l b, moving (nodes c'' w) <> Some (s, l, b).
Proof.
  exists [t; other], (history ++ [Join 3; Insert 2 other [8%Z]; Save 2 other 1]), 1, [t],
    [Proceed 0; Proceed 0; Work 0 true; Scan 2 other; Work 0 true; Crash 3; Cancel 0], 2, 7%Z, t.
  split; [exact t_sendable|]. split; [now left|]. cbv zeta. split; [vm_compute; now left|].
  split; [reflexivity|]. intros later H.
  apply (stays_marked later _ 2 t 7%Z); [reflexivity|reflexivity|vm_compute; now left
    |vm_compute; now left| |exact H].
  vm_compute. discriminate.
Qed.

(** The rows of the second node are in memory and cannot be saved. *)
Lemma saved_later : exists tables before u ts es later x s, sendable ts /\ In s ts
  /\ let c := run (new_cluster tables) before in
     let c' := run c (Begin u ts :: es) in
     no_transfer ts (step c (Begin u ts)) es /\ In (next c, true) (results c')
     /\ ~ inserted (es ++ later) s x /\ In x (remote (run c' later) s).
Proof.
  exists [t; other], [Join 1; Join 2; Insert 2 other [8%Z]; Insert 2 t [7%Z]], 1, [t],
    ([Proceed 0; Proceed 0; Work 0 true; Work 0 false; Work 0 true; Work 0 true; Work 0 true;
      Proceed 0] ++ truncating ++ [Proceed 0]),
    [Save 2 t 1; Scan 2 t; Write 2], 7%Z, t.
  split; [exact t_sendable|]. split; [now left|]. cbv zeta. split; [|split; [|split]].
  - cbn [app truncating repeat no_transfer]. tauto.
  - vm_compute. now left.
  - intros (v & l & H & _). cbn in H. repeat (destruct H as [H|H]; [discriminate|]). exact H.
  - vm_compute. now left.
Qed.

(** Two nodes with rows in memory, in their data folders, and in the remote data folder, and a row
    that is inserted meanwhile. *)
Lemma truncate_example : exists tables before u ts es, sendable ts
  /\ let c := run (new_cluster tables) before in
     let c' := run c (Begin u ts :: es) in
     alive (nodes c u) = true /\ no_transfer ts (step c (Begin u ts)) es
     /\ all_saved (step c (Begin u ts)) es /\ In (next c, true) (results c')
     /\ remote c t = [7%Z] /\ memory (nodes c 1) t = [8%Z] /\ disk (nodes c 2) t = [9%Z]
     /\ remote c' t = [] /\ memory (nodes c' 1) t = [] /\ disk (nodes c' 2) t = []
     /\ memory (nodes c' 2) t = [10%Z].
Proof.
  exists [t], (history ++ [Scan 2 t; Write 2; Delete 2; Insert 1 t [8%Z]; Insert 2 t [9%Z]; Save 2 t 1]),
    1, [t], ([Proceed 0; Proceed 0] ++ truncating ++ [Insert 2 t [10%Z]; Proceed 0] ++ truncating
               ++ [Proceed 0]).
  split; [exact t_sendable|]. cbv zeta. split; [reflexivity|].
  split; [cbn [app truncating repeat no_transfer]; tauto|].
  split; [cbn [app truncating repeat all_saved]; tauto|]. split; [vm_compute; now left|].
  repeat split; reflexivity.
Qed.
