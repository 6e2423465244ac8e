(** Nodes that are flushed and stopped. *)
From Coq Require Import ZArith Bool String List.
From Verif Require Import Model.NodeStop Spec.NodeStopSpec.
Import ListNotations.
Open Scope Z_scope.
Open Scope string_scope.
Open Scope list_scope.

(** A buffer cannot be written, the node crashes and is started again. *)
Definition restarted : list event :=
  [Restart; Insert "wind" 1; Insert "sun" 2; Request Flush_memory; Save Not_written; Continue;
   Crash; Restart; Insert "wind" 3].
Definition flushed : list event :=
  [Save Saved; Save Saved; Continue; Continue; Move Moved; Move Moved; Continue].

Lemma restarted_safe : forall r, safe true (restarted ++ Request r :: flushed).
Proof.
  intros r o Ho. cbn in Ho.
  repeat match goal with H : _ \/ _ |- _ => destruct H as [H|H] end; try discriminate;
    try (injection Ho as <-; reflexivity); contradiction.
Qed.

Lemma flush_node_case :
  exists n n', run true Edge (restarted ++ Request Flush_node :: flushed) new = Some n
    /\ answers_with true Edge Continue Flush_node Fine n n'
    /\ safe true (restarted ++ Request Flush_node :: flushed)
    /\ inserted (restarted ++ Request Flush_node :: flushed) = [("wind", 1); ("sun", 2); ("wind", 3)]
    /\ remote n' = [("sun", 2); ("wind", 1); ("wind", 3)].
Proof.
  eexists _, _. split; [vm_compute; reflexivity|].
  split; [split; [vm_compute; reflexivity | vm_compute; reflexivity]|].
  split; [apply restarted_safe|]. split; vm_compute; reflexivity.
Qed.

Lemma kill_node_case :
  exists n n', run true Edge (restarted ++ Request Kill_node :: flushed ++ [Unlist true]) new = Some n
    /\ answers_with true Edge Continue Kill_node Exited n n'
    /\ safe true (restarted ++ Request Kill_node :: flushed ++ [Unlist true])
    /\ remote n' = [("sun", 2); ("wind", 1); ("wind", 3)] /\ listed n = 0%nat.
Proof.
  eexists _, _. split; [vm_compute; reflexivity|].
  split; [split; [vm_compute; reflexivity | vm_compute; reflexivity]|].
  split; [|split; vm_compute; reflexivity].
  intros o Ho. cbn in Ho.
  repeat match goal with H : _ \/ _ |- _ => destruct H as [H|H] end; try discriminate;
    try (injection Ho as <-; reflexivity); contradiction.
Qed.

Definition saved_only : list event :=
  [Restart; Insert "wind" 1; Insert "sun" 2; Request Ctrl_c; Save Saved; Save Saved; Continue;
   Continue].
Lemma ctrl_c_case :
  exists n n', run false Single saved_only new = Some n
    /\ answers_with false Single Continue Ctrl_c Exited n n'
    /\ safe false saved_only
    /\ local n' = [("sun", 2); ("wind", 1)].
Proof.
  eexists _, _. split; [vm_compute; reflexivity|].
  split; [split; [vm_compute; reflexivity | vm_compute; reflexivity]|].
  split; [|vm_compute; reflexivity].
  split.
  - intros o Ho. cbn in Ho.
    repeat match goal with H : _ \/ _ |- _ => destruct H as [H|H] end; try discriminate;
      try (injection Ho as <-; reflexivity); contradiction.
  - cbn. intuition discriminate.
Qed.

Definition memory_only : list event :=
  [Restart; Insert "wind" 1; Request Flush_memory; Save Saved; Continue].
Lemma flush_memory_case :
  exists n n', run false Edge memory_only new = Some n
    /\ answers_with false Edge Continue Flush_memory Fine n n'
    /\ safe false memory_only
    /\ local n' = [("wind", 1)] /\ remote n' = [].
Proof.
  eexists _, _. split; [vm_compute; reflexivity|].
  split; [split; [vm_compute; reflexivity | vm_compute; reflexivity]|].
  split; [|split; vm_compute; reflexivity].
  split.
  - intros o Ho. cbn in Ho.
    repeat match goal with H : _ \/ _ |- _ => destruct H as [H|H] end; try discriminate;
      try (injection Ho as <-; reflexivity); contradiction.
  - cbn. intuition discriminate.
Qed.

(** A row that cannot be saved. *)
Definition unsaved (r : request) : list event :=
  [Restart; Insert "wind" 1; Request r; Save Not_written; Continue; Continue].

Lemma unsaved_case :
  exists n n', run false Edge (unsaved Flush_node) new = Some n
    /\ answers_with false Edge Continue Flush_node Fine n n'
    /\ inserted (unsaved Flush_node) = [("wind", 1)]
    /\ in_memory n' = [] /\ log n' = [] /\ local n' = [] /\ remote n' = [].
Proof.
  eexists _, _. split; [vm_compute; reflexivity|].
  split; [split; [vm_compute; reflexivity | vm_compute; reflexivity]|].
  split; [vm_compute; reflexivity|]. split; [vm_compute; reflexivity|].
  split; [vm_compute; reflexivity|]. split; vm_compute; reflexivity.
Qed.

Lemma killed_case :
  exists n n', run true Edge (unsaved Kill_node ++ [Unlist true]) new = Some n
    /\ answers_with true Edge Continue Kill_node Exited n n'
    /\ inserted (unsaved Kill_node ++ [Unlist true]) = [("wind", 1)]
    /\ log n' = [("wind", 1)] /\ local n' = [] /\ remote n' = [].
Proof.
  eexists _, _. split; [vm_compute; reflexivity|].
  split; [split; [vm_compute; reflexivity | vm_compute; reflexivity]|].
  split; [vm_compute; reflexivity|]. split; [vm_compute; reflexivity|].
  split; vm_compute; reflexivity.
Qed.

(** A row that is saved but cannot be marked as persisted in the log: its size is not recorded, so
    it is not transferred, however often the node is flushed. *)
Definition unmarked : list event :=
  [Restart; Insert "wind" 1; Request Flush_node; Save Not_marked; Continue; Continue].
Definition again : list event := [Request Flush_node; Continue; Continue; Continue; Continue].
Fixpoint repeated (n : nat) : list event :=
  match n with O => [] | S n => again ++ repeated n end.

Lemma again_same : forall n,
  running n = true -> doing n = None -> buffers n = [] -> counted n = [] ->
  exists n', run true Edge again n = Some n' /\ running n' = true /\ doing n' = None
    /\ buffers n' = [] /\ counted n' = [] /\ uncounted n' = uncounted n /\ remote n' = remote n
    /\ answers n' = (Flush_node, Fine) :: answers n.
Proof.
  intros [ru bu lo co c un re li d an] Hr Hd Hb Hc. cbn in Hr, Hd, Hb, Hc. subst.
  eexists. split; [reflexivity|]. cbn. repeat split.
Qed.

Lemma unmarked_case : forall m,
  exists n, run true Edge (unmarked ++ [Continue] ++ repeated m) new = Some n
    /\ (forall a, In a (answers n) -> a = (Flush_node, Fine)) /\ List.length (answers n) = S m
    /\ inserted unmarked = [("wind", 1)]
    /\ local n = [("wind", 1)] /\ remote n = [].
Proof.
  intros m.
  assert (H : forall m n, running n = true -> doing n = None -> buffers n = [] -> counted n = [] ->
            (forall a, In a (answers n) -> a = (Flush_node, Fine)) ->
            exists n', run true Edge (repeated m) n = Some n' /\ counted n' = []
              /\ uncounted n' = uncounted n /\ remote n' = remote n
              /\ (forall a, In a (answers n') -> a = (Flush_node, Fine))
              /\ List.length (answers n') = (m + List.length (answers n))%nat).
  { clear. intros m. induction m as [|m IH]; intros n Hr Hd Hb Hc Ha.
    - exists n. split; [reflexivity|]. split; [exact Hc|]. split; [reflexivity|].
      split; [reflexivity|]. split; [exact Ha | reflexivity].
    - destruct (again_same n Hr Hd Hb Hc) as (n1 & R & Hr1 & Hd1 & Hb1 & Hc1 & Hu1 & Hm1 & Ha1).
      destruct (IH n1 Hr1 Hd1 Hb1 Hc1) as (n' & R' & Hc' & Hu' & Hm' & Ha' & Hl').
      { rewrite Ha1. intros a [<-|Hi]; [reflexivity | exact (Ha a Hi)]. }
      exists n'. split.
      { cbn [repeated]. assert (Happ : forall a b n n1, run true Edge a n = Some n1 ->
                  run true Edge (a ++ b) n = run true Edge b n1).
        { clear. intros a. induction a as [|e a IHa]; intros b n n1 E.
          - injection E as <-. reflexivity.
          - cbn [run app] in *. destruct (step true Edge e n); [|discriminate]. exact (IHa b _ _ E). }
        rewrite (Happ _ _ _ _ R). exact R'. }
      split; [exact Hc'|]. split; [congruence|]. split; [congruence|]. split; [exact Ha'|].
      rewrite Hl', Ha1. cbn [List.length]. rewrite Nat.add_succ_r. reflexivity. }
  destruct (H m (Node true [] [("wind", 1)] [("wind", 1)] [] [("wind", 1)] [] 1 None
                   [(Flush_node, Fine)]) eq_refl eq_refl eq_refl eq_refl)
    as (n & R & Hc & Hu & Hm & Ha & Hl).
  { intros a [<-|[]]. reflexivity. }
  exists n. split; [exact R|]. split; [exact Ha|]. split; [rewrite Hl, Nat.add_comm; reflexivity|].
  split; [reflexivity|]. unfold local. rewrite Hc, Hu. split; [reflexivity | exact Hm].
Qed.

(** A node without a remote data folder: nothing fails, yet FlushNode does and KillNode does not end
    the process. *)
Lemma single_case :
  exists n, run true Single
        [Restart; Insert "wind" 1; Request Flush_node; Save Saved; Continue; Continue;
         Request Kill_node; Continue; Continue] new = Some n
    /\ answers n = [(Kill_node, Failed); (Flush_node, Failed)] /\ running n = true
    /\ local n = [("wind", 1)].
Proof.
  eexists. split; [vm_compute; reflexivity|]. split; [vm_compute; reflexivity|].
  split; vm_compute; reflexivity.
Qed.

(** Rows that were copied but could not be deleted are copied again. *)
Definition copied : list event :=
  [Restart; Insert "wind" 1; Request Flush_node; Save Saved; Continue; Continue; Move Not_deleted;
   Request Flush_node; Continue; Continue; Move Moved; Continue; Continue].
Lemma copied_case :
  exists n, run true Edge copied new = Some n /\ answers n = [(Flush_node, Fine); (Flush_node, Failed)]
    /\ inserted copied = [("wind", 1)] /\ remote n = [("wind", 1); ("wind", 1)].
Proof. eexists. split; [vm_compute; reflexivity|]. repeat split. Qed.

(** A row whose batch could not be marked as persisted is not replayed. *)
Lemma once_case :
  let events := unmarked ++ [Crash; Restart; Request Flush_node; Continue; Continue; Move Moved;
                             Continue; Continue] in
  exists n, run true Edge events new = Some n /\ ~ In (Move Not_deleted) events
    /\ answers n = [(Flush_node, Fine)] /\ log n = [("wind", 1)] /\ remote n = [("wind", 1)].
Proof.
  eexists. split; [vm_compute; reflexivity|]. split; [cbn; intuition discriminate|]. repeat split.
Qed.
