(** Executions in which nodes are flushed and stopped. *)
From Coq Require Import ZArith Bool String List Lia Permutation.
From Verif.Model Require Import Base Transfer.
From Verif.Spec Require Import TransferSpec NodeFlushSpec.
From Verif.Proofs Require Import TransferProofs TransferExamples.
Import ListNotations.
Open Scope Z_scope.
Open Scope string_scope.
Open Scope list_scope.

(** ** Transfers *)

Fixpoint times {A : Type} (n : nat) (a : A) : list A :=
  match n with O => [] | S n => a :: times n a end.

(** Rows of two tables are saved, by two tasks. *)
Definition before : list event :=
  [Save 0 "wind" [1; 2] 60; Save 1 "sun" [3] 20; Acquire 0; Acquire 1]
  ++ times 4 (Go 0 true) ++ times 4 (Go 1 true)
  ++ [Save 1 "wind" [4] 30; Acquire 1] ++ times 3 (Go 1 true).
(** While the tables are transferred, another row is saved. *)
Definition later : list event :=
  times 7 (Go 0 true) ++ [Save 1 "wind" [5] 10] ++ times 6 (Go 0 true).
Definition quiet_later : list event := times 13 (Go 0 true).

Definition spaceb (t : string) (e : event) (s : state) : bool :=
  match e with
  | Save _ k rows size => (0 <? size)%Z
  | Clear k => negb (String.eqb k t)
  | Crash _ _ => false
  | _ => true
  end.
Lemma spaceb_ok : forall t e s, spaceb t e s = true -> takes_space t e s.
Proof.
  intros t [] s H; try exact I; cbn in *.
  - intros _ _. lia.
  - apply negb_true_iff, String.eqb_neq in H. exact H.
  - discriminate.
Qed.
Definition succeedsb (t : string) (e : event) (_ : state) : bool :=
  match e with Crash _ _ => false | Mark k => negb (String.eqb k t) | Go _ ok => ok | _ => true end.
Lemma succeedsb_ok : forall i t e s, succeedsb t e s = true -> succeeds i t e s.
Proof.
  intros i t [] s H; try exact I; cbn in *; try discriminate; auto.
  apply negb_true_iff, String.eqb_neq in H. exact H.
Qed.
Definition no_saveb (t : string) (e : event) (_ : state) : bool :=
  match e with Save _ k _ _ => negb (String.eqb k t) | _ => true end.
Lemma no_saveb_ok : forall t e s, no_saveb t e s = true -> no_save t e s.
Proof.
  intros t [] s H; try exact I. cbn in *. apply negb_true_iff, String.eqb_neq in H. exact H.
Qed.
Definition addsb (t : string) (a : task) : bool :=
  match a with
  | Waits k _ | Holds _ (Looking k _ | Inserting k _ | Adding k _) => String.eqb k t
  | _ => false
  end.
Lemma addsb_ok : forall t s, existsb (addsb t) (x_tasks s) = false -> all_added t s.
Proof.
  intros t s H a Ha. pose proof (none_of _ _ _ H Ha) as E.
  destruct a as [|k z|l [k z|k z|k z|k|p todo f]]; cbn in *; try tauto;
    intros ->; rewrite String.eqb_refl in E; discriminate.
Qed.

Ltac by_running p := eapply (alongb_ok p); [|vm_compute; reflexivity].

Lemma transfer_case :
  exists s s1 s2, run before (start 2 None) = Went s
    /\ step (Transfer_all 0 ["wind"; "sun"]) s = Went s1
    /\ run later s1 = Went s2
    /\ along unsigned before (start 2 None)
    /\ along one_transfer_at_a_time before (start 2 None)
    /\ along no_insert_race before (start 2 None)
    /\ along (takes_space "wind") before (start 2 None)
    /\ bytes_bounded "wind" before
    /\ along no_save_while_moving (before ++ Transfer_all 0 ["wind"; "sun"] :: later) (start 2 None)
    /\ all_added "wind" s /\ mem "wind" (x_dropped s) = false
    /\ along (succeeds 0 "wind") later s1 /\ done 0 s2
    /\ saved "wind" before = [1; 2; 4]
    /\ x_local s2 "wind" = [5] /\ x_remote s2 "wind" = [1; 2; 4] /\ x_remote s2 "sun" = [3].
Proof.
  eexists _, _, _. split; [vm_compute; reflexivity|]. split; [vm_compute; reflexivity|].
  split; [vm_compute; reflexivity|].
  split; [by_running unsignedb; exact unsignedb_ok|].
  split; [by_running single_transfers; exact single_transfers_ok|].
  split; [by_running single_inserts; exact single_inserts_ok|].
  split; [by_running (spaceb "wind"); exact (spaceb_ok "wind")|].
  split; [exact (boundedb_ok "wind" before 0 eq_refl)|].
  split; [by_running calm_saves; exact calm_saves_ok|].
  split; [apply addsb_ok; vm_compute; reflexivity|]. split; [vm_compute; reflexivity|].
  split; [by_running (succeedsb "wind"); exact (succeedsb_ok 0 "wind")|].
  split; [vm_compute; reflexivity|]. split; [vm_compute; reflexivity|].
  split; [vm_compute; reflexivity|]. split; vm_compute; reflexivity.
Qed.

Lemma moved_case :
  exists s s1 s2, run before (start 2 None) = Went s
    /\ step (Transfer_all 0 ["wind"; "sun"]) s = Went s1
    /\ run quiet_later s1 = Went s2
    /\ along unsigned before (start 2 None)
    /\ along no_insert_race before (start 2 None)
    /\ along (takes_space "wind") before (start 2 None)
    /\ bytes_bounded "wind" before
    /\ along no_save_while_moving (before ++ Transfer_all 0 ["wind"; "sun"] :: quiet_later)
         (start 2 None)
    /\ along one_transfer_at_a_time (before ++ Transfer_all 0 ["wind"; "sun"] :: quiet_later)
         (start 2 None)
    /\ along truncates_what_is_written (before ++ Transfer_all 0 ["wind"; "sun"] :: quiet_later)
         (start 2 None)
    /\ all_added "wind" s /\ mem "wind" (x_dropped s) = false
    /\ along (succeeds 0 "wind") quiet_later s1 /\ along (no_save "wind") quiet_later s1
    /\ done 0 s2 /\ (forall a, In a (x_tasks s2) -> ~ has_written "wind" a)
    /\ x_remote s2 "wind" = [1; 2; 4].
Proof.
  eexists _, _, _. split; [vm_compute; reflexivity|]. split; [vm_compute; reflexivity|].
  split; [vm_compute; reflexivity|].
  split; [by_running unsignedb; exact unsignedb_ok|].
  split; [by_running single_inserts; exact single_inserts_ok|].
  split; [by_running (spaceb "wind"); exact (spaceb_ok "wind")|].
  split; [exact (boundedb_ok "wind" before 0 eq_refl)|].
  split; [by_running calm_saves; exact calm_saves_ok|].
  split; [by_running single_transfers; exact single_transfers_ok|].
  split; [by_running truncations; exact truncations_ok|].
  split; [apply addsb_ok; vm_compute; reflexivity|]. split; [vm_compute; reflexivity|].
  split; [by_running (succeedsb "wind"); exact (succeedsb_ok 0 "wind")|].
  split; [by_running (no_saveb "wind"); exact (no_saveb_ok "wind")|].
  split; [vm_compute; reflexivity|].
  split; [|vm_compute; reflexivity].
  intros a Ha. apply writtenb_ok. revert a Ha. cbn. intros a [<-|[<-|[]]]; reflexivity.
Qed.

(** Two transfers of a table overlap, so its size is subtracted twice, and then a row is saved that
    is as large as the rows that were transferred. *)
Definition overlapping : list event :=
  [Save 0 "wind" [1] 120; Acquire 0] ++ times 3 (Go 0 true)
  ++ [Save 1 "wind" [2] 120; Acquire 1] ++ times 2 (Go 1 true)
  ++ concat (times 7 [Go 0 true; Go 1 true])
  ++ [Save 2 "wind" [3] 240; Acquire 2] ++ times 3 (Go 2 true).

Lemma overlapping_case :
  exists s, run (overlapping ++ [Transfer_all 0 []; Go 0 true]) (start 3 (Some 100)) = Went s
    /\ along no_failure overlapping (start 3 (Some 100))
    /\ along no_save_while_moving overlapping (start 3 (Some 100))
    /\ along no_insert_race overlapping (start 3 (Some 100))
    /\ done 0 s /\ quiet s
    /\ x_local s "wind" = [3] /\ ~ In 3 (x_remote s "wind").
Proof.
  eexists. split; [vm_compute; reflexivity|].
  split; [by_running successes; exact successes_ok|].
  split; [by_running calm_saves; exact calm_saves_ok|].
  split; [by_running single_inserts; exact single_inserts_ok|].
  split; [vm_compute; reflexivity|]. split.
  - intros a. cbn. intros [<-|[<-|[<-|[]]]]; reflexivity.
  - split; [vm_compute; reflexivity|]. vm_compute. intuition discriminate.
Qed.

(** The size of a table is cleared by a TRUNCATE that then fails to delete the rows. *)
Definition cleared : list event :=
  [Save 0 "wind" [1] 50; Acquire 0] ++ times 4 (Go 0 true)
  ++ [Mark "wind"; Clear "wind"; Transfer_all 0 []; Go 0 true].

Lemma cleared_case :
  exists s, run cleared (start 1 (Some 100)) = Went s
    /\ along no_failure cleared (start 1 (Some 100))
    /\ done 0 s /\ x_local s "wind" = [1] /\ x_remote s "wind" = [].
Proof.
  eexists. split; [vm_compute; reflexivity|].
  split; [by_running successes; exact successes_ok|].
  split; [vm_compute; reflexivity|]. split; vm_compute; reflexivity.
Qed.
