(** Concrete histories of a write-ahead log. The batches are numbers and have size one. *)
From Coq Require Import ZArith List Bool Lia Permutation.
From Verif Require Import Model.Base Model.Wal Spec.WalSpec.
Import ListNotations.
Open Scope Z_scope.

Definition one (b : Z) : Z := 1.
Definition as_is (files : list (name * file Z)) : list (name * file Z) := files.
Lemma as_is_lists : lists as_is.
Proof. intros files. apply Permutation_refl. Qed.

Ltac opened t := eapply run_cons; [eapply step_opened with (threshold := t); vm_compute; reflexivity|].
Ltac does :=
  eapply run_cons;
  [first [eapply step_appended; vm_compute; reflexivity | eapply step_committed
         | eapply step_marked; vm_compute; reflexivity | eapply step_truncated; vm_compute; reflexivity
         | eapply step_replayed; vm_compute; reflexivity | eapply step_crashed; vm_compute; reflexivity
         | eapply step_crashed_truncating; vm_compute; reflexivity]|].
Ltac crash_open t := eapply run_cons; [eapply step_crashed_opening with (threshold := t); vm_compute; reflexivity|].

(** The newest closed file is deleted and the active file is empty. *)
Lemma reuse_run : exists s, run one as_is initial
  [Opened; Appended 10 0; Appended 11 1; Appended 12 2; Appended 13 3; Committed [2; 3]; Marked [2; 3];
   Crashed None None; Opened; Appended 14 2; Crashed None None; Opened; Replayed [(0, 10); (1, 11)]] s.
Proof. eexists. opened 2. do 7 does. opened 2. do 2 does. opened 2. does. apply run_nil. Qed.

(** A crash between creating an active file and writing its schema. *)
Lemma headerless_run : exists st, run one as_is initial
  [Opened; Appended 10 0; Crashed (Some (11, 4%nat, false)) None] (st, None)
  /\ forall threshold, snd (open_log as_is st threshold) = Err.
Proof. eexists. split; [opened 2; do 2 does; apply run_nil|]. intros threshold. vm_compute. reflexivity. Qed.

(** A crash between deleting the active file and creating a new one. *)
Lemma truncate_crash_run : exists s, run one as_is initial
  [Opened; Appended 10 0; Committed [0]; Marked [0]; CrashedTruncating 1; Opened; Appended 11 0;
   Crashed None None; Opened; Replayed []] s.
Proof. eexists. opened 2. do 4 does. opened 2. do 2 does. opened 2. does. apply run_nil. Qed.

(** The same while recovering. *)
Lemma recovery_crash_run : exists s, run one as_is initial
  [Opened; Appended 10 0; Committed [0]; Marked [0]; Crashed None None; CrashedOpening 1; Opened;
   Appended 11 0; Crashed None None; Opened; Replayed []] s.
Proof. eexists. opened 1. do 4 does. crash_open 1. opened 1. do 2 does. opened 1. does. apply run_nil. Qed.

(** ** Sound histories *)
Ltac shows :=
  vm_compute; split;
  [intros n f H; repeat (destruct H as [H|H]; [injection H as <- <-; reflexivity|]); destruct H|].
Ltac sound_opened t tac :=
  eapply sound_cons; [tac|eapply step_opened with (threshold := t); vm_compute; reflexivity|].
Ltac sound_does :=
  eapply sound_cons;
  [first [exact I
         | solve [intros id H; cbn [In] in H; repeat (destruct H as [<-|H]; [vm_compute; reflexivity|]); destruct H]
         | solve [intros id H; vm_compute; vm_compute in H; tauto]]
  |first [eapply step_appended; vm_compute; reflexivity | eapply step_committed
         | eapply step_marked; vm_compute; reflexivity | eapply step_truncated; vm_compute; reflexivity
         | eapply step_replayed; vm_compute; reflexivity | eapply step_crashed; vm_compute; reflexivity
         | eapply step_crashed_truncating; vm_compute; reflexivity]|].

Ltac active_file := left; eexists; eexists; split; [left; reflexivity|split; [reflexivity|left; discriminate]].

(** A file is closed and deleted, a crash leaves a batch that was not acknowledged, and recovery is
    interrupted. *)
Definition example_history : list (event Z) :=
  [Opened; Appended 10 0; Appended 11 1; Appended 12 2; Committed [0; 1]; Marked [0; 1];
   Crashed (Some (13, 1%nat, false)) None; CrashedOpening 1; Opened; Replayed [(2, 12); (3, 13)];
   Appended 14 4; Committed [2]; Replayed [(2, 12); (3, 13); (4, 14)]; Marked [2];
   Replayed [(3, 13); (4, 14)]].

Lemma example_sound : exists st w, sound_run one as_is initial 0 example_history (st, Some w)
  /\ map fst (st_files st) = [ActiveFile 4; ClosedFile 2 3].
Proof.
  eexists. eexists. split; [|shelve]. unfold example_history.
  sound_opened 2 ltac:(shows; right; right; split; reflexivity).
  do 6 sound_does.
  eapply sound_cons; [shows; active_file|eapply step_crashed_opening with (threshold := 2); vm_compute; reflexivity|].
  sound_opened 2 ltac:(shows; right; left; split;
    [intros s f H; repeat (destruct H as [H|H]; [discriminate H|]); destruct H
    |eexists; eexists; left; reflexivity]).
  do 6 sound_does. apply sound_nil.
  Unshelve. all: vm_compute; reflexivity.
Qed.

(** Truncating after batches have been written, then more batches and a crash. *)
Definition truncate_history : list (event Z) :=
  [Opened; Appended 10 0; Appended 11 1; Appended 12 2; Truncated; Appended 13 3; Crashed None None;
   Opened; Replayed [(3, 13)]].
Lemma truncate_sound : exists s, sound_run one as_is initial 0 truncate_history s.
Proof.
  eexists. unfold truncate_history. sound_opened 2 ltac:(shows; right; right; split; reflexivity).
  do 6 sound_does. sound_opened 2 ltac:(shows; active_file). sound_does. apply sound_nil.
Qed.

(** A closed file is deleted by marking its batches. *)
Lemma delete_example : exists s s', sound_run one as_is initial 0 (firstn 5 example_history) s
  /\ allowed s (count (firstn 5 example_history)) (Marked [0; 1]) /\ step one as_is s (Marked [0; 1]) s'
  /\ map fst (st_files (fst s)) = [ActiveFile 2; ClosedFile 0 1]
  /\ map fst (st_files (fst s')) = [ActiveFile 2].
Proof.
  eexists. eexists. split.
  { cbn [firstn example_history]. sound_opened 2 ltac:(shows; right; right; split; reflexivity).
    do 4 sound_does. apply sound_nil. }
  split; [intros id H; vm_compute; vm_compute in H; tauto|].
  split; [eapply step_marked; vm_compute; reflexivity|]. split; vm_compute; reflexivity.
Qed.

(** Recovery at once and after two attempts, one of which was interrupted. *)
Lemma recovery_example : exists s s1 s2, sound_run one as_is initial 0 (firstn 7 example_history) s
  /\ sound_run one as_is s (count (firstn 7 example_history))
       ([CrashedOpening 1; Opened; Crashed None None] ++ [Opened; Replayed [(2, 12); (3, 13)]]) s1
  /\ sound_run one as_is s (count (firstn 7 example_history)) [Opened; Replayed [(2, 12); (3, 13)]] s2.
Proof.
  eexists. eexists. eexists. split.
  { cbn [firstn example_history]. sound_opened 2 ltac:(shows; right; right; split; reflexivity).
    do 6 sound_does. apply sound_nil. }
  split.
  - cbn [app]. eapply sound_cons; [shows; active_file|eapply step_crashed_opening with (threshold := 2); vm_compute; reflexivity|].
    sound_opened 2 ltac:(shows; right; left; split;
      [intros s f H; repeat (destruct H as [H|H]; [discriminate H|]); destruct H
      |eexists; eexists; left; reflexivity]).
    sound_does.
    sound_opened 2 ltac:(shows; left; eexists; eexists; split; [left; reflexivity|split; [reflexivity|
      right; right; eexists; eexists; right; left; reflexivity]]).
    sound_does. apply sound_nil.
  - sound_opened 2 ltac:(shows; active_file). sound_does. apply sound_nil.
Qed.
