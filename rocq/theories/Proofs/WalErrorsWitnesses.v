(** Histories of write-ahead logs in which operations on files fail. *)
From Coq Require Import ZArith Bool Lia List Sorting.Permutation.
From Verif Require Import Model.Base Model.Wal Model.WalErrors Spec.WalSpec Spec.WalErrorsSpec.
From Verif Require Import Proofs.WalErrorsProofs.
Import ListNotations.
Open Scope Z_scope.

(** Batches are numbers of size one, and folders are listed in the order in which files are kept. *)
Definition one (b : Z) : Z := 1.
Definition as_kept (files : list (name * file Z)) : list (name * file Z) := files.
Notation runs := (io_run one as_kept).

Lemma as_kept_lists : lists as_kept.
Proof. intros files. apply Permutation_refl. Qed.

Ltac reopen t := eapply io_run_cons; [eapply io_restarted with (threshold := t); vm_compute; reflexivity|].
Ltac acknowledge := eapply io_run_cons; [eapply io_acknowledged; vm_compute; reflexivity|].
Ltac refuse := eapply io_run_cons; [eapply io_refused; vm_compute; reflexivity|].
Ltac reject := eapply io_run_cons; [eapply io_rejected; vm_compute; reflexivity|].
Ltac commit := eapply io_run_cons; [eapply io_committed|].
Ltac marking := eapply io_run_cons; [eapply io_marked; vm_compute; reflexivity|].
Ltac stop := eapply io_run_cons; [eapply io_stopped|].
Ltac done := apply io_run_nil.

Lemma truncate_fails : forall st p k files removed,
  (k <? length (fst (truncate (B := Z) (p_wal p))))%nat = true ->
  apply_ops (st_files st) (firstn k (fst (truncate (p_wal p)))) = Some files ->
  (length (w_closed (p_wal p)) <? k)%nat = removed ->
  io_step one as_kept (st, Some p) (TruncateFailed removed)
    (Storage files (st_commits st), Some (Process (p_wal p) (p_finished p) (p_unlinked p || removed))).
Proof. intros st p k files removed Hk E <-. apply Nat.ltb_lt in Hk. now constructor. Qed.
Lemma mark_fails : forall st p ids k files,
  (k <? length (fst (mark (B := Z) (p_wal p) ids)))%nat = true ->
  apply_ops (st_files st) (firstn k (fst (mark (p_wal p) ids))) = Some files ->
  io_step one as_kept (st, Some p) (MarkFailed ids)
    (Storage files (st_commits st),
     Some (Process (after_failed_mark (p_wal p) ids k) (p_finished p) (p_unlinked p))).
Proof. intros st p ids k files Hk E. apply Nat.ltb_lt in Hk. now constructor. Qed.

(** A batch that was written but not synced moves the later ones to other ids. The last one has no
    id when the file is closed. *)
Lemma unsynced_lost : exists h b id batches s,
  runs io_initial (h ++ [Stopped; Restarted batches]) s /\ In (Acknowledged b id) h
  /\ ids_committed h = [] /\ Forall (fun e => ~ io_truncating e) h
  /\ filter harms h = [Refused 10 Syncing false] /\ ~ In b (map snd batches).
Proof.
  exists [Restarted []; Refused 10 Syncing false; Acknowledged 11 0; Acknowledged 12 1], 12, 1,
    [(0, 10); (1, 11)]. eexists. split.
  - cbn [app]. reopen 2. refuse. acknowledge. acknowledge. stop. reopen 2. done.
  - repeat split.
    + cbn [In]. tauto.
    + repeat constructor; intros [].
    + cbn [map snd In]. lia.
Qed.

(** It also makes a batch that is committed be replayed with another id. *)
Lemma unsynced_twice : exists h b id batches s,
  runs io_initial (h ++ [Stopped; Restarted batches]) s /\ In (Acknowledged b id) h
  /\ In id (ids_committed h) /\ filter harms h = [Refused 10 Syncing false] /\ In b (map snd batches).
Proof.
  exists [Restarted []; Refused 10 Syncing false; Acknowledged 11 0; IdsCommitted [0]; IdsMarked [0]], 11, 0,
    [(1, 11)]. eexists. split.
  - cbn [app]. reopen 10. refuse. acknowledge. commit. marking. stop. reopen 10. done.
  - repeat split; cbn; tauto.
Qed.

(** A file whose only segment cannot be read can never be opened. *)
Lemma never_opens : forall listing s e bs torn commits h s', lists listing ->
  io_run one listing s h s' -> s = (Storage [(ActiveFile e, File false bs torn)] commits, None) ->
  s' = s /\ Forall (fun e => e = RestartFailed) h.
Proof.
  intros listing s e bs torn commits h s' Hl H. induction H as [s|s ev s' h s'' Hst H IH]; intros ->.
  - split; [reflexivity|constructor].
  - assert (L : forall f : name * file Z, listing [f] = [f]).
    { intros f. apply Permutation_length_1_inv, Permutation_sym, Hl. }
    assert (O : forall t, open_log listing (Storage [(ActiveFile e, File false bs torn)] commits) t = ([], Err)).
    { intros t. unfold open_log. cbn [st_files]. rewrite L. unfold close_leftover. cbn [find is_active fst].
      unfold read_batches, lookup. cbn [find fst name_eqb]. rewrite Z.eqb_refl. reflexivity. }
    inversion Hst; subst.
    + rewrite O in *. congruence.
    + rewrite O in *. cbn [fst] in *. rewrite firstn_nil in *. cbn [apply_ops st_files st_commits] in *.
      match goal with E : Some _ = Some _ |- _ => injection E as <- end.
      destruct (IH eq_refl) as [E F]. split; [exact E|]. now constructor.
Qed.

(** A batch that is written after an incomplete one makes the log unreadable. *)
Lemma part_unreadable : exists h b id s,
  runs io_initial (h ++ [Stopped]) s /\ In (Acknowledged b id) h
  /\ filter harms h = [Refused 10 Writing true]
  /\ forall listing h' s' batches, lists listing -> io_run one listing s h' s' -> ~ In (Restarted batches) h'.
Proof.
  exists [Restarted []; Refused 10 Writing true; Acknowledged 11 0], 11, 0,
    (Storage [(ActiveFile 0, File false [] true)] [], None). split.
  - cbn [app]. reopen 10. refuse. acknowledge. stop. done.
  - split; [cbn [In]; tauto|]. split; [reflexivity|]. intros listing h' s' batches Hl H Hi.
    destruct (never_opens _ _ _ _ _ _ _ _ Hl H eq_refl) as [_ F]. rewrite Forall_forall in F.
    specialize (F _ Hi). discriminate F.
Qed.

(** After an attempt to truncate that fails when the active file is gone, batches are written to the
    file that was removed. *)
Lemma truncate_lost : exists h b id batches s,
  runs io_initial (h ++ [TruncateFailed true; Acknowledged b id; Stopped; Restarted batches]) s
  /\ Forall (fun e => harms e = false) h /\ ids_committed h = [] /\ ~ In b (map snd batches).
Proof.
  exists [Restarted []; Acknowledged 10 0], 11, 1, []. eexists. split.
  - cbn [app]. reopen 10. acknowledge.
    eapply io_run_cons; [eapply truncate_fails with (k := 1%nat); vm_compute; reflexivity|].
    acknowledge. stop. reopen 10. done.
  - split; [repeat constructor|]. split; [reflexivity|]. intros [].
Qed.

(** A file that could not be deleted makes ids be used again. *)
Lemma mark_lost : exists h b id batches s,
  runs io_initial (h ++ [Acknowledged b id; Stopped; Restarted batches]) s
  /\ Forall (fun e => harms e = false) h /\ ~ In b (flat_map io_written h)
  /\ In id (ids_committed h) /\ ~ In b (map snd batches).
Proof.
  exists [Restarted []; Acknowledged 10 0; Acknowledged 11 1; IdsCommitted [0; 1]; MarkFailed [0];
    IdsMarked [1]; Stopped; Restarted []], 12, 1, []. eexists. split.
  - cbn [app]. reopen 1. acknowledge. acknowledge. commit.
    eapply io_run_cons; [eapply mark_fails with (k := 0%nat); vm_compute; reflexivity|].
    marking. stop. reopen 1. acknowledge. stop. reopen 1. done.
  - split; [repeat constructor|]. split; [cbn; lia|]. split; [cbn; tauto|]. intros [].
Qed.

(** ** A history in which errors do no harm *)
Definition endured : list (io_event Z) :=
  [Restarted []; Acknowledged 10 0; Refused 11 Renaming false; Rejected 12; Stopped].

Lemma endured_sound : exists s,
  io_sound one as_kept io_initial 0 false (endured ++ [Restarted [(0, 10); (1, 11)]]) s.
Proof.
  eexists. unfold endured. cbn [app].
  eapply io_sound_cons.
  { split; [intros n f []|]. right. right. now split. }
  { eapply io_restarted with (threshold := 2); vm_compute; reflexivity. }
  eapply io_sound_cons; [reflexivity|eapply io_acknowledged; vm_compute; reflexivity|].
  eapply io_sound_cons; [reflexivity|eapply io_refused; vm_compute; reflexivity|].
  eapply io_sound_cons; [exact I|eapply io_rejected; vm_compute; reflexivity|].
  eapply io_sound_cons; [exact I|eapply io_stopped|].
  eapply io_sound_cons; [|eapply io_restarted with (threshold := 2); vm_compute; reflexivity|apply io_sound_nil].
  cbn [io_allowed fst st_files]. split.
  - intros n f [E|[]]. injection E as _ <-. reflexivity.
  - left. exists 0, (File true [10; 11] false). split; [now left|]. split; [reflexivity|].
    left. discriminate.
Qed.

(** ** A history in which truncating makes appending possible again *)
Lemma renewed_sound : exists s,
  io_sound one as_kept io_initial 0 false
    ([Restarted []; Acknowledged 10 0; Refused 11 Renaming false; Rejected 12] ++ [LogTruncated]) s
  /\ @io_ready Z LogTruncated.
Proof.
  eexists. split; [|exact I]. cbn [app].
  eapply io_sound_cons.
  { split; [intros n f []|]. right. right. now split. }
  { eapply io_restarted with (threshold := 2); vm_compute; reflexivity. }
  eapply io_sound_cons; [reflexivity|eapply io_acknowledged; vm_compute; reflexivity|].
  eapply io_sound_cons; [reflexivity|eapply io_refused; vm_compute; reflexivity|].
  eapply io_sound_cons; [exact I|eapply io_rejected; vm_compute; reflexivity|].
  eapply io_sound_cons; [reflexivity|eapply io_truncated; vm_compute; reflexivity|].
  apply io_sound_nil.
Qed.
