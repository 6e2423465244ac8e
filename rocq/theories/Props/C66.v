(** C66: errors of the file system while a write-ahead log is used do not lose or repeat batches. *)
From Coq Require Import ZArith List.
From Verif Require Import Model.Base Model.Wal Model.WalErrors Spec.WalSpec Spec.WalErrorsSpec.
From Verif Require Import Proofs.WalErrorsProofs Proofs.WalErrorsWitnesses.
Import ListNotations.
Open Scope Z_scope.

(** Appending returns the number of batches written before, also if other appends have failed. *)
Theorem c66_ids_partial : forall (B : Type) (memory_size : B -> Z) listing h b id s, lists listing ->
  io_sound memory_size listing io_initial 0 false (h ++ [Acknowledged b id]) s -> id = io_count h.
Proof. intros B memory_size. exact (acknowledged_id memory_size). Qed.

(** What was written is returned when the log is opened again, with its id, unless it was committed
    or an attempt was made to truncate the log. This includes batches whose append failed after
    they were written. *)
Theorem c66_durable_partial : forall (B : Type) (memory_size : B -> Z) listing h1 e h2 batches b s,
  lists listing ->
  io_sound memory_size listing io_initial 0 false (h1 ++ e :: h2 ++ [Restarted batches]) s ->
  io_written e = [b] -> Forall (fun e => ~ io_truncating e) h2 ->
  ~ In (io_count h1) (ids_committed h2) -> In (io_count h1, b) batches.
Proof. intros B memory_size. exact (durable memory_size). Qed.

(** What is returned was written, was not committed, and is returned once. *)
Theorem c66_replayed_partial : forall (B : Type) (memory_size : B -> Z) listing h batches s,
  lists listing ->
  io_sound memory_size listing io_initial 0 false (h ++ [Restarted batches]) s ->
  NoDup (map fst batches)
  /\ forall id b, In (id, b) batches -> ~ In id (ids_committed h)
     /\ exists h1 e h2, h = h1 ++ e :: h2 /\ io_written e = [b] /\ id = io_count h1.
Proof. intros B memory_size. exact (replayed_once memory_size). Qed.

(** The log can be opened again. *)
Theorem c66_restarts_partial : forall (B : Type) (memory_size : B -> Z) listing h s,
  lists listing ->
  io_sound memory_size listing io_initial 0 false h s -> snd s = None ->
  shows_next (st_files (fst s)) (io_count h) ->
  exists batches s', io_step memory_size listing s (Restarted batches) s'.
Proof. intros B memory_size. exact (restarts memory_size). Qed.

(** After an error while a segment is replaced, nothing can be appended until the log is truncated
    or the process is started again. *)
Theorem c66_stuck : forall (B : Type) (memory_size : B -> Z) listing s b st partial h s',
  io_run memory_size listing s (Refused b st partial :: h) s' ->
  match st with Renaming | Creating | WritingSchema => True | _ => False end ->
  Forall (fun e => ~ io_renews e) h -> forall b' id, ~ In (Acknowledged b' id) h.
Proof. intros B memory_size. exact (stuck memory_size). Qed.

(** Once the log is opened or truncated again, batches can be appended, whatever failed before. *)
Theorem c66_ready_partial : forall (B : Type) (memory_size : B -> Z) listing h e s b, lists listing ->
  io_sound memory_size listing io_initial 0 false (h ++ [e]) s -> io_ready e ->
  exists s', io_sound memory_size listing io_initial 0 false
    ((h ++ [e]) ++ [Acknowledged b (io_count (h ++ [e]))]) s'.
Proof. intros B memory_size. exact (ready memory_size). Qed.

(** After one error of [sync_data], a batch that was appended later is lost. *)
Theorem c66_unsynced_lost_refuted : exists h b id batches s,
  io_run one as_kept io_initial (h ++ [Stopped; Restarted batches]) s /\ In (Acknowledged b id) h
  /\ ids_committed h = [] /\ Forall (fun e => ~ io_truncating e) h
  /\ filter harms h = [Refused 10 Syncing false] /\ ~ In b (map snd batches).
Proof. exact unsynced_lost. Qed.

(** After one error of [sync_data], a batch that was committed is returned again. *)
Theorem c66_unsynced_twice_refuted : exists h b id batches s,
  io_run one as_kept io_initial (h ++ [Stopped; Restarted batches]) s /\ In (Acknowledged b id) h
  /\ In id (ids_committed h) /\ filter harms h = [Refused 10 Syncing false] /\ In b (map snd batches).
Proof. exact unsynced_twice. Qed.

(** After one batch was written in part, the log cannot be opened. *)
Theorem c66_part_refuted : exists h b id s,
  io_run one as_kept io_initial (h ++ [Stopped]) s /\ In (Acknowledged b id) h
  /\ filter harms h = [Refused 10 Writing true]
  /\ forall listing h' s' batches, lists listing -> io_run one listing s h' s' -> ~ In (Restarted batches) h'.
Proof. exact part_unreadable. Qed.

(** After truncating has failed, a batch that is appended is lost. *)
Theorem c66_truncate_refuted : exists h b id batches s,
  io_run one as_kept io_initial (h ++ [TruncateFailed true; Acknowledged b id; Stopped; Restarted batches]) s
  /\ Forall (fun e => harms e = false) h /\ ids_committed h = [] /\ ~ In b (map snd batches).
Proof. exact truncate_lost. Qed.

(** After a file could not be deleted, an id is used again and the batch is lost. *)
Theorem c66_mark_refuted : exists h b id batches s,
  io_run one as_kept io_initial (h ++ [Acknowledged b id; Stopped; Restarted batches]) s
  /\ Forall (fun e => harms e = false) h /\ ~ In b (flat_map io_written h)
  /\ In id (ids_committed h) /\ ~ In b (map snd batches).
Proof. exact mark_lost. Qed.

(** The first batch is acknowledged. Renaming fails for the second one, and the third is rejected. *)
Example c66_sound : exists s,
  io_sound one as_kept io_initial 0 false
    ([Restarted []; Acknowledged 10 0] ++ Refused 11 Renaming false :: [Rejected 12; Stopped]
     ++ [Restarted [(0, 10); (1, 11)]]) s
  /\ lists as_kept.
Proof. destruct endured_sound as [s H]. exists s. split; [exact H|exact as_kept_lists]. Qed.
Example c66_ready_example : exists s,
  io_sound one as_kept io_initial 0 false
    ([Restarted []; Acknowledged 10 0; Refused 11 Renaming false; Rejected 12] ++ [LogTruncated]) s
  /\ @io_ready Z LogTruncated.
Proof. exact renewed_sound. Qed.
Example c66_stuck_events : Forall (fun e : io_event Z => ~ io_renews e) [Rejected 12; IdsCommitted [0]].
Proof. repeat constructor; intros []. Qed.

Print Assumptions c66_ids_partial.
Print Assumptions c66_durable_partial.
Print Assumptions c66_replayed_partial.
Print Assumptions c66_restarts_partial.
Print Assumptions c66_stuck.
Print Assumptions c66_ready_partial.
Print Assumptions c66_unsynced_lost_refuted.
Print Assumptions c66_unsynced_twice_refuted.
Print Assumptions c66_part_refuted.
Print Assumptions c66_truncate_refuted.
Print Assumptions c66_mark_refuted.
