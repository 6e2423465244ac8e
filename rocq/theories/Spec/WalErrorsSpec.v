(** What a write-ahead log promises if operations on its files fail. *)
From Coq Require Import ZArith List Bool.
From Verif Require Import Model.Base Model.Wal Model.WalErrors Spec.WalSpec.
Import ListNotations.
Open Scope Z_scope.

Section WalErrorsSpec.
Context {B : Type} (memory_size : B -> Z).
Notation files_t := (list (name * file B)).

(** The batch that an event has written to the log: that of an append, also if the append fails
    after the batch was written. *)
Definition io_written (e : io_event B) : list B :=
  match e with
  | Acknowledged b _ => [b]
  | Refused b s _ => match s with Writing => [] | _ => [b] end
  | _ => []
  end.
Definition io_count (h : list (io_event B)) : Z := Z.of_nat (length (flat_map io_written h)).

(** An attempt to truncate the log, and the ids committed in a history. *)
Definition io_truncating (e : io_event B) : Prop :=
  match e with LogTruncated | TruncateFailed _ => True | _ => False end.
Definition ids_committed (h : list (io_event B)) : list Z :=
  flat_map (fun e => match e with IdsCommitted ids => ids | _ => [] end) h.

(** The errors after which the process must stop: a batch or the end-of-stream marker was written
    in part, a batch was written but not synced, or the active file was removed but not replaced. *)
Definition harms (e : io_event B) : bool :=
  match e with
  | Refused _ s partial => match s with Syncing => true | Writing | Finishing => partial | _ => false end
  | TruncateFailed removed => removed
  | _ => false
  end.

(** The log is only opened if its files show the next id, only ids of written batches are committed
    and only committed ids are marked, and nothing is appended or truncated after an error that
    harms until the process has stopped. *)
Definition io_allowed (s : io_state B) (next : Z) (harmed : bool) (e : io_event B) : Prop :=
  match e with
  | Restarted _ | RestartFailed => shows_next (st_files (fst s)) next
  | Acknowledged _ _ | Refused _ _ _ | LogTruncated | TruncateFailed _ => harmed = false
  | IdsCommitted ids => forall id, In id ids -> id < next
  | IdsMarked ids | MarkFailed ids => incl ids (st_commits (fst s))
  | Rejected _ | ThresholdSet _ | Stopped => True
  end.

Definition harmed_after (harmed : bool) (e : io_event B) : bool :=
  match e with Stopped => false | _ => harmed || harms e end.

Inductive io_sound (listing : files_t -> files_t)
  : io_state B -> Z -> bool -> list (io_event B) -> io_state B -> Prop :=
| io_sound_nil : forall s next harmed, io_sound listing s next harmed [] s
| io_sound_cons : forall s next harmed e s' h s'',
    io_allowed s next harmed e -> io_step memory_size listing s e s' ->
    io_sound listing s' (next + Z.of_nat (length (io_written e))) (harmed_after harmed e) h s'' ->
    io_sound listing s next harmed (e :: h) s''.

(** What may happen before writing is possible again. *)
Definition io_renews (e : io_event B) : Prop :=
  match e with Stopped | LogTruncated => True | _ => False end.

(** What makes writing possible again: opening or truncating the log. *)
Definition io_ready (e : io_event B) : Prop :=
  match e with Restarted _ | LogTruncated => True | _ => False end.

End WalErrorsSpec.
