(** What a write-ahead log promises. *)
From Coq Require Import ZArith List Bool Sorting.Permutation.
From Verif Require Import Model.Base Model.Wal.
Import ListNotations.
Open Scope Z_scope.

Section WalSpec.
Context {B : Type} (memory_size : B -> Z).

(** The batch that an event has written to the log. An append that is interrupted by a crash may
    have done so. *)
Definition written (e : event B) : list B :=
  match e with
  | Appended b _ => [b]
  | Crashed (Some (b, S _, _)) _ => [b]
  | _ => []
  end.

(** What is known about a log from its history: the batches since the log was truncated with
    their ids, the number of batches ever written, the committed ids, and the ids that the log
    was told about: those committed before it was opened and those marked since. *)
Record ledger : Type := Ledger {
  l_log : list (Z * B);
  l_next : Z;
  l_commits : list Z;
  l_known : list Z }.

Definition not_in (ids : list Z) (p : Z * B) : bool := negb (if in_dec Z.eq_dec (fst p) ids then true else false).

(** The ids number the batches. Reading returns exactly the batches that are not known to be
    persisted, in order, each with its id. If truncating is interrupted, the oldest batches may
    be gone. *)
Inductive explains : ledger -> event B -> ledger -> Prop :=
| explains_opened : forall log next commits known,
    explains (Ledger log next commits known) Opened (Ledger log next commits commits)
| explains_appended : forall log next commits known b,
    explains (Ledger log next commits known) (Appended b next)
      (Ledger (log ++ [(next, b)]) (next + 1) commits known)
| explains_committed : forall log next commits known ids,
    explains (Ledger log next commits known) (Committed ids) (Ledger log next (commits ++ ids) known)
| explains_marked : forall log next commits known ids,
    explains (Ledger log next commits known) (Marked ids) (Ledger log next commits (known ++ ids))
| explains_truncated : forall log next commits known,
    explains (Ledger log next commits known) Truncated (Ledger [] next commits known)
| explains_threshold : forall l t, explains l (Threshold t) l
| explains_replayed : forall log next commits known,
    explains (Ledger log next commits known) (Replayed (filter (not_in known) log))
      (Ledger log next commits known)
| explains_crashed : forall log next commits known a m log',
    log' = match written (Crashed a m) with b :: _ => log ++ [(next, b)] | [] => log end ->
    explains (Ledger log next commits known) (Crashed a m)
      (Ledger log' (next + Z.of_nat (length (written (Crashed a m)))) commits known)
| explains_crashed_truncating : forall log gone next commits known k,
    explains (Ledger (gone ++ log) next commits known) (CrashedTruncating k)
      (Ledger log next commits known)
| explains_crashed_opening : forall l k, explains l (CrashedOpening k) l.

Inductive explained : ledger -> list (event B) -> ledger -> Prop :=
| explained_nil : forall l, explained l [] l
| explained_cons : forall l e l' h l'', explains l e l' -> explained l' h l'' ->
    explained l (e :: h) l''.

Definition empty_ledger : ledger := Ledger [] 0 [] [].

(** The files show the next id: all files have a schema and the last id is in the name of the last
    closed file or follows from the active file. An active file without batches shows the next id
    only if it comes right after a closed file or if there are no closed files, and no file at all
    only if no batch has been written. *)
Definition shows_next (files : list (name * file B)) (next : Z) : Prop :=
  (forall n f, In (n, f) files -> f_header f = true)
  /\ ((exists s f, In (ActiveFile s, f) files /\ s + Z.of_nat (length (f_batches f)) = next
        /\ (f_batches f <> [] \/ (forall c e g, ~ In (ClosedFile c e, g) files)
            \/ exists c g, In (ClosedFile c (s - 1), g) files))
      \/ (forall s f, ~ In (ActiveFile s, f) files)
         /\ (exists c g, In (ClosedFile c (next - 1), g) files)
      \/ files = [] /\ next = 0).

(** Only ids of written batches are committed, and only committed ids are marked. The log is opened
    if its files show the next id. *)
Definition allowed (s : state B) (next : Z) (e : event B) : Prop :=
  match e with
  | Opened | CrashedOpening _ => shows_next (st_files (fst s)) next
  | Committed ids => forall id, In id ids -> id < next
  | Marked ids | Crashed _ (Some (ids, _)) => incl ids (st_commits (fst s))
  | _ => True
  end.

(** Histories in which every event is allowed; [next] is the number of batches written before. *)
Inductive sound_run (listing : list (name * file B) -> list (name * file B))
  : state B -> Z -> list (event B) -> state B -> Prop :=
| sound_nil : forall s next, sound_run listing s next [] s
| sound_cons : forall s next e s' h s'', allowed s next e -> step memory_size listing s e s' ->
    sound_run listing s' (next + Z.of_nat (length (written e))) h s'' ->
    sound_run listing s next (e :: h) s''.

(** ** Histories *)

(** The batches that were appended, with the ids that were returned. *)
Definition appended (h : list (event B)) : list (Z * B) :=
  flat_map (fun e => match e with Appended b id => [(id, b)] | _ => [] end) h.
(** The ids that were committed or marked. *)
Definition persisted (h : list (event B)) : list Z :=
  flat_map (fun e => match e with Committed ids | Marked ids => ids | _ => [] end) h.
Definition all_written (h : list (event B)) : list B := flat_map written h.
Definition count (h : list (event B)) : Z := Z.of_nat (length (all_written h)).

Definition truncating (e : event B) : Prop :=
  match e with Truncated | CrashedTruncating _ => True | _ => False end.
(** What happens between the first and a later attempt to recover. *)
Definition recovering (e : event B) : Prop :=
  match e with
  | Opened | Replayed _ | Threshold _ | Crashed None None | CrashedOpening _ => True
  | _ => False
  end.

(** A file holds the batches with the ids from its start id on. *)
Definition start_id (n : name) : Z := match n with ActiveFile s | ClosedFile s _ => s end.
Definition held (files : list (name * file B)) (id : Z) (b : B) : Prop :=
  exists n f k, In (n, f) files /\ start_id n + Z.of_nat k = id /\ nth_error (f_batches f) k = Some b.

(** A folder is listed in any order. *)
Definition lists (listing : list (name * file B) -> list (name * file B)) : Prop :=
  forall files, Permutation (listing files) files.

End WalSpec.
Arguments ledger : clear implicits.
