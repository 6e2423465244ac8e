(** What the transfer of data is specified to do, and the circumstances the theorems mention. *)
From Coq Require Import ZArith List Bool String.
From Verif.Model Require Import Base Transfer.
Import ListNotations.
Open Scope Z_scope.

(** The rows the events commit to table [t]. *)
Fixpoint saved (t : string) (events : list event) : list Z :=
  match events with
  | [] => []
  | Save _ k rows _ :: events => (if String.eqb k t then rows else []) ++ saved t events
  | _ :: events => saved t events
  end.

(** The bytes committed to table [t] since the last start of the server, [before] of them before
    the events; at a start they are the size of the files of the table. *)
Fixpoint bytes (t : string) (before : Z) (events : list event) : Z :=
  match events with
  | [] => before
  | Save _ k _ size :: events => bytes t (if String.eqb k t then before + size else before) events
  | Crash sizes _ :: events =>
      bytes t (match size_of t sizes with Some z => z | None => 0 end) events
  | _ :: events => bytes t before events
  end.

(** [P] holds for every event in the state in which it happens. *)
Fixpoint along (P : event -> state -> Prop) (events : list event) (s : state) : Prop :=
  match events with
  | [] => True
  | e :: events =>
      P e s /\ match step e s with Went s => along P events s | _ => True end
  end.

(** A task that transfers table [t], and one that has read the rows of [t] to transfer but not
    yet deleted them. *)
Definition transfers (t : string) (a : task) : Prop :=
  match a with
  | Holds _ (Transfers (Started k _ | Scanned k _ _ | Written k _ | Truncated k _) _ _) => k = t
  | _ => False
  end.

Definition moves (t : string) (a : task) : Prop :=
  match a with
  | Holds _ (Transfers (Scanned k _ _ | Written k _) _ _) => k = t
  | _ => False
  end.

(** A task that has written rows of [t] to the remote table but not yet deleted them locally. *)
Definition has_written (t : string) (a : task) : Prop :=
  match a with Holds _ (Transfers (Written k _) _ _) => k = t | _ => False end.

(** Nothing is committed to a table between the scan and the truncation of a transfer of it. *)
Definition no_save_while_moving (e : event) (s : state) : Prop :=
  match e with
  | Save _ t _ _ => forall a, In a (x_tasks s) -> ~ moves t a
  | _ => True
  end.

(** A transfer of a table does not begin while another task transfers it. *)
Definition one_transfer_at_a_time (e : event) (s : state) : Prop :=
  match e with
  | Go i _ =>
      forall l t todo for_, nth_error (x_tasks s) i = Some (Holds l (Transfers (Begin t) todo for_)) ->
      forall a, In a (x_tasks s) -> ~ transfers t a
  | _ => True
  end.

(** No crash, and no failed truncation, after the rows were written to the remote table. *)
Definition truncates_what_is_written (e : event) (s : state) : Prop :=
  match e with
  | Go i false => forall t a, nth_error (x_tasks s) i = Some a -> ~ has_written t a
  | Crash _ _ => forall t a, In a (x_tasks s) -> ~ has_written t a
  | _ => True
  end.

(** The first two increases of the size of a table do not overlap: when a task inserts the entry
    of the table, no other task has inserted it. *)
Definition no_insert_race (e : event) (s : state) : Prop :=
  match e with
  | Go i _ =>
      forall l t size, nth_error (x_tasks s) i = Some (Holds l (Inserting t size)) ->
      size_of t (x_sizes s) = None
  | _ => True
  end.

(** All accesses to the data folders succeed. *)
Definition no_failure (e : event) (_ : state) : Prop :=
  match e with Go _ ok => ok = true | _ => True end.

Definition no_new_batch_size (e : event) (_ : state) : Prop :=
  match e with Set_batch_size _ _ _ => False | _ => True end.

(** Sizes are unsigned. *)
Definition unsigned (e : event) (_ : state) : Prop :=
  match e with
  | Save _ _ _ size => 0 <= size
  | Set_batch_size _ (Some v) _ => 0 <= v
  | _ => True
  end.

(** No task is in one of the functions of [DataTransfer]. *)
Definition quiet (s : state) : Prop := forall a, In a (x_tasks s) -> holds a = false.

(** Fewer than 2^64 bytes are committed to table [t] between two starts of the server. *)
Definition bytes_bounded (t : string) (events : list event) : Prop :=
  forall past future, events = past ++ future -> bytes t 0 past < 2 ^ 64.

(** The recorded size of table [t], 0 if none is recorded. *)
Definition recorded_size (t : string) (s : state) : Z :=
  match size_of t (x_sizes s) with Some z => z | None => 0 end.
