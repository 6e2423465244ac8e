(** What a client expects when it flushes or stops a node. *)
From Coq Require Import ZArith Bool String List.
From Verif Require Import Model.NodeStop.
Import ListNotations.
Open Scope list_scope.

(** The rows that were inserted. *)
Fixpoint inserted (events : list event) : list row :=
  match events with
  | [] => []
  | Insert t z :: events => (t, z) :: inserted events
  | _ :: events => inserted events
  end.

(** What has happened since the node was last started. *)
Definition since_start (events : list event) : list event :=
  fold_left (fun l e => match e with Restart => [] | _ => l ++ [e] end) events [].

(** All data that is to be saved is saved. *)
Definition saves_succeed (events : list event) : Prop :=
  forall o, In (Save o) events -> o = Saved.

(** All saves have succeeded since the node was started or, if there is no write-ahead log, all saves
    ever have, and the node has never crashed. *)
Definition safe (logging : bool) (events : list event) : Prop :=
  if logging then saves_succeed (since_start events)
  else saves_succeed events /\ ~ In Crash events.

(** The rows in memory, and the rows in the tables of the local data folder. *)
Definition in_memory (n : node) : list row := concat (buffers n).
Definition local (n : node) : list row := counted n ++ uncounted n.

(** A request is answered by an event. *)
Definition answers_with (logging : bool) (k : kind) (e : event) (r : request) (a : answer)
    (n n' : node) : Prop :=
  step logging k e n = Some n' /\ answers n' = (r, a) :: answers n.

(** Nothing goes wrong. *)
Definition fine (e : event) : bool :=
  match e with Save Saved | Continue | Move Moved | Unlist true => true | _ => false end.

(** How often a row occurs. *)
Definition row_dec : forall a b : row, {a = b} + {a <> b}.
Proof. decide equality; [apply Z.eq_dec | apply string_dec]. Defined.
Definition times (r : row) (l : list row) : nat := count_occ row_dec l r.
