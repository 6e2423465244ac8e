(** When flushing a node moves its rows to the remote data folder. *)
From Coq Require Import ZArith List Bool String.
From Verif.Model Require Import Base Transfer.
Import ListNotations.
Open Scope Z_scope.

(** No task has committed rows to table [t] without having added their size. *)
Definition adds (t : string) (a : task) : Prop :=
  match a with
  | Waits k _ | Holds _ (Looking k _ | Inserting k _ | Adding k _) => k = t
  | _ => False
  end.
Definition all_added (t : string) (s : state) : Prop := forall a, In a (x_tasks s) -> ~ adds t a.

(** Rows take up space, and no DROP or TRUNCATE clears the size of table [t]. *)
Definition takes_space (t : string) (e : event) (s : state) : Prop :=
  match e with
  | Save _ k rows size => k = t -> rows <> [] -> 0 < size
  | Clear k => k <> t
  | Crash sizes _ => x_local s t <> [] -> exists z, size_of t sizes = Some z /\ 0 < z
  | _ => True
  end.

(** The server does not crash, table [t] is not marked as dropped, and no access to the data folders
    by task [i] fails. *)
Definition succeeds (i : nat) (t : string) (e : event) (_ : state) : Prop :=
  match e with
  | Crash _ _ => False
  | Mark k => k <> t
  | Go j ok => j = i -> ok = true
  | _ => True
  end.

(** Task [i] has nothing to do. *)
Definition done (i : nat) (s : state) : Prop := nth_error (x_tasks s) i = Some Free.

(** Nothing is committed to table [t]. *)
Definition no_save (t : string) (e : event) (_ : state) : Prop :=
  match e with Save _ k _ _ => k <> t | _ => True end.
