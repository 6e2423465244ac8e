(** What TRUNCATE CLUSTER should do. *)
From Coq Require Import ZArith Bool String List Permutation.
From Verif Require Import Model.Base Model.Sql Model.ClusterTruncate Spec.StatementSpec.
Import ListNotations.
Open Scope nat_scope.
Open Scope list_scope.

(** The row was inserted into the table during the events. *)
Definition inserted (es : list event) (t : string) (x : Z) : Prop :=
  exists u l, In (Insert u t l) es /\ In x l.

(** A node or the remote data folder only has rows of a table that were inserted during the
    events. *)
Definition only_new (es : list event) (t : string) (l : list Z) : Prop :=
  forall x, In x l -> inserted es t x.

(** The row is not in the table, on any node or in the remote data folder, and not on its way. *)
Definition nowhere (t : string) (x : Z) (c : cluster) : Prop :=
  ~ In x (remote c t)
  /\ forall u, ~ In x (memory (nodes c u) t) /\ ~ In x (disk (nodes c u) t)
               /\ forall l b, moving (nodes c u) = Some (t, l, b) -> ~ In x l.

(** Names that are sent to peers as they are. *)
Definition sendable (ts : list string) : Prop :=
  ts <> [] /\ Forall plain ts
  /\ forall t l, ts = t :: l -> map_string to_upper t <> "CLUSTER"%string.

(** During the events no transfer writes rows of a table to the remote data folder. *)
Fixpoint no_transfer (ts : list string) (c : cluster) (es : list event) : Prop :=
  match es with
  | [] => True
  | e :: es =>
      match e with
      | Write u => forall t l b, moving (nodes c u) = Some (t, l, b) -> ~ In t ts
      | _ => True
      end /\ no_transfer ts (step c e) es
  end.

(** During the events no node fails to save the rows that it has in memory when these are flushed
    to truncate tables. *)
Fixpoint all_saved (c : cluster) (es : list event) : Prop :=
  match es with
  | [] => True
  | e :: es =>
      match e with
      | Work k false => forall i w l, nth_error (jobs c) k <> Some (Job i w (Flush :: l))
      | _ => True
      end /\ all_saved (step c e) es
  end.

(** What is done to truncate tables. *)
Definition truncates (e : event) : bool :=
  match e with
  | Begin _ _ | Proceed _ | Abandon _ | Work _ _ | Cancel _ => true
  | _ => false
  end.

(** No statement during the events names the table, and all names are sent as they are. *)
Definition unnamed (t : string) (es : list event) : Prop :=
  forall u ts, In (Begin u ts) es -> sendable ts /\ ~ In t ts.

(** A node that can truncate the tables at once. *)
Definition ready (ts : list string) (n : node) : Prop :=
  alive n = true /\ locked n = false /\ moving n = None /\ incl ts (tables n).

(** Only the nodes that execute statements do something, and what they do succeeds. *)
Definition executes (e : event) : Prop :=
  match e with Proceed _ | Work _ true => True | _ => False end.

(** The same rows, in memory or in the local data folder. *)
Definition same_rows (t : string) (n n' : node) : Prop :=
  Permutation (memory n' t ++ disk n' t) (memory n t ++ disk n t) /\ moving n' = moving n.
