(** When the nodes of a cluster agree on the tables. *)
From Coq Require Import ZArith Bool String List.
From Verif Require Import Model.Base Model.Sql Model.Cluster Spec.StatementSpec.
Import ListNotations.
Open Scope nat_scope.
Open Scope list_scope.

Definition names_of (r : request) : list string :=
  match r with Create x _ => [x] | Drop xs => xs end.

(** The tables that no request that is being executed names. *)
Definition settled (c : cluster) (x : string) : Prop :=
  forall t, In t (tasks c) -> ~ In x (names_of (asked t)).

(** All nodes that are running have the same tables as the remote data folder, either by their
    names, or also by their definitions, other than those that are being created or dropped. *)
Definition same_names (c : cluster) : Prop :=
  forall u, running c u = true -> forall x, settled c x ->
  (find_table x (local (nodes c u)) = None <-> find_table x (remote c) = None).
Definition same_definitions (c : cluster) : Prop :=
  forall u, running c u = true -> forall x, settled c x ->
  find_table x (local (nodes c u)) = find_table x (remote c).

(** What happens in a cluster, with the start of a node as one action. *)
Inductive action :=
| Start (u : nat) (key : Z)
| Event (e : event).
Definition events_of (a : action) : list event :=
  match a with
  | Start u key => [Join u; Choose u key; Synchronize u]
  | Event e => [e]
  end.

(** Nodes are only started while no request is being executed and if they are not listed in the
    remote data folder, and the names of tables that are dropped do not have to be quoted. *)
Definition orderly (c : cluster) (a : action) : Prop :=
  match a with
  | Start u _ => tasks c = [] /\ ~ In u (rows c)
  | Event (Join _) | Event (Choose _ _) | Event (Synchronize _) => False
  | Event (Begin _ (Drop xs)) => Forall plain xs /\ xs <> []
  | _ => True
  end.
(** Requests that are executed at the same time name different tables, and no normal table has the
    schema that is used to store a time series table. *)
Definition distinguishable (storage_schema : Z -> Z) (d : table) : Prop :=
  match d with Normal schema => forall m, storage_schema m <> schema | Series _ => True end.
Definition separate (storage_schema : Z -> Z) (c : cluster) (a : action) : Prop :=
  match a with
  | Event (Begin _ r) =>
      (forall x, In x (names_of r) -> settled c x)
      /\ match r with Create _ d => distinguishable storage_schema d | Drop _ => True end
  | _ => True
  end.

(** Histories in which every action has a property. *)
Fixpoint always (storage_schema : Z -> Z) (P : cluster -> action -> Prop) (c : cluster)
    (actions : list action) : Prop :=
  match actions with
  | [] => True
  | a :: actions =>
      P c a /\ always storage_schema P (run storage_schema c (events_of a)) actions
  end.
Definition outcome_of (storage_schema : Z -> Z) (c : cluster) (actions : list action) : cluster :=
  fold_left (fun c a => run storage_schema c (events_of a)) actions c.

(** A cluster in which nothing is being executed, nothing has failed, the nodes that are listed are
    those that are running, they have the same key, and they agree on the tables. *)
Definition healthy (c : cluster) : Prop :=
  tasks c = [] /\ harmed c = false /\ NoDup (rows c)
  /\ (forall u, In u (rows c) <-> running c u = true)
  /\ (forall u key, at_stage (nodes c u) = Running key -> hd_error (keys c) = Some key)
  /\ same_definitions c.

(** A request from a client and everything that follows. *)
Definition whole (c : cluster) (u : nat) (r : request) : list event :=
  Begin u r :: Read 0 :: map (Visit 0) (filter (fun v => negb (v =? u)) (rows c)) ++ [Finish 0].
