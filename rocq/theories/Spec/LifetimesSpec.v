(** When inserts and statements for tables with one name are kept apart. *)
From Coq Require Import Arith Bool ZArith List Permutation.
From Verif Require Import Model.Base Model.Lifetimes.
Import ListNotations.
Open Scope nat_scope.
Open Scope list_scope.

(** A request that is not a put. *)
Definition is_statement (x : process) : Prop := forall t, x <> Putting t.

(** A statement that has flushed the table but not finished. *)
Definition has_flushed (x : process) : Prop :=
  x = DropLog \/ x = DropDelete \/ x = TruncateLog \/ x = TruncateDelete.

(** Statements are executed one at a time, batches are only inserted into the table that exists and
    not while a statement that has flushed it is executed, and statements that drop a table do not
    fail, and are not interrupted, between deleting its log and the table. Rows in memory are lost in
    a crash without a log. *)
Definition kept_apart (wal : bool) (s : state) (e : event) : Prop :=
  match e with
  | Start _ Put => True
  | Start _ _ => forall p x, In (p, x) (processes s) -> ~ is_statement x
  | Batch p _ _ => forall t, find_process p (processes s) = Some (Putting t) ->
      saved s = Some t /\ forall q x, In (q, x) (processes s) -> ~ has_flushed x
  | Step _ => True
  | End p => find_process p (processes s) <> Some DropDelete
  | Free _ => True
  | Crash => wal = true /\ forall p, ~ In (p, DropDelete) (processes s)
  end.

(** The rows that were inserted since the table was last truncated or dropped. *)
Definition inserted (wal : bool) (s : state) (e : event) (l : list row) : list row :=
  match e with
  | Batch p g v =>
      match find_process p (processes s) with
      | Some (Putting t) =>
          match wal, log s with true, None => l | _, _ => l ++ [Row (inc t) g v] end
      | _ => l
      end
  | Step p =>
      match find_process p (processes s) with
      | Some DropDelete | Some TruncateDelete => []
      | _ => l
      end
  | _ => l
  end.

(** An execution in which they are kept apart, and the rows that are to be stored. *)
Inductive calm (wal : bool) : state -> list row -> Prop :=
| calm_init : calm wal init []
| calm_step : forall s l e s', calm wal s l -> kept_apart wal s e -> step wal s e = Some s' ->
    calm wal s' (inserted wal s e l).

(** Any execution. *)
Definition reachable (wal : bool) (s : state) : Prop := exists l, run wal init l = Some s.

(** A row inserted by a put, with no statement executed after it, is lost in a crash. *)
Definition lost_in_crash (s : state) : Prop := exists s1 s2 p t r,
  find_process p (processes s) = Some (Putting t) /\ saved s = Some t /\ log s <> None
  /\ (forall q x, In (q, x) (processes s) -> ~ is_statement x)
  /\ into r = inc t /\ tags r = 8 /\ ~ In r (rows s)
  /\ step true s (Batch p 8 (values r)) = Some s1 /\ In r (map snd (points (memory s1)))
  /\ step true s1 Crash = Some s2 /\ saved s2 = Some t /\ ~ In r (rows s2)
  /\ ~ In r (map snd (points (memory s2))).
