(** What dropping, truncating and vacuuming one table means. *)
From Coq Require Import ZArith Bool Ascii String List.
From Verif Require Import Model.Base Model.Sql Model.Statements Model.EmbeddedTables
  Spec.StatementSpec.
Import ListNotations.
Open Scope list_scope.

Definition effect (o : operation) : table -> option table :=
  match o with
  | Drop_it => dropped
  | Truncate_it => emptied
  | Vacuum_it retention =>
      cleaned (match retention with Some period => period | None => 604800%Z end)
  end.

(** A retention period that is allowed. *)
Definition allowed (o : operation) : Prop :=
  match o with
  | Vacuum_it (Some period) => (0 <= period <= (2 ^ 63 - 1) / 1000)%Z
  | _ => True
  end.
(** A retention period of type u64 that is not more than a negative number of type i64. *)
Definition not_negative (o : operation) : Prop :=
  match o with
  | Vacuum_it (Some period) => (0 <= period < 2 ^ 64 - (2 ^ 63 - 1) / 1000 - 1)%Z
  | _ => True
  end.

(** A name that is not a keyword of the statement. *)
Definition not_in_statement (o : operation) (x : string) : Prop :=
  let upper := map_string to_upper x in
  match o with
  | Drop_it => True
  | Truncate_it => upper <> "CLUSTER"%string
  | Vacuum_it _ => upper <> "CLUSTER"%string /\ upper <> "RETAIN"%string
  end.

(** One table, if it exists, is changed as described and no other is. *)
Definition one_table (x : string) (e : table -> option table) (db : database)
    (result : database * outcome unit) : Prop :=
  match lookup x db with
  | Some t => snd result = Ok tt /\ lookup x (fst result) = e t
              /\ (forall y, y <> x -> lookup y (fst result) = lookup y db)
  | None => result = (db, Err)
  end.
