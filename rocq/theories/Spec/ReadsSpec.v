(** What reading a time series table should return. *)
From Coq Require Import ZArith Bool Ascii String List.
From Verif Require Import Model.Base Model.Sql Model.Reads Spec.StatementSpec.
Import ListNotations.
Open Scope string_scope.
Open Scope list_scope.

(** A name in lower case that does not have to be quoted. *)
Definition simple (reserved : string -> bool) (name : string) : Prop :=
  plain name /\ map_string to_lower name = name /\ reserved (map_string to_upper name) = false.
Definition no_quote (s : string) : Prop := ~ has_char "'" s.

(** The value of a row in a column. *)
Definition value_in (l : list (string * kind)) (name : string) (row : list value) (v : value) : Prop :=
  exists i, nth_error (map fst l) i = Some name /\ nth_error row i = Some v.

(** The row has the tags and is in the interval. *)
Definition wanted (timestamp_of : string -> option Z) (l : list (string * kind)) (r : request)
    (row : list value) : Prop :=
  (forall name v, In (name, v) (tags r) -> value_in l name row (Tag v))
  /\ (forall s, start_time r = Some s ->
        exists a t, timestamp_of s = Some a /\ value_in l "timestamp" row (Time t) /\ (a <= t)%Z)
  /\ (forall s, end_time r = Some s ->
        exists b t, timestamp_of s = Some b /\ value_in l "timestamp" row (Time t) /\ (t <= b)%Z).

(** Those elements of a list that satisfy a property, in order. *)
Inductive chosen {A : Type} (P : A -> Prop) : list A -> list A -> Prop :=
| Chosen_none : chosen P [] []
| Chosen_kept : forall a l k, P a -> chosen P l k -> chosen P (a :: l) (a :: k)
| Chosen_left_out : forall a l k, ~ P a -> chosen P l k -> chosen P (a :: l) k.

(** Tables with different columns, and rows with values of the types of the columns. *)
Definition typed (k : kind) (v : value) : Prop :=
  match k, v with
  | Time_column, Time _ | Tag_column, Tag _ | Field_column, Field _ => True
  | _, _ => False
  end.
Definition proper (t : data) : Prop :=
  NoDup (map fst (schema t)) /\ schema t <> []
  /\ Forall (fun row => Forall2 typed (map snd (schema t)) row) (rows t).

(** Requests for columns, tags and timestamps that the table has. *)
Definition fits (timestamp_of : string -> option Z) (l : list (string * kind)) (r : request) : Prop :=
  (forall c a, In (c, a) (columns r) -> In c (map fst l))
  /\ (forall c, In c (group_by r) -> In c (map fst l))
  /\ (forall c v, In (c, v) (tags r) -> In (c, Tag_column) l)
  /\ (forall s, start_time r = Some s \/ end_time r = Some s ->
        In ("timestamp", Time_column) l /\ timestamp_of s <> None).

(** Requests whose names and texts are as they are when they are written in a query. *)
Definition written (reserved : string -> bool) (l : list (string * kind)) (r : request) : Prop :=
  Forall (simple reserved) (map fst l)
  /\ (forall c v, In (c, v) (tags r) -> no_quote v)
  /\ (forall s, start_time r = Some s \/ end_time r = Some s -> no_quote s).

(** A request with a second quote after each quote in the values of the tags. *)
Fixpoint double_quotes (s : string) : string :=
  match s with
  | EmptyString => EmptyString
  | String c s =>
      if Ascii.eqb c "'" then String c (String c (double_quotes s)) else String c (double_quotes s)
  end.
Definition with_quotes (r : request) : request :=
  Request (columns r) (group_by r) (start_time r) (end_time r)
    (map (fun t => (fst t, double_quotes (snd t))) (tags r)).
(** As [written], for tags with any values. *)
Definition written_doubled (reserved : string -> bool) (l : list (string * kind)) (r : request) : Prop :=
  Forall (simple reserved) (map fst l)
  /\ (forall s, start_time r = Some s \/ end_time r = Some s -> no_quote s).

(** The names of the columns that are returned without aggregates. *)
Definition asked (l : list (string * kind)) (r : request) : list string :=
  match columns r with [] => map fst l | cs => map fst cs end.

(** The name of an aggregate. *)
Definition function_of (a : aggregate) : option string :=
  match a with
  | Plain => None
  | Count => Some "COUNT"
  | Min => Some "MIN"
  | Max => Some "MAX"
  | Sum => Some "SUM"
  | Avg => Some "AVG"
  end.
Definition asked_aggregates (l : list (string * kind)) (r : request) : list (option string * string) :=
  match columns r with
  | [] => map (fun c => (None, fst c)) l
  | cs => map (fun c => (function_of (snd c), fst c)) cs
  end.

(** The table in a database, whose names are different. *)
Definition holds (db : database) (x : string) (t : data) : Prop :=
  NoDup (map fst db) /\ In (x, t) db.
