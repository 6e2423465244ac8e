(** What it means to import the rows of a stream. *)
From Coq Require Import ZArith String List.
From Verif Require Import Model.Base Model.Float Model.Segments Model.Multivariate Model.Bulkloader
  Spec.MultivariateSpec.
Import ListNotations.
Open Scope Z_scope.

(** A value that is not null and the same value in a time series table: timestamps are in
    microseconds, and only [f64] is rounded. *)
Inductive converts (cast_double_to_float : bool) : column_type -> entry -> cell -> Prop :=
| converts_seconds : forall t, converts _ Seconds (Entry true (Instant t)) (Time (1000000 * t))
| converts_milliseconds : forall t, converts _ Milliseconds (Entry true (Instant t)) (Time (1000 * t))
| converts_microseconds : forall t, converts _ Microseconds (Entry true (Instant t)) (Time t)
| converts_half : forall v, converts _ Half (Entry true (Number v)) (Value v)
| converts_single : forall v, converts _ Single (Entry true (Number v)) (Value v)
| converts_double : forall v, cast_double_to_float = true ->
    converts _ Double (Entry true (Wide v)) (Value (f32_of_f64 v))
| converts_view : forall s, converts _ View (Entry true (Str s)) (Tag s).

(** The columns of a table. *)
Definition used (t : table) (c : nat) : Prop :=
  In c (tag_column_indices t) \/ c = timestamp_column_index t \/ In c (field_column_indices t).

Definition row_converts (cast : bool) (t : table) (cs : columns) (raw : raw_row) (r : row) : Prop :=
  forall c, used t c -> exists name ty e x,
    nth_error cs c = Some (name, ty) /\ nth_error raw c = Some e /\ nth_error r c = Some x
    /\ converts cast ty e x.

(** All rows of a stream are compressed: the rows are divided into parts, each is split into time
    series and compressed. *)
Definition imported (P : platform) (t : table) (cast : bool) (cs : columns)
  (batches : list (list raw_row)) (result : list compressed) : Prop :=
  exists parts results,
    concat parts = concat batches /\ result = concat results
    /\ Forall2 (fun part compressed => exists rows,
         Forall2 (row_converts cast t cs) part rows /\ splits P t rows compressed) parts results.

(** Batches in which all entries of the columns of the table have the types of their columns and
    are not null. *)
Definition well_typed (ty : column_type) (e : entry) : Prop :=
  match ty, content e with
  | (Seconds | Milliseconds | Microseconds | Nanoseconds), Instant _ => True
  | (Half | Single), Number _ => True
  | Double, Wide _ => True
  | (View | Utf8), Str _ => True
  | Other, Unknown => True
  | _, _ => False
  end.
Definition typed_row (cs : columns) (raw : raw_row) : Prop :=
  Forall2 (fun c e => well_typed (snd c) e) cs raw.
Definition no_null (t : table) (raw : raw_row) : Prop :=
  forall c e, used t c -> nth_error raw c = Some e -> valid e = true.

(** A batch with rows, or an error when it is read. *)
Definition good_batch (t : table) (cs : columns) (b : option (list raw_row)) : Prop :=
  match b with
  | Some rows => rows <> [] /\ Forall (typed_row cs) rows /\ Forall (no_null t) rows
  | None => True
  end.

(** Timestamps that are i64 when they are in microseconds. *)
Definition castable (ty : column_type) (e : entry) : Prop :=
  match ty, content e with
  | Seconds, Instant t => is_i64 (1000000 * t)
  | Milliseconds, Instant t => is_i64 (1000 * t)
  | Microseconds, Instant t => is_i64 t
  | _, _ => True
  end.

(** Rows in which all entries have the types of their columns, are not null and can be cast. *)
Definition ready (cs : columns) (rows : list raw_row) : Prop :=
  Forall (typed_row cs) rows /\ Forall (Forall (fun e => valid e = true)) rows
  /\ Forall (fun raw => Forall2 (fun c e => castable (snd c) e) cs raw) rows.

(** The types of columns that can be imported. *)
Definition right_types (cast : bool) (t : table) (cs : columns) : Prop :=
  (forall c, In c (tag_column_indices t) -> exists name, nth_error cs c = Some (name, View))
  /\ (exists name ty, nth_error cs (timestamp_column_index t) = Some (name, ty)
       /\ (ty = Seconds \/ ty = Milliseconds \/ ty = Microseconds))
  /\ (forall c, In c (field_column_indices t) -> exists name ty, nth_error cs c = Some (name, ty)
       /\ (ty = Half \/ ty = Single \/ ty = Double /\ cast = true)).
