(** What is asked for when a time series table is created from C or Python. *)
From Coq Require Import ZArith Reals Bool String List.
From Flocq Require Import Core IEEE754.Binary.
From Verif Require Import Model.Base Model.Float Model.ErrorBound Model.Filters Model.Table
  Model.ForeignTables Spec.ErrorBoundSpec Spec.TableSpec.
Import ListNotations.
Open Scope R_scope.

(** The documentation of [modelardb_embedded_create], capi.rs l.292-295: zero is lossless, positive
    values are absolute error bounds, negative values are relative error bounds. *)
Definition stands_for (value : f32) (eb : error_bound) : Prop :=
  match eb with
  | Absolute e => 0 < R32 value /\ e = value
  | Relative e => R32 value < 0 /\ finite32 e /\ R32 e = - R32 value
  | Lossless => R32 value = 0
  end.

(** The values that have a meaning; relative error bounds are at most 100%. *)
Definition meaningful (value : f32) : Prop := finite32 value /\ -100 <= R32 value.

(** The error bound of a column is that of its entry, or it is lossless if it has none. *)
Definition bound_from {B} (means : B -> error_bound -> Prop) (entries : list (string * B))
  (name : string) (eb : error_bound) : Prop :=
  (forall b, In (name, b) entries -> means b eb)
  /\ (~ In name (map fst entries) -> eb = Lossless).

(** The table that is asked for: columns, error bounds, and generated columns. *)
Record as_asked {B} (means : B -> error_bound -> Prop) (parse : string -> outcome expr)
  (name : string) (columns : list column) (entries : list (string * B))
  (generated : list (string * string)) (m : metadata) : Prop := {
  asked_name : table_name m = name;
  asked_columns : query_schema m = columns;
  asked_stored : forall c, In c (schema m) <-> In c columns /\ ~ In (fst c) (map fst generated);
  asked_bounds : Forall2 (fun c eb => bound_from means entries (fst c) eb)
    (schema m) (error_bounds m);
  asked_generated : Forall2 (fun c g =>
      match g with
      | None => ~ In (fst c) (map fst generated)
      | Some g => exists text, In (fst c, text) generated /\ parse text = Ok (generated_expr g)
      end) columns (generated_columns m)
}.

(** The columns and generated columns that a time series table can have. *)
Record acceptable (parse : string -> outcome expr) (columns : list column)
  (generated : list (string * string)) : Prop := {
  names_once : NoDup (map fst columns);
  not_too_many : (Z.of_nat (length columns) <= 32767)%Z;
  types_known : forall c, In c columns ->
    snd c = Timestamp_us \/ snd c = Float32 \/ snd c = Utf8View;
  one_time : exists time, In (time, Timestamp_us) columns /\ ~ In time (map fst generated)
    /\ forall name, In (name, Timestamp_us) columns -> ~ In name (map fst generated) -> name = time;
  one_or_more_fields : exists field, In (field, Float32) columns /\ ~ In field (map fst generated);
  sources_stored : forall name text, In name (map fst columns) -> In (name, text) generated ->
    exists e, parse text = Ok e /\ forall source, In source (names_in e) ->
      In source (map fst columns) /\ ~ In source (map fst generated)
}.

(** An error bound in Python: which are valid, which are f32 values, and how close the error bound
    of the table is; it is the closest f32 value. 2^-24 is half of the distance between 1.0 and the
    next f32 value, and 2^-150 is half of the least positive f32 value. *)
Definition valid_in_python (b : python_bound) : Prop :=
  match b with
  | AbsoluteErrorBound v => finite64 v /\ 0 < R64 v
  | RelativeErrorBound v => finite64 v /\ 0 < R64 v <= 100
  end.
Definition too_small (v : f64) : Prop := R64 v <= bpow radix2 (-150).
Definition too_large (v : f64) : Prop := bpow radix2 128 - bpow radix2 103 <= R64 v.
Definition not_an_f32 (b : python_bound) : Prop :=
  match b with
  | AbsoluteErrorBound v => too_small v \/ too_large v
  | RelativeErrorBound v => too_small v
  end.
Definition close (v : f64) (e : f32) : Prop :=
  Rabs (R32 e - R64 v) <= bpow radix2 (-24) * R64 v + bpow radix2 (-150)
  /\ forall x, finite32 x -> Rabs (R32 e - R64 v) <= Rabs (R32 x - R64 v).
Definition means_in_python (b : python_bound) (eb : error_bound) : Prop :=
  match b, eb with
  | AbsoluteErrorBound v, Absolute e => valid_error_bound eb /\ close v e
  | RelativeErrorBound v, Relative e => valid_error_bound eb /\ close v e
  | _, _ => False
  end.
