(** What a time series table is. *)
From Coq Require Import ZArith Bool String List Permutation Sorted.
From Verif Require Import Model.Base Model.Float Model.ErrorBound Model.Filters Model.Table
  Spec.ErrorBoundSpec.
Import ListNotations.
Open Scope nat_scope.
Open Scope list_scope.

(** The column at an index is stored, and has a type. *)
Definition stored_at (generated : list (option generated_column)) (i : nat) : Prop :=
  nth_error generated i = Some None.
Definition type_at (columns : list column) (i : nat) (t : arrow_type) : Prop :=
  exists name, nth_error columns i = Some (name, t).

(** The definitions that should be accepted. *)
Record well_formed (columns : list column) (bounds : list error_bound)
  (generated : list (option generated_column)) : Prop := {
  one_bound_each : length bounds = length columns;
  one_generated_each : length generated = length columns;
  few_columns : (Z.of_nat (length columns) <= 32767)%Z;
  known_types : forall i t, type_at columns i t -> t = Timestamp_us \/ t = Float32 \/ t = Utf8View;
  one_timestamp : exists i, stored_at generated i /\ type_at columns i Timestamp_us
    /\ forall j, stored_at generated j -> type_at columns j Timestamp_us -> j = i;
  some_field : exists i, stored_at generated i /\ type_at columns i Float32;
  stored_sources : forall i g s, nth_error generated i = Some (Some g) ->
    In s (source_columns g) -> stored_at generated s
}.

(** The metadata of a definition: [schema] and [error_bounds] are those of the stored columns in
    order, and the indices are those of the columns with each type. *)
Record describes (columns : list column) (bounds : list error_bound)
  (generated : list (option generated_column)) (m : metadata) : Prop := {
  positions_sorted : StronglySorted lt (query_schema_to_schema m);
  positions_stored : forall i, In i (query_schema_to_schema m) <-> stored_at generated i;
  schema_stored :
    map Some (schema m) = map (nth_error columns) (query_schema_to_schema m);
  bounds_stored :
    map Some (error_bounds m) = map (nth_error bounds) (query_schema_to_schema m);
  timestamp_index : forall k, type_at (schema m) k Timestamp_us <-> k = timestamp_column_index m;
  field_indices : StronglySorted lt (field_column_indices m)
    /\ forall k, In k (field_column_indices m) <-> type_at (schema m) k Float32;
  tag_indices : StronglySorted lt (tag_column_indices m)
    /\ forall k, In k (tag_column_indices m) <-> type_at (schema m) k Utf8View;
  same_query_schema : query_schema m = columns;
  same_generated_columns : generated_columns m = generated
}.

(** The source columns of a generated column are those in its expression. *)
Definition sources_match (columns : list column) (g : generated_column) : Prop :=
  NoDup (source_columns g)
  /\ (forall i, In i (source_columns g) <->
        exists name t, In name (names_in (generated_expr g)) /\ nth_error columns i = Some (name, t))
  /\ (forall name, In name (names_in (generated_expr g)) -> In name (map fst columns)).

(** The order in which a set is enumerated does not matter. *)
Definition enumerates (set_order : list string -> list string) : Prop :=
  forall l, Permutation (set_order l) l.
Definition same_generated (g h : option generated_column) : Prop :=
  match g, h with
  | None, None => True
  | Some g, Some h =>
      generated_expr g = generated_expr h /\ Permutation (source_columns g) (source_columns h)
  | _, _ => False
  end.

(** Two definitions are the same if they only differ in the order of source columns. *)
Record same_definition (m n : metadata) : Prop := {
  same_name : table_name m = table_name n;
  same_columns : query_schema m = query_schema n;
  same_stored : schema m = schema n;
  same_bounds : error_bounds m = error_bounds n;
  same_exprs : Forall2 same_generated (generated_columns m) (generated_columns n);
  same_indices : timestamp_column_index m = timestamp_column_index n
    /\ field_column_indices m = field_column_indices n
    /\ tag_column_indices m = tag_column_indices n
    /\ query_schema_to_schema m = query_schema_to_schema n
    /\ compressed_schema m = compressed_schema n
}.

(** Expressions are read as they were written. *)
Definition faithful (ser : serializer) : Prop :=
  forall e, from_bytes ser (to_bytes ser e) = Ok e /\ to_bytes ser e <> [].

(** Definitions that are accepted and have unique names, valid error bounds, which are only for
    fields, and generated fields with the right sources. *)
Record valid_table (m : metadata) : Prop := {
  is_accepted : exists bounds,
    try_new (table_name m) (query_schema m) bounds (generated_columns m) = Ok m;
  unique_names : NoDup (map fst (query_schema m));
  valid_bounds : Forall valid_error_bound (error_bounds m);
  bounds_of_fields : forall k b, nth_error (error_bounds m) k = Some b -> b <> Lossless ->
    type_at (schema m) k Float32;
  generated_fields : forall i g, nth_error (generated_columns m) i = Some (Some g) ->
    type_at (query_schema m) i Float32 /\ sources_match (query_schema m) g
}.

(** The table a CREATE TIME SERIES TABLE statement asks for: column by column its name, type, error
    bound and expression. *)
Definition asked_type (kind : column_kind) : arrow_type :=
  match kind with
  | Timestamp_column => Timestamp_us
  | Field_column _ _ | Generated_column _ => Float32
  | Tag_column => Utf8View
  end.
Definition asked_bound (kind : column_kind) : error_bound :=
  match kind with
  | Field_column e relative =>
      if f32_lt f32_zero e then if relative then Relative e else Absolute e else Lossless
  | _ => Lossless
  end.
Definition asked_expr (kind : column_kind) : option expr :=
  match kind with Generated_column e => Some e | _ => None end.

Definition created_as (defs : list column_def) (m : metadata) : Prop :=
  query_schema m = map (fun d => (fst d, asked_type (snd d))) defs
  /\ map (option_map generated_expr) (generated_columns m) = map (fun d => asked_expr (snd d)) defs
  /\ describes (query_schema m) (map (fun d => asked_bound (snd d)) defs) (generated_columns m) m.
