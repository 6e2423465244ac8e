(** What a query of a time series table should return. *)
From Coq Require Import ZArith Bool String List Permutation.
From Verif Require Import Model.Base Model.Filters Model.Streams Model.Table Model.Scan
  Spec.FiltersSpec Spec.StreamsSpec Spec.TableSpec.
Import ListNotations.
Open Scope nat_scope.
Open Scope list_scope.

(** A row of a table: its timestamp, and its tags and fields by name. *)
Record data_row := DataRow {
  r_time : Z;
  r_tag : string -> string;
  r_field : string -> Z
}.

(** The value of a column. *)
Definition value_in (r : data_row) (c : column) : option value :=
  match c with
  | (_, Timestamp_us) => Some (Time (r_time r))
  | (name, Float32) => Some (Value (r_field r name))
  | (name, Utf8View) => Some (Text (r_tag r name))
  | (_, Other_type _) => None
  end.
Definition values_of (columns : list column) (r : data_row) : row :=
  fun name => match find (fun c => String.eqb (fst c) name) columns with
              | Some c => value_in r c
              | None => None
              end.

(** The value of a column of the table, stored or generated. *)
Definition value_at (F : functions) (m : metadata) (r : data_row) (i : nat) : option value :=
  match nth_error (query_schema m) i, nth_error (generated_columns m) i with
  | Some c, Some None => value_in r c
  | Some _, Some (Some g) => evaluate F (values_of (schema m) r) (generated_expr g)
  | _, _ => None
  end.

(** The columns of a result with the given rows. *)
Definition requested (F : functions) (m : metadata) (rows : list data_row) (projection : list nat)
  : list (list (option value)) :=
  map (fun i => map (fun r => value_at F m r i) rows) projection.

(** The data point of a row that is stored for a field. *)
Definition point_of (m : metadata) (k : nat) (r : data_row) : point :=
  Point (r_time r)
    (match nth_error (schema m) k with Some (name, _) => r_field r name | None => 0%Z end)
    (map (r_tag r) (tag_names m)).

(** The generated columns of a query can be computed for a row: they are values of fields. *)
Definition computable (F : functions) (m : metadata) (projection : list nat) (r : data_row)
  : Prop :=
  forall i g, In i projection -> nth_error (generated_columns m) i = Some (Some g) ->
  exists v, value_at F m r i = Some (Value v).

(** They are values of fields or cannot be computed, e.g., because of an error in a function. *)
Definition attempted (F : functions) (m : metadata) (projection : list nat) (r : data_row) : Prop :=
  forall i g, In i projection -> nth_error (generated_columns m) i = Some (Some g) ->
  value_at F m r i = None \/ exists v, value_at F m r i = Some (Value v).

(** A query reads a column: one in the projection or one that is needed for a generated column. *)
Definition reads (m : metadata) (projection : list nat) (i : nat) : Prop :=
  stored_at (generated_columns m) i /\ (In i projection \/
    exists j g, In j projection /\ nth_error (generated_columns m) j = Some (Some g)
      /\ In i (source_columns g)).

(** A query reads one field, [name]. *)
Definition reads_one_field (m : metadata) (projection : list nat) (name : string) : Prop :=
  (exists i, reads m projection i /\ type_at (query_schema m) i Float32)
  /\ forall i, reads m projection i -> type_at (query_schema m) i Float32 ->
       nth_error (query_schema m) i = Some (name, Float32).

(** Tags cannot have the names of the columns of a data point. *)
Definition tags_named (m : metadata) : Prop :=
  forall name, In (name, Utf8View) (query_schema m) ->
  name <> "timestamp"%string /\ name <> "value"%string.

(** The files of the table contain the data points of the rows, in the same order for all fields,
    and in batches of segments for which [c36_rows_partial] applies. *)
Record files_contain {S : Type} (grid : S -> list point) (predicate : option (point -> bool))
  (limit : option nat) (size : nat) (m : metadata) (rows : list data_row)
  (streams : nat -> stream (list S)) : Prop := {
  streams_fine : forall k, fine (streams k);
  streams_full : forall k,
    full (match limit with Some l => Nat.min l size | None => size end) (batches_of (streams k));
  segments_selected : forall k b s, In b (batches_of (streams k)) -> In s b ->
    selected predicate (grid s) <> [];
  streams_points : forall k, In k (field_column_indices m) ->
    points_of grid predicate (streams k) = map (point_of m k) rows;
  streams_other : forall k, ~ In k (field_column_indices m) -> streams k = []
}.

(** Sets of indices are enumerated in some order. *)
Definition enumerates_indices (set_order : list nat -> list nat) : Prop :=
  forall l, Permutation (set_order l) l.

(** The columns of a query: those in the projection, or all. *)
Definition columns_of (m : metadata) (projection : option (list nat)) : list nat :=
  match projection with Some l => l | None => seq 0 (length (query_schema m)) end.
Definition selects (m : metadata) (l : list nat) : Prop :=
  NoDup l /\ forall i, In i l -> i < length (query_schema m).

(** No generated column is before the first field that is stored. *)
Definition stored_field_first (m : metadata) : Prop :=
  exists i, stored_at (generated_columns m) i /\ type_at (query_schema m) i Float32
    /\ forall j, j < i -> stored_at (generated_columns m) j /\ ~ type_at (query_schema m) j Float32.

(** The result of a query: [n] is the number of polls, the columns are those requested for the first
    rows, and for all rows when the end is reached, which it is after enough polls. *)
Definition answers (F : functions) (m : metadata) (rows : list data_row) (l : list nat)
  (result : nat -> outcome (list (list (list value)) * ended)) : Prop :=
  (forall n, exists bs e, result n = Ok (bs, e)
     /\ prefix_columns (map (map Some) (all_columns (length l) bs)) (requested F m rows l)
     /\ (e = Running \/ e = Done)
     /\ (e = Done -> map (map Some) (all_columns (length l) bs) = requested F m rows l))
  /\ exists enough, forall n, enough <= n -> exists bs, result n = Ok (bs, Done).

(** The result of a query that may fail: as above until the end is reached, which is an error if and
    only if a generated column cannot be computed for one of the rows. *)
Definition answers_or_fails (F : functions) (m : metadata) (rows : list data_row) (l : list nat)
  (result : nat -> outcome (list (list (list value)) * ended)) : Prop :=
  (forall n, exists bs e, result n = Ok (bs, e)
     /\ prefix_columns (map (map Some) (all_columns (length l) bs)) (requested F m rows l)
     /\ (e = Running \/ e = Done \/ e = Error 0)
     /\ (e = Done -> map (map Some) (all_columns (length l) bs) = requested F m rows l
                     /\ forall r, In r rows -> computable F m l r)
     /\ (e = Error 0 -> exists r i, In r rows /\ In i l /\ value_at F m r i = None))
  /\ exists enough, forall n, enough <= n -> exists bs e, result n = Ok (bs, e) /\ e <> Running.
