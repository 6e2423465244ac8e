(** What it means for a table to exist, and which definition it has. *)
From Coq Require Import String List Arith.
From Verif Require Import Model.Base Model.ErrorBound Model.Filters Model.Table Model.Catalog
  Spec.TableSpec.
Import ListNotations.
Open Scope nat_scope.
Open Scope list_scope.

Section Catalog.
Variable ser : serializer.
Variable set_order : list string -> list string.
Variable delete_order : list file -> list file.

(** A time series table can be used, and has the definition [n] when it is loaded. *)
Definition existing (s : server) (name : string) (n : metadata) : Prop :=
  In name (registered s)
  /\ exists columns, In (name, columns) (table_rows (series_rows (on_disk s)))
       /\ load_row ser set_order (series_rows (on_disk s)) (name, columns) = Ok n.

(** There is no table with the name. *)
Definition absent (s : server) (name : string) : Prop := ~ In name (registered s).

(** A table with the name can be created, with any definition, and then exists with it. *)
Definition creatable (s : server) (name : string) : Prop :=
  forall m, valid_table m -> dotted name = false -> table_name m = name ->
    exists s' n, execute ser delete_order (Create_series m) s = (s', Ok tt)
      /\ existing s' name n /\ same_definition m n.

(** Every attempt to create a table with the name or to drop it is rejected. *)
Definition blocked (s : server) (name : string) : Prop :=
  (forall m, valid_table m -> table_name m = name ->
     snd (execute ser delete_order (Create_series m) s) = Err)
  /\ snd (execute ser delete_order (Create_normal name) s) = Err
  /\ snd (execute ser delete_order (Drop name) s) = Err.
End Catalog.

(** The definition of which only the first [i] columns have been saved: the error bounds of the
    other columns are lost, and those that are generated are stored. *)
Definition interrupted (i : nat) (m n : metadata) : Prop :=
  table_name n = table_name m /\ query_schema n = query_schema m
  /\ exists bounds,
       describes (query_schema m) bounds (generated_columns m) m
       /\ describes (query_schema m)
            (firstn i bounds ++ repeat Lossless (length bounds - i)) (generated_columns n) n
       /\ Forall2 same_generated
            (firstn i (generated_columns m) ++ repeat None (length (generated_columns m) - i))
            (generated_columns n).

(** The number of fields in columns. *)
Definition fields (columns : list column) : nat :=
  length (filter (fun c => arrow_type_eqb (snd c) Float32) columns).

(** The name an operation is about. *)
Definition about (o : operation) : string :=
  match o with Create_series m => table_name m | Create_normal name | Drop name => name end.

(** Definitions in a history are valid, and names have no dots. *)
Definition valid_operation (o : operation) : Prop :=
  match o with
  | Create_series m => valid_table m /\ dotted (table_name m) = false
  | Create_normal name => dotted name = false
  | Drop _ => True
  end.
Definition valid_event (e : event) : Prop :=
  match e with Execute o | Crash o _ => valid_operation o | Write _ _ => True end.

(** The table is not dropped, whether or not this is interrupted. *)
Definition keeps (name : string) (e : event) : Prop :=
  match e with Execute o | Crash o _ => o <> Drop name | Write _ _ => True end.
