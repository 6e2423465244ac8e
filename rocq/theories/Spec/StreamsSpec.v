(** What the operators of a query should return. *)
From Coq Require Import ZArith Bool String List.
From Verif Require Import Model.Base Model.Streams Model.DataSource.
Import ListNotations.
Open Scope nat_scope.
Open Scope list_scope.

(** The batches of a stream, ignoring when they are ready. *)
Definition batches_of {B} (s : stream B) : list B :=
  flat_map (fun p => match p with Batch b => [b] | _ => [] end) s.

(** The first error of a stream. *)
Fixpoint first_error {B} (s : stream B) : option nat :=
  match s with
  | [] => None
  | Failed e :: _ => Some e
  | _ :: s => first_error s
  end.

(** A stream without errors that does not end early. *)
Definition is_fine {B} (p : poll B) : bool :=
  match p with Pending | Batch _ => true | _ => false end.
Definition fine {B} (s : stream B) : Prop := forallb is_fine s = true.

(** A stream that does not end early but may fail. *)
Definition not_finished {B} (p : poll B) : bool :=
  match p with Finished => false | _ => true end.
Definition unfinished {B} (s : stream B) : Prop := forallb not_finished s = true.

(** The data points that satisfy the predicate. *)
Definition selected {P} (predicate : option (P -> bool)) (points : list P) : list P :=
  match predicate with Some p => filter p points | None => points end.

(** The data points of all segments in the batches of a stream that satisfy the predicate. *)
Definition points_of {S P} (grid : S -> list P) (predicate : option (P -> bool))
  (s : stream (list S)) : list P :=
  selected predicate (flat_map grid (concat (batches_of s))).

(** All batches but the last have at least [n] elements. *)
Fixpoint full {A} (n : nat) (batches : list (list A)) : Prop :=
  match batches with
  | [] | [_] => True
  | b :: batches => n <= length b /\ full n batches
  end.

(** The columns of a result with a row for each data point: [fields] are the data points of each
    field. *)
Definition same_points (a b : list point) : Prop :=
  map (fun p => (p_time p, p_tags p)) a = map (fun p => (p_time p, p_tags p)) b.

(** The columns of several batches put together. *)
Fixpoint append_columns {A} (columns : list (list A)) (more : list (list A)) : list (list A) :=
  match columns, more with
  | c :: columns, m :: more => (c ++ m) :: append_columns columns more
  | _, _ => []
  end.
Definition all_columns {A} (width : nat) (batches : list (list (list A))) : list (list A) :=
  fold_right append_columns (repeat [] width) batches.
Definition prefix_columns {A} (a b : list (list A)) : Prop :=
  Forall2 (fun x y => exists z, y = x ++ z) a b.

(** The result of joining the data points of the fields, column by column. *)
Fixpoint expected (order : list column_type) (tag_names : list string) (first : list point)
    (fields : list (list point)) : list (list cell) :=
  match order, fields with
  | [], _ => []
  | Timestamp :: order, _ =>
      map (fun p => Time_cell (p_time p)) first :: expected order tag_names first fields
  | Field :: order, points :: fields =>
      map (fun p => Value_cell (p_value p)) points :: expected order tag_names first fields
  | Field :: order, [] => [] :: expected order tag_names first []
  | Tag name :: order, _ =>
      map (fun p => Tag_cell (match position name tag_names with
                              | Some index => nth index (p_tags p) EmptyString
                              | None => EmptyString
                              end)) first
      :: expected order tag_names first fields
  end.

(** The number of elements of the shortest list. *)
Fixpoint shortest {A} (lists : list (list A)) : nat :=
  match lists with
  | [] => 0
  | [l] => length l
  | l :: lists => Nat.min (length l) (shortest lists)
  end.

(** A return order that the inputs provide: at least one column, known tags that are not called as
    the columns of a data point, and not more fields than inputs. *)
Definition fields_in (order : list column_type) : nat :=
  length (filter (fun c => match c with Field => true | _ => false end) order).
Definition order_fits (order : list column_type) (tag_names : list string) (inputs : nat) : Prop :=
  order <> [] /\ fields_in order <= inputs
  /\ forall name, In (Tag name) order ->
       In name tag_names /\ name <> "timestamp"%string /\ name <> "value"%string.

(** The data points of the segments in files. *)
Definition stored {S P} (grid : S -> list P) (files : list (file S)) : list P :=
  flat_map grid (flat_map segments_in files).

(** Segments that are lists of data points, sorted by their first tag and start time. *)
Definition starts_before (a b : list point) : bool :=
  match a, b with
  | p :: _, q :: _ =>
      match String.compare (hd EmptyString (p_tags p)) (hd EmptyString (p_tags q)) with
      | Lt => true
      | Eq => (p_time p <=? p_time q)%Z
      | Gt => false
      end
  | [], _ => true
  | _, [] => false
  end.
Fixpoint insert_segment (s : list point) (l : list (list point)) : list (list point) :=
  match l with
  | [] => [s]
  | t :: l => if starts_before s t then s :: t :: l else t :: insert_segment s l
  end.
Definition by_series (l : list (list point)) : list (list point) := fold_right insert_segment [] l.
