(** What it means to move and copy data. *)
From Coq Require Import ZArith Reals String List Sorting.Permutation.
From Verif Require Import Model.Base Model.Float Model.ErrorBound Model.Segments Model.Multivariate
  Model.Copies Spec.ErrorBoundSpec Spec.SegmentsSpec.
Import ListNotations.
Open Scope Z_scope.

(** The rows that other clients wrote to a table, in order. *)
Fixpoint written_by_others (p : place) (events : list event) : list record :=
  match events with
  | [] => []
  | Other_write q rows :: events =>
      (if place_eqb p q then rows else []) ++ written_by_others p events
  | Move_step _ :: events => written_by_others p events
  end.

(** No client writes to the source after it has been read and before it has been truncated. *)
Definition source_not_written (source target : place) (w : world) (events : list event) : Prop :=
  forall before rows after, events = before ++ Other_write source rows :: after ->
    match fst (run source target w before) with
    | Not_started | Returned _ => True
    | Rows_read _ | Rows_written => False
    end.

(** Where the rows are, if [source] and [target] had the rows [s] and [t], and other clients wrote
    [more_s] and [more_t] to them. *)
Definition all_in_source (s t more_s more_t source target : list record) : Prop :=
  source = s ++ more_s /\ target = t ++ more_t.
Definition all_in_target (s t more_s more_t source target : list record) : Prop :=
  exists early late, more_s = early ++ late /\ source = late
    /\ Permutation target (t ++ more_t ++ s ++ early).
Definition all_in_both (s t more_s more_t source target : list record) : Prop :=
  exists early late, more_s = early ++ late /\ source = s ++ more_s
    /\ Permutation target (t ++ more_t ++ s ++ early).

(** The rows of the first table can be in the second: the tables are of the same kind, the columns
    have the same types, and only columns without nulls are moved to columns that cannot have nulls. *)
Definition fits (s t : table_state) : Prop :=
  match t_kind s, t_kind t with
  | Series_table _, Series_table _ | Normal_table, Normal_table => True
  | _, _ => False
  end
  /\ Forall2 (fun a b => c_type a = c_type b /\ (c_nullable a = true -> c_nullable b = true))
       (t_schema s) (t_schema t).

(** Every value that is within the first bound is within the second. *)
Definition at_most_as_loose (eb eb' : error_bound) : Prop :=
  match eb, eb' with
  | Lossless, _ => True
  | Absolute e, Absolute e' | Relative e, Relative e' => (R32 e <= R32 e')%R
  | _, _ => False
  end.

(** The segments of a table restore the data points they were created from, which are given by
    [origin], within the error bound of their field. *)
Definition within_table_bounds (P : platform) (slack : R) (origin : record -> list (Z * f32))
  (bounds : list error_bound) (rows : list record) : Prop :=
  forall tags field s, In (Segment_row tags field s) rows ->
    exists eb out, nth_error bounds field = Some eb
      /\ grid P s = Ok (map fst (origin (Segment_row tags field s)), out)
      /\ Forall2 (within_bound slack eb) (map snd (origin (Segment_row tags field s))) out.
