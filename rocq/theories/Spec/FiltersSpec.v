(** The meaning of filters, as in SQL. *)
From Coq Require Import ZArith Bool String List.
From Verif Require Import Model.Filters.
Import ListNotations.
Open Scope Z_scope.
Open Scope list_scope.

(** A row: the value of each column it has. *)
Definition row := string -> option value.

(** How operators and functions other than comparisons of timestamps, AND and OR are computed; an
    error is [None]. *)
Record functions := {
  apply : nat -> list value -> option value;
  apply_operator : operator -> value -> value -> option value
}.

(** AND and OR with three values. *)
Definition and3 (a b : value) : option value :=
  match a, b with
  | Boolean false, (Boolean _ | Null) | (Boolean _ | Null), Boolean false => Some (Boolean false)
  | Boolean true, Boolean true => Some (Boolean true)
  | Boolean true, Null | Null, Boolean true | Null, Null => Some Null
  | _, _ => None
  end.
Definition or3 (a b : value) : option value :=
  match a, b with
  | Boolean true, (Boolean _ | Null) | (Boolean _ | Null), Boolean true => Some (Boolean true)
  | Boolean false, Boolean false => Some (Boolean false)
  | Boolean false, Null | Null, Boolean false | Null, Null => Some Null
  | _, _ => None
  end.

Definition compare_times (op : operator) (a b : Z) : option bool :=
  match op with
  | Eq => Some (a =? b)
  | NotEq => Some (negb (a =? b))
  | Lt => Some (a <? b)
  | LtEq => Some (a <=? b)
  | Gt => Some (b <? a)
  | GtEq => Some (b <=? a)
  | _ => None
  end.

Definition is_comparison (op : operator) : bool :=
  match op with Eq | NotEq | Lt | LtEq | Gt | GtEq => true | _ => false end.

(** A binary operation: comparing with NULL gives NULL and comparing a timestamp with a value of
    another type is an error. *)
Definition operate (F : functions) (op : operator) (a b : value) : option value :=
  match op, a, b with
  | And, _, _ => and3 a b
  | Or, _, _ => or3 a b
  | _, Time s, Time t =>
      match compare_times op s t with
      | Some r => Some (Boolean r)
      | None => apply_operator F op a b
      end
  | _, Time _, Null | _, Null, Time _ =>
      if is_comparison op then Some Null else apply_operator F op a b
  | _, Time _, _ | _, _, Time _ => if is_comparison op then None else apply_operator F op a b
  | _, _, _ => apply_operator F op a b
  end.

Section Evaluate.
  Variable F : functions.
  Variable values : row.

  (** The value of an expression for a row; [None] if it uses a column the row does not have. *)
  Fixpoint evaluate (e : expr) : option value :=
    match e with
    | Column name => values name
    | Literal v => Some v
    | Binary l op r =>
        match evaluate l, evaluate r with
        | Some a, Some b => operate F op a b
        | _, _ => None
        end
    | Apply id arguments =>
        match (fix all (l : list expr) : option (list value) :=
                 match l with
                 | [] => Some []
                 | e :: l => match evaluate e, all l with
                             | Some v, Some vs => Some (v :: vs)
                             | _, _ => None
                             end
                 end) arguments with
        | Some vs => apply F id vs
        | None => None
        end
    end.
End Evaluate.

(** A row satisfies a filter if its value is true; no filter is always satisfied. *)
Definition satisfies (F : functions) (r : row) (filter : expr) : Prop :=
  evaluate F r filter = Some (Boolean true).
Definition passes (F : functions) (r : row) (filter : option expr) : Prop :=
  match filter with Some e => satisfies F r e | None => True end.

(** Expressions that have the same value for all rows, e.g., literals and casts of literals. *)
Fixpoint constant (e : expr) : bool :=
  match e with
  | Column _ => false
  | Literal _ => true
  | Binary l _ r => constant l && constant r
  | Apply _ arguments => forallb constant arguments
  end.

(** Filters on the timestamp column: it is compared with something by =, <, <=, > or >=. *)
Definition ordering (op : operator) : bool :=
  match op with Eq | Lt | LtEq | Gt | GtEq => true | _ => false end.
Definition is_timestamp_column (s : schema) (e : expr) : bool :=
  match e with
  | Column name => match field_with_name s name with Some Timestamp_type => true | _ => false end
  | _ => false
  end.
Definition is_column (e : expr) : bool := match e with Column _ => true | _ => false end.
Definition time_filter (s : schema) (filter : expr) : bool :=
  match filter with
  | Binary l op r =>
      ordering op && (is_timestamp_column s l || negb (is_column l) && is_timestamp_column s r)
  | _ => false
  end.

(** The time filters for which the claim is proved: the timestamp is compared with a constant, and
    a constant to the left is not compared by [=]. *)
Definition supported (s : schema) (filter : expr) : bool :=
  match filter with
  | Binary l op r =>
      is_timestamp_column s l && constant r
      || constant l && is_timestamp_column s r && match op with Eq => false | _ => true end
  | _ => false
  end.

(** A row of the table for a data point at [time], the row of a segment, and the row [GridExec]
    reconstructs for the data point. *)
Definition table_row (s : schema) (time : Z) (r : row) : Prop :=
  forall name, field_with_name s name = Some Timestamp_type -> r name = Some (Time time).
Definition segment_row (start_time end_time : Z) (r : row) : Prop :=
  r "start_time"%string = Some (Time start_time) /\ r "end_time"%string = Some (Time end_time).
Definition grid_row (time : Z) (r : row) : Prop := r "timestamp"%string = Some (Time time).

(** The columns that are operands of a filter. *)
Definition operand_columns (filter : expr) : list string :=
  match filter with
  | Binary (Column name) _ _ => [name]
  | Binary _ _ (Column name) => [name]
  | _ => []
  end.
