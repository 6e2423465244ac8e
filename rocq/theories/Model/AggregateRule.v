(** Model of the rule that computes aggregates from segments,
    crates/modelardb_storage/src/optimizer/model_simple_aggregates.rs l.166-330. The accumulators it
    uses are in Model/Aggregates.v. *)
From Coq Require Import ZArith Bool String Ascii List.
From Verif Require Import Model.Base Model.Float Model.Segments Model.Table.
Import ListNotations.
Open Scope nat_scope.
Open Scope list_scope.

(** Apache DataFusion's aggregate functions and modes of execution. *)
Inductive aggregate_function := Count | Min | Max | Sum | Avg | Other_function (id : nat).
Inductive aggregate_mode := Partial | Final | Single.

(** Apache DataFusion's [AggregateFunctionExpr]. The argument is a function of the only column that
    is read, and [None] is NULL. Expressions with other columns are not needed as the rule does not
    apply to them, and the casts of fields to f64 for SUM and AVG are part of the functions. *)
Record aggregate_expr := AggregateExpr {
  expr_name : string;
  expr_function : aggregate_function;
  expr_distinct : bool;
  expr_argument : f32 -> option f32
}.

(** The aggregates of an [AggregateExec]: those of Apache DataFusion and [MODEL_AGGREGATE_COUNT]
    etc., l.70-164. *)
Inductive model_function := Model_count | Model_min | Model_max | Model_sum | Model_avg.
Inductive aggregate := Expr (e : aggregate_expr) | Model (f : model_function).

(** Execution plans, as far as the rule reads them: a [Data_source] is a [DataSourceExec] that reads
    files of type Apache Parquet with or without a filter. *)
Inductive exec :=
| Aggregate_exec (mode : aggregate_mode) (input_schema : list column) (group_by : list nat)
    (filters : list bool) (aggregates : list aggregate) (input : exec)
| Repartition_exec (input : exec)
| Sorted_join_exec (schema : list column) (grids : list exec)
| Grid_exec (input : exec)
| Data_source (files : list segment) (filtered : bool)
| Other_exec (id : nat) (children : list exec).

(** [ExecutionPlan::children]. *)
Definition children (p : exec) : list exec :=
  match p with
  | Aggregate_exec _ _ _ _ _ input | Repartition_exec input | Grid_exec input => [input]
  | Sorted_join_exec _ inputs | Other_exec _ inputs => inputs
  | Data_source _ _ => []
  end.
(** [ExecutionPlan::with_new_children], with the same number of children. *)
Definition with_new_children (p : exec) (inputs : list exec) : exec :=
  match p, inputs with
  | Aggregate_exec mode schema group filters aggregates _, [input] =>
      Aggregate_exec mode schema group filters aggregates input
  | Repartition_exec _, [input] => Repartition_exec input
  | Sorted_join_exec schema _, inputs => Sorted_join_exec schema inputs
  | Grid_exec _, [input] => Grid_exec input
  | Other_exec id _, inputs => Other_exec id inputs
  | p, _ => p
  end.

(** The part of a name before the first parenthesis, l.308-309. *)
Fixpoint before_parenthesis (name : string) : string :=
  match name with
  | EmptyString => EmptyString
  | String c rest => if Ascii.eqb c "("%char then EmptyString else String c (before_parenthesis rest)
  end.

(** [AggregateFunctionExpr::name]; that of the aggregates is their alias. *)
Definition aggregate_name (a : aggregate) : string :=
  match a with
  | Expr e => expr_name e
  | Model Model_count => "model_count"
  | Model Model_min => "model_min"
  | Model Model_max => "model_max"
  | Model Model_sum => "model_sum"
  | Model Model_avg => "model_avg"
  end%string.

(** l.311-325. *)
Definition rewrite_aggregate (a : aggregate) : outcome aggregate :=
  let name := before_parenthesis (aggregate_name a) in
  if String.eqb name "count" then Ok (Model Model_count)
  else if String.eqb name "min" then Ok (Model Model_min)
  else if String.eqb name "max" then Ok (Model Model_max)
  else if String.eqb name "sum" then Ok (Model Model_sum)
  else if String.eqb name "avg" then Ok (Model Model_avg)
  else Err.
(** [try_rewrite_aggregate_exprs], l.299-330. *)
Fixpoint rewrite_aggregates (l : list aggregate) : outcome (list aggregate) :=
  match l with
  | [] => Ok []
  | a :: l =>
      let? a := rewrite_aggregate a in
      let? l := rewrite_aggregates l in
      Ok (a :: l)
  end.

(** [can_rewrite_aggregate], l.277-294. *)
Definition can_rewrite (p : exec) : bool :=
  match p with Data_source _ filtered => negb filtered | _ => false end.

(** [try_new_aggregate_exec], l.247-273. A join without inputs and a grid without input would panic;
    the latter is not possible. *)
Definition try_new_aggregate_exec (mode : aggregate_mode) (input_schema : list column)
  (group_by : list nat) (filters : list bool) (aggregates : list aggregate) (grids : list exec)
  : outcome exec :=
  match grids with
  | [] => Panic
  | [g] =>
      match children g with
      | [] => Panic
      | source :: _ =>
          if can_rewrite source then
            let? aggregates := rewrite_aggregates aggregates in
            Ok (Aggregate_exec mode input_schema group_by filters aggregates source)
          else Err
      end
  | _ => Err
  end.

(** l.205-226: the child of a plan if it is an aggregate that can be computed from segments. *)
Definition rewritten_child (p : exec) : outcome exec :=
  match p with
  | Aggregate_exec mode [(_, Float32)] [] filters aggregates input =>
      if forallb negb filters then
        let input := match input with Repartition_exec input => input | _ => input end in
        match input with
        | Sorted_join_exec _ grids =>
            try_new_aggregate_exec mode (match p with Aggregate_exec _ s _ _ _ _ => s | _ => [] end)
              [] filters aggregates grids
        | _ => Err
        end
      else Err
  | _ => Err
  end.
(** [rewrite_aggregates_to_use_segments], l.196-242. *)
Definition rewrite_node (p : exec) : outcome exec :=
  match children p with
  | [child] =>
      match rewritten_child child with
      | Ok input => Ok (with_new_children p [input])
      | Err => Ok p
      | Panic => Panic
      end
  | _ => Ok p
  end.

(** Apache DataFusion's [TreeNode::transform_down]: a node and then its children are rewritten.
    [fuel] is at least the number of levels of the plan. *)
Fixpoint transform_down (fuel : nat) (p : exec) : outcome exec :=
  match fuel with
  | O => Ok p
  | S fuel =>
      let? p := rewrite_node p in
      let? inputs :=
        (fix all (l : list exec) : outcome (list exec) :=
           match l with
           | [] => Ok []
           | c :: l => let? c := transform_down fuel c in let? l := all l in Ok (c :: l)
           end) (children p) in
      Ok (with_new_children p inputs)
  end.
Fixpoint levels (p : exec) : nat :=
  S (match p with
     | Aggregate_exec _ _ _ _ _ input | Repartition_exec input | Grid_exec input => levels input
     | Sorted_join_exec _ inputs | Other_exec _ inputs =>
         (fix all (l : list exec) : nat :=
            match l with [] => 0 | c :: l => Nat.max (levels c) (all l) end) inputs
     | Data_source _ _ => 0
     end).
(** [ModelSimpleAggregates::optimize], l.178-186. *)
Definition optimize (p : exec) : outcome exec := transform_down (levels p) p.
