(** What plans return. *)
From Coq Require Import ZArith Reals Bool String List.
From Verif Require Import Model.Base Model.Float Model.Segments Model.Aggregates Model.Table
  Model.AggregateRule Spec.ErrorBoundSpec Spec.PlatformSpec Spec.SegmentsSpec Spec.AggregateSpec
  Spec.LineSpec.
Import ListNotations.
Open Scope nat_scope.
Open Scope list_scope.

(** The state of an aggregate after reading rows. NULL is [None]. *)
Inductive state :=
| Counted (n : Z)
| Extreme (v : option f32)
| Summed (s : option f64)
| Averaged (n : Z) (s : option f64)
| Other_state (id : nat).

(** How much the sum of [values] may grow by rounding two f32 operations per value. *)
Definition growth_of (values : list f32) : R := ((1 + unit32) ^ (2 * length values))%R.
(** A sum is close to the exact sum. *)
Definition close (values : list f32) (s : f64) : Prop :=
  finite64 s /\ (Rabs (R64 s - total values) <= (growth_of values - 1) * magnitude values)%R.

(** The values of the argument of an aggregate that are not NULL. *)
Fixpoint not_null (l : list (option f32)) : list f32 :=
  match l with
  | [] => []
  | Some v :: l => v :: not_null l
  | None :: l => not_null l
  end.

(** The state of an aggregate for the values of its argument. *)
Definition correct (f : aggregate_function) (distinct : bool) (values : list f32) (s : state)
  : Prop :=
  match f, distinct, s with
  | Count, false, Counted n => n = Z.of_nat (length values)
  | Min, _, Extreme None | Max, _, Extreme None => values = []
  | Min, _, Extreme (Some v) => least v values
  | Max, _, Extreme (Some v) => greatest v values
  | Sum, false, Summed None => values = []
  | Sum, false, Summed (Some s) => values <> [] /\ close values s
  | Avg, false, Averaged n None => values = [] /\ n = 0%Z
  | Avg, false, Averaged n (Some s) =>
      values <> [] /\ close values s /\ n = Z.of_nat (length values)
  | Count, true, Other_state _ | Sum, true, Other_state _ | Avg, true, Other_state _
  | Other_function _, _, Other_state _ => True
  | _, _, _ => False
  end.

(** The same if the values of linear functions are rounded by up to [e], Spec/LineSpec.v. *)
Definition lines_of (e : R) (values : list f32) : R := (INR (length values) * (2 * e))%R.
Definition close_within (e : R) (values : list f32) (s : f64) : Prop :=
  finite64 s
  /\ (Rabs (R64 s - total values)
      <= (growth_of values - 1) * (magnitude values + lines_of e values) + lines_of e values)%R.
Definition correct_within (e : R) (f : aggregate_function) (distinct : bool) (values : list f32)
  (s : state) : Prop :=
  match f, distinct, s with
  | Count, false, Counted n => n = Z.of_nat (length values)
  | Min, _, Extreme None | Max, _, Extreme None => values = []
  | Min, _, Extreme (Some v) => near_least e v values
  | Max, _, Extreme (Some v) => near_greatest e v values
  | Sum, false, Summed None => values = []
  | Sum, false, Summed (Some s) => values <> [] /\ close_within e values s
  | Avg, false, Averaged n None => values = [] /\ n = 0%Z
  | Avg, false, Averaged n (Some s) =>
      values <> [] /\ close_within e values s /\ n = Z.of_nat (length values)
  | Count, true, Other_state _ | Sum, true, Other_state _ | Avg, true, Other_state _
  | Other_function _, _, Other_state _ => True
  | _, _, _ => False
  end.

(** The state computed from segments, Model/Aggregates.v. *)
Definition model_state (P : platform) (f : model_function) (segments : list segment)
  : outcome state :=
  match f with
  | Model_count => let? n := model_count 0 segments in Ok (Counted n)
  | Model_min => Ok (Extreme (Some (model_min P segments)))
  | Model_max => Ok (Extreme (Some (model_max P segments)))
  | Model_sum => let? s := model_sum P f64_zero segments in Ok (Summed (Some s))
  | Model_avg => let? (n, s) := model_avg P 0 f64_zero segments in Ok (Averaged n (Some s))
  end.

(** What a plan returns; [R] are the results the rule does not depend on. *)
Inductive result (R : Type) :=
| Segments (l : list segment)
| Column_of (values : list f32)
| States (l : list state)
| Rows (r : R).
Arguments Segments {R}.
Arguments Column_of {R}.
Arguments States {R}.
Arguments Rows {R}.

(** The operator of a plan without its inputs. *)
Definition operator_of (p : exec) : exec := with_new_children
  (match p with
   | Aggregate_exec mode schema group filters aggregates _ =>
       Aggregate_exec mode schema group filters aggregates (Data_source [] true)
   | Repartition_exec _ => Repartition_exec (Data_source [] true)
   | Grid_exec _ => Grid_exec (Data_source [] true)
   | p => p
   end) [].

Definition is_model (a : aggregate) : bool := match a with Model _ => true | Expr _ => false end.

(** The operators and results of their inputs for which [returns] below states what is returned. *)
Definition described {R} (p : exec) (rs : list (outcome (result R))) : bool :=
  match p, rs with
  | Data_source _ false, _ => true
  | Repartition_exec _, _ => true
  | Grid_exec _, [Ok (Segments _)] => true
  | Sorted_join_exec [(_, Float32)] _, [Ok (Column_of _)] => true
  | Aggregate_exec mode _ group filters aggregates _, rs =>
      existsb is_model aggregates
      || match mode, group, rs with
         | Partial, [], [Ok (Column_of _)] => forallb negb filters
         | _, _, _ => false
         end
  | _, _ => false
  end.

Definition states_of (l : list (outcome state)) : outcome (list state) :=
  fold_right (fun s l => let? s := s in let? l := l in Ok (s :: l)) (Ok []) l.

Section Returns.
  Context {R : Type}.
  Variable P : platform.
  (** Whether a state of an aggregate of values is right: [correct] or [correct_within]. *)
  Variable right : aggregate_function -> bool -> list f32 -> state -> Prop.
  (** What other operators return for the results of their inputs. *)
  Variable other : exec -> list (outcome (result R)) -> outcome (result R) -> Prop.

  Inductive returns : exec -> outcome (result R) -> Prop :=
  | returns_source : forall files, returns (Data_source files false) (Ok (Segments files))
  | returns_grid : forall input segments values, returns input (Ok (Segments segments)) ->
      decompressed P segments values -> returns (Grid_exec input) (Ok (Column_of values))
  | returns_join : forall name g values, returns g (Ok (Column_of values)) ->
      returns (Sorted_join_exec [(name, Float32)] [g]) (Ok (Column_of values))
  | returns_repartition : forall input r, returns input r -> returns (Repartition_exec input) r
  (** Aggregates of the values of a column. *)
  | returns_aggregates : forall schema filters exprs input values states,
      returns input (Ok (Column_of values)) -> forallb negb filters = true ->
      Forall2 (fun e s => right (expr_function e) (expr_distinct e)
                            (not_null (map (expr_argument e) values)) s) exprs states ->
      returns (Aggregate_exec Partial schema [] filters (map Expr exprs) input)
        (Ok (States states))
  (** Aggregates of segments. In other modes [evaluate] is called, which panics, l.376-379. *)
  | returns_model : forall schema functions filters input segments,
      returns input (Ok (Segments segments)) ->
      returns (Aggregate_exec Partial schema [] filters (map Model functions) input)
        (let? states := states_of (map (fun f => model_state P f segments) functions) in
         Ok (States states))
  | returns_model_single : forall mode schema functions filters input segments,
      mode <> Partial -> functions <> [] -> returns input (Ok (Segments segments)) ->
      returns (Aggregate_exec mode schema [] filters (map Model functions) input) Panic
  | returns_other : forall p rs r, Forall2 returns (children p) rs ->
      described p rs = false -> other (operator_of p) rs r -> returns p r.
End Returns.

(** A plan is part of another plan. *)
Inductive part_of_plan (q : exec) : exec -> Prop :=
| part_self : part_of_plan q q
| part_child : forall p c, In c (children p) -> part_of_plan q c -> part_of_plan q p.

(** Plans as created by Apache DataFusion and ModelarDB: the inputs of a join are grids, and the
    input schema of an aggregate that reads a join is the schema of the join. *)
Definition join_below (input : exec) : option (list column * list exec) :=
  match input with
  | Sorted_join_exec s grids | Repartition_exec (Sorted_join_exec s grids) => Some (s, grids)
  | _ => None
  end.
Definition consistent (p : exec) : Prop :=
  forall q, part_of_plan q p ->
    (forall s grids g, q = Sorted_join_exec s grids -> In g grids ->
       exists input, g = Grid_exec input)
    /\ (forall s grids, q = Sorted_join_exec s grids -> grids <> [])
    /\ (forall mode s group filters aggregates input schema grids,
          q = Aggregate_exec mode s group filters aggregates input ->
          join_below input = Some (schema, grids) -> s = schema).

(** An aggregate of the values of the field, named as its function. *)
Definition function_name (f : aggregate_function) : string :=
  match f with
  | Count => "count" | Min => "min" | Max => "max" | Sum => "sum" | Avg => "avg"
  | Other_function _ => ""
  end%string.
Definition plain (e : aggregate_expr) : Prop :=
  (exists rest, expr_name e = (function_name (expr_function e) ++ "(" ++ rest)%string)
  /\ (forall id, expr_function e <> Other_function id)
  /\ expr_distinct e = false
  /\ match expr_function e with
     | Count => forall v, expr_argument e v <> None
     | _ => forall v, expr_argument e v = Some v
     end.

(** The segments for which C14 states that the function is computed correctly. *)
Definition suitable (P : platform) (files : list segment) (f : aggregate_function) : Prop :=
  files <> [] /\ Forall (created P) files
  /\ forall values, decompressed P files values ->
     (Z.of_nat (length values) < 2 ^ 63)%Z
     /\ match f with
        | Count => True
        | Min | Max => Forall (fun s => sg_model_type_id s <> swing_id) files
                       /\ Forall finite32 values
        | Sum | Avg => Forall (fun s => sg_model_type_id s <> swing_id) files
                       /\ Forall (short P) files /\ Forall finite32 values
                       /\ (growth_of values * magnitude values <= IZR (2 ^ 127))%R
        | Other_function _ => False
        end.

(** The same with linear functions without residuals, whose values are rounded by up to [e]. *)
Definition suitable_within (P : platform) (size : R) (latest : Z) (e : R) (files : list segment)
  (f : aggregate_function) : Prop :=
  files <> [] /\ Forall (created P) files
  /\ forall values, decompressed P files values ->
     (Z.of_nat (length values) < 2 ^ 63)%Z
     /\ match f with
        | Count => True
        | Min | Max => Forall (lines_within size latest e) files /\ Forall finite32 values
        | Sum | Avg => Forall (lines_within size latest e) files
                       /\ Forall (short P) files /\ Forall finite32 values
                       /\ (growth_of values * (magnitude values + lines_of e values)
                           <= IZR (2 ^ 127))%R
        | Other_function _ => False
        end.

(** The aggregates of a plan that the rule rewrites are plain, not executed in one step, and for
    segments that suit them, i.e., [suitable] or [suitable_within]. *)
Definition safe_aggregates (suits : list segment -> aggregate_function -> Prop) (p : exec) : Prop :=
  forall mode s filters aggregates input schema files,
  let q := Aggregate_exec mode s [] filters aggregates input in
  part_of_plan q p -> is_ok (rewritten_child q) = true ->
  join_below input = Some (schema, [Grid_exec (Data_source files false)]) ->
  mode = Partial /\ exists exprs, aggregates = map Expr exprs /\ exprs <> []
    /\ forall e, In e exprs -> plain e /\ suits files (expr_function e).
