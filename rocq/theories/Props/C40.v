(** C40 - Aggregates are rewritten only when equivalent. *)
From Coq Require Import ZArith Reals Bool String List.
From Verif Require Import Model.Base Model.Float Model.Segments Model.Aggregates Model.Table
  Model.AggregateRule Spec.ErrorBoundSpec Spec.PlatformSpec Spec.SegmentsSpec Spec.AggregateSpec
  Spec.AggregateRuleSpec Proofs.MacaqueVLossyProofs Proofs.AggregateRuleProofs
  Proofs.AggregateRuleExample.
Import ListNotations.
Open Scope nat_scope.
Open Scope list_scope.

(** For any plan: everything the optimized plan returns, the plan returns too.  The results of the
    aggregates are those stated by [correct] for the rows of the table, and what operators the rule
    does not depend on return is arbitrary.  Missing: aggregates of expressions, aggregates that are
    executed in one step, empty tables (all false, see below), and values for which C14 is missing
    or false. *)
Theorem c40_rewrite_partial : forall (R : Type) P
    (other : exec -> list (outcome (result R)) -> outcome (result R) -> Prop) p p' r,
  good_log2 P -> ties_first P -> consistent p -> safe_aggregates (suitable P) p ->
  optimize p = Ok p' -> returns P correct other p' r -> returns P correct other p r.
Proof. exact optimize_refines. Qed.
Print Assumptions c40_rewrite_partial.

(** An aggregate that is rewritten returns a result. *)
Theorem c40_rewritten_partial : forall (R : Type) P, good_log2 P -> ties_first P ->
  forall (other : exec -> list (outcome (result R)) -> outcome (result R) -> Prop) p q,
  consistent p -> safe_aggregates (suitable P) p -> rewritten_child p = Ok q ->
  exists states, returns P correct other q (Ok (States states))
    /\ forall r, returns P correct other q r -> returns P correct other p r.
Proof. exact rewritten_suitable. Qed.
Print Assumptions c40_rewritten_partial.

(** The same for tables with linear functions without residuals: the results of the aggregates are
    those stated by [correct] up to the rounding of the values of the linear functions, at most [e]
    per value, see [correct_within].  Missing: linear functions with residuals and as above. *)
Theorem c40_rewrite_lines_partial : forall (R : Type) P size latest e
    (other : exec -> list (outcome (result R)) -> outcome (result R) -> Prop) p p' r,
  good_log2 P -> ties_first P ->
  (latest <= 2 ^ 52)%Z -> (size <= 2 ^ 96)%R -> (0 <= e)%R ->
  consistent p -> safe_aggregates (suitable_within P size latest e) p ->
  optimize p = Ok p' ->
  returns P (correct_within e) other p' r -> returns P (correct_within e) other p r.
Proof. exact optimize_refines_within. Qed.
Print Assumptions c40_rewrite_lines_partial.
Theorem c40_rewritten_lines_partial : forall (R : Type) P size latest e,
  good_log2 P -> ties_first P ->
  (latest <= 2 ^ 52)%Z -> (size <= 2 ^ 96)%R -> (0 <= e)%R ->
  forall (other : exec -> list (outcome (result R)) -> outcome (result R) -> Prop) p q,
  consistent p -> safe_aggregates (suitable_within P size latest e) p -> rewritten_child p = Ok q ->
  exists states, returns P (correct_within e) other q (Ok (States states))
    /\ forall r, returns P (correct_within e) other q r -> returns P (correct_within e) other p r.
Proof. exact rewritten_within. Qed.
Print Assumptions c40_rewritten_lines_partial.

(** The rule does not panic. *)
Theorem c40_no_panic : forall p, consistent p -> exists p', optimize p = Ok p'.
Proof. exact optimize_total. Qed.
Print Assumptions c40_no_panic.

(** Only the name of an aggregate is checked: [COUNT(CASE WHEN f > 50 THEN f END)] counts all
    values. *)
Theorem c40_count_refuted : exists e files r, expr_function e = Count /\ expr_distinct e = false
  /\ Forall (created exact_platform) files
  /\ optimize (on_field Partial [Expr e] files) = Ok (on_segments Partial [Model_count] files)
  /\ returns exact_platform correct nothing (on_segments Partial [Model_count] files) r
  /\ ~ returns exact_platform correct nothing (on_field Partial [Expr e] files) r.
Proof. exact expression_ignored. Qed.
Print Assumptions c40_count_refuted.

(** [SUM(f * 2)] is computed as [SUM(f)]. *)
Theorem c40_sum_refuted : exists e files r, expr_function e = Sum /\ expr_distinct e = false
  /\ Forall (created exact_platform) files
  /\ optimize (on_field Partial [Expr e] files) = Ok (on_segments Partial [Model_sum] files)
  /\ returns exact_platform correct nothing (on_segments Partial [Model_sum] files) r
  /\ ~ returns exact_platform correct nothing (on_field Partial [Expr e] files) r.
Proof. exact sum_not_doubled. Qed.
Print Assumptions c40_sum_refuted.

(** [MIN(f)] of an empty table is [f32::MAX] and not NULL. *)
Theorem c40_empty_refuted : exists e r, plain e /\ expr_function e = Min
  /\ optimize (on_field Partial [Expr e] []) = Ok (on_segments Partial [Model_min] [])
  /\ returns exact_platform correct nothing (on_segments Partial [Model_min] []) r
  /\ ~ returns exact_platform correct nothing (on_field Partial [Expr e] []) r.
Proof. exact empty_minimum. Qed.
Print Assumptions c40_empty_refuted.

(** The mode of an aggregate is not checked: one that is executed in one step panics. *)
Theorem c40_single_refuted : exists e, plain e
  /\ forall files,
     optimize (on_field Single [Expr e] files) = Ok (on_segments Single [Model_count] files)
     /\ forall P, returns P correct nothing (on_segments Single [Model_count] files) Panic.
Proof. exact single_step. Qed.
Print Assumptions c40_single_refuted.

(** [SELECT COUNT( * ), SUM(f), MAX(f)] with the segment of C14. *)
Example c40_example : exists s,
  consistent (on_field Partial (map Expr three_aggregates) [s])
  /\ safe_aggregates (suitable exact_platform) (on_field Partial (map Expr three_aggregates) [s])
  /\ optimize (on_field Partial (map Expr three_aggregates) [s])
     = Ok (on_segments Partial [Model_count; Model_sum; Model_max] [s]).
Proof. exact three_rewritten. Qed.

(** And with the linear function of C14. *)
Example c40_lines_example : exists s, sg_model_type_id s = swing_id
  /\ consistent (on_field Partial (map Expr three_aggregates) [s])
  /\ safe_aggregates (suitable_within exact_platform 64 1700000000009000 (/ 4)%R)
       (on_field Partial (map Expr three_aggregates) [s])
  /\ optimize (on_field Partial (map Expr three_aggregates) [s])
     = Ok (on_segments Partial [Model_count; Model_sum; Model_max] [s]).
Proof. exact three_rewritten_line. Qed.
