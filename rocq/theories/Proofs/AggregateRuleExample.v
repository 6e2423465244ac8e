(** Aggregates that are and are not rewritten correctly. *)
From Coq Require Import ZArith Reals Bool String Ascii List Lia Lra.
From Flocq Require Import Core IEEE754.Binary.
From Verif Require Import Model.Base Model.Float Model.ErrorBound Model.Segments Model.Aggregates
  Model.Table Model.AggregateRule Spec.ErrorBoundSpec Spec.PlatformSpec Spec.SegmentsSpec
  Spec.AggregateSpec Spec.AggregateRuleSpec Proofs.FloatProofs Proofs.MacaqueVProofs
  Proofs.MacaqueVLossyProofs Proofs.AggregateProofs
  Proofs.ErrorBoundProofs Proofs.AggregateSumProofs Proofs.AggregateWitnesses
  Spec.LineSpec Proofs.LineSegmentProofs Proofs.LineWitnesses Proofs.AggregateRuleProofs.
Import ListNotations.
Open Scope nat_scope.
Open Scope list_scope.

Definition on_field (mode : aggregate_mode) (aggregates : list aggregate) (files : list segment)
  : exec :=
  Repartition_exec (Aggregate_exec mode [("f"%string, Float32)] [] (map (fun _ => false) aggregates)
    aggregates (Repartition_exec
      (Sorted_join_exec [("f"%string, Float32)] [Grid_exec (Data_source files false)]))).
Definition on_segments (mode : aggregate_mode) (aggregates : list model_function)
  (files : list segment) : exec :=
  Repartition_exec (Aggregate_exec mode [("f"%string, Float32)] []
    (map (fun _ => false) aggregates) (map Model aggregates) (Data_source files false)).

Lemma exact_ties : ties_first exact_platform.
Proof. split; intros; reflexivity. Qed.

(** Nothing else is executed. *)
Definition nothing (p : exec) (rs : list (outcome (result unit))) (r : outcome (result unit)) : Prop :=
  False.

Lemma on_field_parts : forall mode aggregates files q,
  part_of_plan q (on_field mode aggregates files) ->
  q = on_field mode aggregates files
  \/ q = Aggregate_exec mode [("f"%string, Float32)] [] (map (fun _ => false) aggregates)
    aggregates (Repartition_exec
      (Sorted_join_exec [("f"%string, Float32)] [Grid_exec (Data_source files false)]))
  \/ q = Repartition_exec (Sorted_join_exec [("f"%string, Float32)]
           [Grid_exec (Data_source files false)])
  \/ q = Sorted_join_exec [("f"%string, Float32)] [Grid_exec (Data_source files false)]
  \/ q = Grid_exec (Data_source files false) \/ q = Data_source files false.
Proof.
  intros mode aggregates files q H. unfold on_field in *.
  inversion H as [|p c Hc H1]; subst; [auto|]. destruct Hc as [<-|[]].
  inversion H1 as [|p c Hc H2]; subst; [auto|]. destruct Hc as [<-|[]].
  inversion H2 as [|p c Hc H3]; subst; [auto|]. destruct Hc as [<-|[]].
  inversion H3 as [|p c Hc H4]; subst; [auto|]. destruct Hc as [<-|[]].
  inversion H4 as [|p c Hc H5]; subst; [auto 6|]. destruct Hc as [<-|[]].
  inversion H5 as [|p c Hc H6]; subst; [auto 7|]. destruct Hc.
Qed.

Lemma on_field_consistent : forall mode aggregates files,
  consistent (on_field mode aggregates files).
Proof.
  intros mode aggregates files q H. apply on_field_parts in H.
  split; [|split].
  - intros s grids g -> Hg. repeat destruct H as [H|H]; try discriminate H.
    injection H as -> ->. destruct Hg as [<-|[]]. eauto.
  - intros s grids ->. repeat destruct H as [H|H]; try discriminate H.
    injection H as -> ->. discriminate.
  - intros m s group filters aggs input schema grids -> J.
    repeat destruct H as [H|H]; try discriminate H. injection H as -> -> -> -> -> ->.
    cbn [join_below] in J. injection J as <- <-. reflexivity.
Qed.

(** The values of the segment of C14. *)
Lemma sevens_segment : exists s, created exact_platform s /\ sg_model_type_id s <> swing_id
  /\ short exact_platform s /\ decompressed exact_platform [s] (map f32_of_Z sevens).
Proof.
  destruct aggregates_example as (s & H1 & H2 & H3 & (ts & out & G & B) & _).
  exists s. split; [exact H1|]. split; [exact H2|]. split; [exact H3|].
  exists [out]. split; [constructor; [eauto|constructor]|]. cbn [concat]. rewrite app_nil_r.
  apply (f_equal (map from_bits)) in B. rewrite map_map in B.
  rewrite (map_ext _ (fun x => x) from_to_bits), map_id in B. rewrite B, map_map.
  apply map_ext. intros z. apply from_to_bits.
Qed.

(** What the original plan returns. *)
Lemma on_field_returns : forall P exprs files values states, decompressed P files values ->
  returns P correct nothing (on_field Partial (map Expr exprs) files) (Ok (States states)) ->
  exprs = [] \/ Forall2 (fun e s => correct (expr_function e) (expr_distinct e)
                            (not_null (map (expr_argument e) values)) s) exprs states.
Proof.
  intros P exprs files values states Hd H. unfold on_field in H.
  inversion H as [ | | |i r H1| | | |p rs r _ _ []]; subst.
  match type of H1 with returns _ _ _ ?x _ => remember x as q eqn:Eq end.
  remember (Ok (States states)) as r eqn:Er.
  destruct H1 as [ | | | |s f ex i v st K1 K2 K3|s fs f i sg K1|m s fs f i sg K1 K2 K3
                 |p' rs r K1 K2 []]; try discriminate Eq; try discriminate Er.
  - injection Eq as _ _ Em ->. injection Er as ->.
    assert (ex = exprs).
    { apply (f_equal (flat_map (fun a => match a with Expr e => [e] | Model _ => [] end))) in Em.
      assert (X : forall l, flat_map (fun a => match a with Expr e => [e] | Model _ => [] end)
                    (map Expr l) = l).
      { induction l as [|e l IH]; [reflexivity|]. cbn. now rewrite IH. }
      now rewrite !X in Em. }
    subst ex. right.
    inversion K1 as [ | | |i' r' L1| | | |p rs r' _ _ []]; subst.
    inversion L1 as [ | |n g v' M1| | | | |p rs r' _ _ []]; subst.
    inversion M1 as [ |i' sg v' N1 N2| | | | | |p rs r' _ _ []]; subst.
    inversion N1 as [fl| | | | | | |p rs r' _ _ []]; subst.
    assert (v = values) by (eapply decompressed_unique; eauto). now subst v.
  - injection Eq as _ _ Em ->. destruct exprs; [now left|]. destruct fs; discriminate Em.
Qed.

Lemma on_segments_returns : forall P functions files states,
  states_of (map (fun f => model_state P f files) functions) = Ok states ->
  returns P correct nothing (on_segments Partial functions files) (Ok (States states)).
Proof.
  intros P functions files states E. apply returns_repartition.
  replace (Ok (States states)) with
    (let? states := states_of (map (fun f => model_state P f files) functions) in
     Ok (@States unit states)) by (rewrite E; reflexivity).
  apply returns_model. apply returns_source.
Qed.

Open Scope string_scope.
(** [COUNT(CASE WHEN f > 50 THEN f END)] counts the values above 50. *)
Definition count_above : aggregate_expr :=
  AggregateExpr "count(CASE WHEN t.f > Float32(50) THEN t.f END)" Count false
    (fun v => if f32_le v (f32_of_Z 50) then None else Some v).

Lemma expression_ignored : exists e files r, expr_function e = Count /\ expr_distinct e = false
  /\ Forall (created exact_platform) files
  /\ optimize (on_field Partial [Expr e] files) = Ok (on_segments Partial [Model_count] files)
  /\ returns exact_platform correct nothing (on_segments Partial [Model_count] files) r
  /\ ~ returns exact_platform correct nothing (on_field Partial [Expr e] files) r.
Proof.
  destruct sevens_segment as (s & H1 & H2 & H3 & Hd).
  destruct (count_correct exact_platform [s] exact_log2_good exact_ties
              ltac:(repeat constructor; exact H1)) as (values & Hd' & Hc).
  assert (values = map f32_of_Z sevens) by (eapply decompressed_unique; eauto). subst values.
  exists count_above, [s], (Ok (States [Counted 9])).
  split; [reflexivity|]. split; [reflexivity|]. split; [repeat constructor; exact H1|].
  split; [reflexivity|]. split.
  - apply on_segments_returns. cbn [map]. unfold states_of, model_state. cbn [fold_right].
    rewrite (Hc 0%Z ltac:(lia) ltac:(cbn; lia)). reflexivity.
  - intros H. apply (on_field_returns _ [count_above] [s] (map f32_of_Z sevens)) in H; [|exact Hd].
    destruct H as [H|H]; [discriminate|]. inversion H as [|? ? ? ? C _]; subst.
    cbn [expr_function expr_distinct count_above correct expr_argument] in C.
    assert (L : length (not_null (map (fun v => if f32_le v (f32_of_Z 50) then None else Some v)
                  (map f32_of_Z sevens))) = 1) by (vm_compute; reflexivity).
    rewrite L in C. discriminate C.
Qed.

(** [SUM(f * 2)] *)
Definition sum_double : aggregate_expr :=
  AggregateExpr "sum(t.f * Int64(2))" Sum false (fun v => Some (f32_mul v (f32_of_Z 2))).

Lemma sum_not_doubled : exists e files r, expr_function e = Sum /\ expr_distinct e = false
  /\ Forall (created exact_platform) files
  /\ optimize (on_field Partial [Expr e] files) = Ok (on_segments Partial [Model_sum] files)
  /\ returns exact_platform correct nothing (on_segments Partial [Model_sum] files) r
  /\ ~ returns exact_platform correct nothing (on_field Partial [Expr e] files) r.
Proof.
  destruct sevens_segment as (s & H1 & H2 & H3 & Hd).
  destruct (sum_avg_correct exact_platform [s] exact_log2_good exact_ties
              ltac:(repeat constructor; assumption) ltac:(repeat constructor; assumption))
    as (values & Hd' & Hs).
  assert (values = map f32_of_Z sevens) by (eapply decompressed_unique; eauto). subst values.
  assert (Hz : Forall (fun z => (Z.abs z <= 1000)%Z) sevens)
    by (repeat (apply Forall_cons; [lia|]); apply Forall_nil).
  assert (Hz2 : Forall (fun z => (Z.abs z <= 1000)%Z) (map (Z.mul 2) sevens))
    by (cbn [map sevens]; repeat (apply Forall_cons; [lia|]); apply Forall_nil).
  assert (Fin : forall zs, Forall (fun z => (Z.abs z <= 1000)%Z) zs -> Forall finite32 (map f32_of_Z zs)).
  { intros zs F. induction F as [|z zs Hz' F IH]; constructor; [|exact IH].
    apply (f32_of_Z_exact z). lia. }
  assert (Mag : forall zs, Forall (fun z => (Z.abs z <= 1000)%Z) zs -> Forall (fun z => (0 <= z)%Z) zs ->
            magnitude (map f32_of_Z zs) = IZR (fold_right Z.add 0%Z zs)).
  { intros zs F G. induction F as [|z zs Hz' F IH]; [reflexivity|]. inversion G; subst.
    cbn [map fold_right].
    change (magnitude (f32_of_Z z :: map f32_of_Z zs))
      with (Rabs (R32 (f32_of_Z z)) + magnitude (map f32_of_Z zs))%R.
    rewrite IH, plus_IZR by assumption. rewrite (proj2 (f32_of_Z_exact z ltac:(lia))).
    rewrite Rabs_pos_eq; [reflexivity|]. now apply IZR_le. }
  assert (G : forall n, n <= 18 -> ((1 + unit32) ^ n <= 1.2)%R).
  { intros n Hn. apply Rle_trans with ((1 + unit32) ^ 18)%R; [now apply (growth_le n 18)|].
    apply Rle_trans with (1.01 ^ 18)%R; [apply pow_incr; unfold unit32; lra|].
    cbn [pow]. lra. }
  assert (M1 : magnitude (map f32_of_Z sevens) = 146%R)
    by (rewrite Mag by (try assumption; repeat (apply Forall_cons; [lia|]); apply Forall_nil);
        reflexivity).
  assert (T1 : total (map f32_of_Z sevens) = 146%R) by (rewrite total_integers by assumption; reflexivity).
  assert (Big : (1000 <= IZR (2 ^ 127))%R) by (apply IZR_le; vm_compute; discriminate).
  destruct (Hs (Fin _ Hz) ltac:(cbn; lia)) as (sum & E1 & _ & E3 & E4).
  { rewrite M1. cbn [map sevens length Nat.add]. pose proof (G 10 ltac:(lia)). lra. }
  rewrite M1, T1 in E4. cbn [map sevens length Nat.add] in E4. pose proof (G 10 ltac:(lia)) as G10.
  exists sum_double, [s], (Ok (States [Summed (Some sum)])).
  split; [reflexivity|]. split; [reflexivity|]. split; [repeat constructor; exact H1|].
  split; [reflexivity|]. split.
  - apply on_segments_returns. cbn [map]. unfold states_of, model_state. cbn [fold_right].
    rewrite E1. reflexivity.
  - intros H. apply (on_field_returns _ [sum_double] [s] (map f32_of_Z sevens)) in H; [|exact Hd].
    destruct H as [H|H]; [discriminate|]. inversion H as [|? ? ? ? C _]; subst.
    cbn [expr_function expr_distinct sum_double correct expr_argument] in C.
    assert (L : not_null (map (fun v => Some (f32_mul v (f32_of_Z 2))) (map f32_of_Z sevens))
                = map f32_of_Z (map (Z.mul 2) sevens)).
    { apply combine_bits; vm_compute; reflexivity. }
    rewrite L in C. destruct C as (_ & _ & C). unfold growth_of in C.
    rewrite total_integers in C by assumption.
    rewrite Mag in C by (try assumption; cbn [map sevens]; repeat (apply Forall_cons; [lia|]);
                         apply Forall_nil).
    rewrite !map_length in C. change (fold_right Z.add 0%Z (map (Z.mul 2) sevens)) with 292%Z in C.
    change (2 * length sevens) with 18 in C. pose proof (G 18 ltac:(lia)) as G18.
    apply Rabs_le_inv in C, E4. lra.
Qed.

(** An empty table has no minimum, but [f32::MAX] is returned. *)
Lemma empty_minimum : exists e r, plain e /\ expr_function e = Min
  /\ optimize (on_field Partial [Expr e] []) = Ok (on_segments Partial [Model_min] [])
  /\ returns exact_platform correct nothing (on_segments Partial [Model_min] []) r
  /\ ~ returns exact_platform correct nothing (on_field Partial [Expr e] []) r.
Proof.
  exists (AggregateExpr "min(t.f)" Min false Some), (Ok (States [Extreme (Some f32_max_value)])).
  split; [split; [now exists "t.f)"|split; [discriminate|split; [reflexivity|intros v; reflexivity]]]|].
  split; [reflexivity|]. split; [reflexivity|]. split.
  - apply on_segments_returns. reflexivity.
  - intros H. apply (on_field_returns _ [AggregateExpr "min(t.f)" Min false Some] [] []) in H;
      [|exists []; split; [constructor|reflexivity]].
    destruct H as [H|H]; [discriminate|]. inversion H as [|? ? ? ? C _]; subst.
    cbn [expr_function expr_distinct correct] in C. destruct C as ((x & [] & _) & _).
Qed.

(** An aggregate that is executed in one step panics after it is rewritten. *)
Lemma single_step : exists e, plain e
  /\ forall files,
     optimize (on_field Single [Expr e] files) = Ok (on_segments Single [Model_count] files)
     /\ forall P, returns P correct nothing (on_segments Single [Model_count] files) Panic.
Proof.
  exists (AggregateExpr "count(t.f)" Count false Some).
  split; [split; [now exists "t.f)"|split; [discriminate|split; [reflexivity|discriminate]]]|].
  intros files. split; [reflexivity|]. intros P. apply returns_repartition.
  apply (returns_model_single P correct nothing Single _ [Model_count] _ _ files); try discriminate.
  apply returns_source.
Qed.

(** [SELECT COUNT( * ), SUM(f), MAX(f)] of two segments. *)
Definition three_aggregates : list aggregate_expr :=
  [AggregateExpr "count(*)" Count false (fun _ => Some (f32_of_Z 1));
   AggregateExpr "sum(t.f)" Sum false Some; AggregateExpr "max(t.f)" Max false Some].

Lemma three_rewritten : exists s,
  consistent (on_field Partial (map Expr three_aggregates) [s])
  /\ safe_aggregates (suitable exact_platform) (on_field Partial (map Expr three_aggregates) [s])
  /\ optimize (on_field Partial (map Expr three_aggregates) [s])
     = Ok (on_segments Partial [Model_count; Model_sum; Model_max] [s]).
Proof.
  destruct sevens_segment as (s & H1 & H2 & H3 & Hd). exists s.
  split; [apply on_field_consistent|]. split; [|reflexivity].
  intros mode sc filters aggregates input schema files q Hq _ J.
  apply on_field_parts in Hq. subst q.
  repeat destruct Hq as [Hq|Hq]; try discriminate Hq. injection Hq as -> -> -> -> ->.
  cbn [join_below] in J. injection J as <- <-.
  split; [reflexivity|]. exists three_aggregates. split; [reflexivity|]. split; [discriminate|].
  assert (Hz : Forall (fun z => (Z.abs z <= 1000)%Z) sevens)
    by (repeat (apply Forall_cons; [lia|]); apply Forall_nil).
  assert (S : forall f, (forall id, f <> Other_function id) -> suitable exact_platform [s] f).
  { intros f Hf. split; [discriminate|]. split; [repeat constructor; exact H1|].
    intros values Hv. assert (values = map f32_of_Z sevens) by (eapply decompressed_unique; eauto).
    subst values. split; [cbn; lia|].
    assert (Fin : Forall finite32 (map f32_of_Z sevens)).
    { clear - Hz. induction Hz as [|z zs Hz' F IH]; constructor; [|exact IH].
      apply (f32_of_Z_exact z). lia. }
    assert (N : Forall (fun s => sg_model_type_id s <> swing_id) [s]) by (repeat constructor; exact H2).
    assert (B : (growth_of (map f32_of_Z sevens) * magnitude (map f32_of_Z sevens)
                 <= IZR (2 ^ 127))%R).
    { assert (G : (growth_of (map f32_of_Z sevens) <= 2)%R).
      { unfold growth_of. rewrite map_length. change (2 * length sevens) with 18.
        apply Rle_trans with (1.01 ^ 18)%R; [apply pow_incr; unfold unit32; lra|]. cbn [pow]. lra. }
      assert (M : (magnitude (map f32_of_Z sevens) <= 9000)%R).
      { assert (X : forall zs, Forall (fun z => (Z.abs z <= 1000)%Z) zs ->
                  (magnitude (map f32_of_Z zs) <= INR (length zs) * 1000)%R).
        { intros zs F. induction F as [|z zs Hz' F IH]; [cbn; lra|]. cbn [map length]. rewrite S_INR.
          change (magnitude (f32_of_Z z :: map f32_of_Z zs))
            with (Rabs (R32 (f32_of_Z z)) + magnitude (map f32_of_Z zs))%R.
          rewrite (proj2 (f32_of_Z_exact z ltac:(lia))), <- abs_IZR.
          apply IZR_le in Hz'. lra. }
        specialize (X _ Hz). change (length sevens) with 9 in X. cbn [INR] in X. lra. }
      pose proof (magnitude_pos (map f32_of_Z sevens)) as M0.
      assert (Big : (18000 <= IZR (2 ^ 127))%R) by (apply IZR_le; vm_compute; discriminate).
      assert (growth_of (map f32_of_Z sevens) * magnitude (map f32_of_Z sevens)
              <= 2 * magnitude (map f32_of_Z sevens))%R by (apply Rmult_le_compat_r; assumption).
      lra. }
    destruct f as [| | | | |id]; try exact I; try (split; assumption);
      try (split; [exact N|split; [repeat constructor; exact H3|split; assumption]]).
    now destruct (Hf id). }
  intros e [<-|[<-|[<-|[]]]]; (split; [|apply S; discriminate]).
  - split; [now exists "*)"|]. split; [discriminate|]. split; [reflexivity|]. discriminate.
  - split; [now exists "t.f)"|]. split; [discriminate|]. split; [reflexivity|intros v; reflexivity].
  - split; [now exists "t.f)"|]. split; [discriminate|]. split; [reflexivity|intros v; reflexivity].
Qed.

(** The same of a linear function. *)
Lemma three_rewritten_line : exists s, sg_model_type_id s = swing_id
  /\ consistent (on_field Partial (map Expr three_aggregates) [s])
  /\ safe_aggregates (suitable_within exact_platform 64 1700000000009000 (/ 4))
       (on_field Partial (map Expr three_aggregates) [s])
  /\ optimize (on_field Partial (map Expr three_aggregates) [s])
     = Ok (on_segments Partial [Model_count; Model_sum; Model_max] [s]).
Proof.
  destruct line_witness as (s & ts & out & x & H1 & H2 & H3 & H4 & H5 & H6 & _ & _ & _ & _ & HL).
  exists s. split; [exact H2|]. split; [apply on_field_consistent|]. split; [|reflexivity].
  intros mode sc filters aggregates input schema files q Hq _ J.
  apply on_field_parts in Hq. subst q.
  repeat destruct Hq as [Hq|Hq]; try discriminate Hq. injection Hq as -> -> -> -> ->.
  cbn [join_below] in J. injection J as <- <-.
  split; [reflexivity|]. exists three_aggregates. split; [reflexivity|]. split; [discriminate|].
  destruct (line_segment exact_platform s 64 1700000000009000 H1 H2 H3 ltac:(lia))
    as (ts' & out' & G & Hf & _ & _ & (_ & _ & NL) & (_ & _ & NG) & _ & _).
  { rewrite pow_IZR. apply IZR_le. lia. }
  rewrite H6 in G. injection G as <- <-.
  destruct H3 as (H3a & H3b & H3c & H3d & H3e & H3f). apply Rabs_le_inv in H3d, H3e.
  assert (B : Forall (fun v => (Rabs (R32 v) <= 65)%R) out).
  { apply Forall_forall. intros v Hv. specialize (NL v Hv). specialize (NG v Hv).
    apply Rabs_le. lra. }
  assert (Hd : decompressed exact_platform [s] out).
  { exists [out]. split; [constructor; [eauto|constructor]|]. cbn [concat]. apply app_nil_r. }
  assert (M : (magnitude out <= 650)%R).
  { assert (X : (magnitude out <= INR (length out) * 65)%R).
    { clear - B. induction B as [|v l Hv B IH]; [cbn; lra|]. cbn [length]. rewrite S_INR.
      change (magnitude (v :: l)) with (Rabs (R32 v) + magnitude l)%R. lra. }
    rewrite HL in X. cbn [INR] in X. lra. }
  assert (S : forall f, (forall id, f <> Other_function id) ->
            suitable_within exact_platform 64 1700000000009000 (/ 4) [s] f).
  { intros f Hf'. split; [discriminate|]. split; [repeat constructor; exact H1|].
    intros values Hv. assert (values = out) by (eapply decompressed_unique; eauto).
    subst values. split; [rewrite HL; cbn; lia|].
    assert (N : Forall (lines_within 64 1700000000009000 (/ 4)) [s]).
    { constructor; [|constructor]. intros _. split; [|exact H4]. repeat split; try apply H3f; auto;
        apply Rabs_le; lra. }
    assert (Bd : (growth_of out * (magnitude out + lines_of (/ 4) out) <= IZR (2 ^ 127))%R).
    { assert (Gr : (growth_of out <= 2)%R).
      { unfold growth_of. rewrite HL. change (2 * 10) with 20.
        apply Rle_trans with (1.01 ^ 20)%R; [apply pow_incr; unfold unit32; lra|]. cbn [pow]. lra. }
      assert (Ln : lines_of (/ 4) out = 5%R) by (unfold lines_of; rewrite HL; cbn [INR]; lra).
      pose proof (magnitude_pos out) as M0. rewrite Ln.
      assert (Big : (18000 <= IZR (2 ^ 127))%R) by (apply IZR_le; vm_compute; discriminate).
      assert (growth_of out * (magnitude out + 5) <= 2 * (magnitude out + 5))%R
        by (apply Rmult_le_compat_r; lra). lra. }
    destruct f as [| | | | |id]; try exact I; try (split; assumption);
      try (split; [exact N|split; [repeat constructor; exact H5|split; assumption]]).
    now destruct (Hf' id). }
  intros e [<-|[<-|[<-|[]]]]; (split; [|apply S; discriminate]).
  - split; [now exists "*)"|]. split; [discriminate|]. split; [reflexivity|]. discriminate.
  - split; [now exists "t.f)"|]. split; [discriminate|]. split; [reflexivity|intros v; reflexivity].
  - split; [now exists "t.f)"|]. split; [discriminate|]. split; [reflexivity|intros v; reflexivity].
Qed.
