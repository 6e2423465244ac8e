(** The rule that computes aggregates from segments. *)
From Coq Require Import ZArith Reals Bool String Ascii List Lia Lra.
From Flocq Require Import Core IEEE754.Binary.
From Verif Require Import Model.Base Model.Float Model.Segments Model.Aggregates Model.Table
  Model.AggregateRule Spec.ErrorBoundSpec Spec.PlatformSpec Spec.SegmentsSpec Spec.AggregateSpec
  Spec.AggregateRuleSpec Proofs.FloatProofs Proofs.MacaqueVLossyProofs Proofs.SegmentsProofs
  Spec.LineSpec Proofs.AggregateProofs Proofs.AggregateSumProofs Proofs.LineSegmentProofs.
Import ListNotations.
Open Scope nat_scope.
Open Scope list_scope.

(** ** Decompressed values *)
Lemma decompressed_unique : forall P segments a b, decompressed P segments a ->
  decompressed P segments b -> a = b.
Proof.
  intros P segments a b (pa & Fa & <-) (pb & Fb & <-). f_equal.
  revert pb Fb. induction Fa as [|s out segments parts (ts & E) Fa IH]; intros pb Fb;
    inversion Fb as [|? out' ? parts' (ts' & E') Fb']; subst; [reflexivity|].
  rewrite E in E'. injection E' as <- <-. f_equal. now apply IH.
Qed.

Lemma created_values : forall P segments, good_log2 P -> ties_first P -> Forall (created P) segments ->
  exists values, decompressed P segments values /\ length segments <= length values.
Proof.
  intros P segments HP HT H. induction H as [|s segments Hs H (values & (parts & F & E) & L)].
  - exists []. split; [exists (@nil (list f32)); split; [constructor|reflexivity]|cbn; lia].
  - destruct (created_part P s Hs) as (eb & pts & Hp).
    destruct Hp as (He & Hrel & Hre & Hnan & Hv & Hspan & Hb).
    destruct (RestoreProofs.built_restores P eb s pts HP HT He Hrel Hre Hnan Hv Hspan Hb)
      as (out & Eo & Lo & _).
    apply built_not_empty in Hb. exists (out ++ values). split.
    + exists (out :: parts). split; [constructor; [eauto|exact F]|]. cbn [concat]. now rewrite E.
    + rewrite app_length, Lo. destruct pts; [congruence|]. cbn [length]. lia.
Qed.

Lemma finite_below_max : forall x, finite32 x ->
  f32_le x f32_max_value = true /\ f32_le f32_min_value x = true.
Proof.
  intros x Hx.
  assert (B := abs_B2R_le_emax_minus_prec 24 128 eq_refl x). apply Rabs_le_inv in B.
  assert (M : R32 f32_max_value = (bpow radix2 128 - bpow radix2 (128 - 24))%R).
  { unfold R32. rewrite <- (FF2R_B2FF 24 128 f32_max_value).
    assert (E : B2FF 24 128 f32_max_value = F754_finite false 16777215 104) by (vm_compute; reflexivity).
    rewrite E. unfold FF2R, F2R. cbn [Fnum Fexp cond_Zopp]. cbn -[IZR Rmult]. lra. }
  assert (N : R32 f32_min_value = (- (bpow radix2 128 - bpow radix2 (128 - 24)))%R).
  { unfold R32. rewrite <- (FF2R_B2FF 24 128 f32_min_value).
    assert (E : B2FF 24 128 f32_min_value = F754_finite true 16777215 104) by (vm_compute; reflexivity).
    rewrite E. unfold FF2R, F2R. cbn [Fnum Fexp cond_Zopp]. cbn -[IZR Rmult]. lra. }
  split.
  - apply (f32_le_iff x f32_max_value Hx max_value_finite). rewrite M. apply B.
  - apply (f32_le_iff f32_min_value x min_value_finite Hx). rewrite N. apply B.
Qed.

(** ** States *)
Definition model_of (f : aggregate_function) : model_function :=
  match f with
  | Count => Model_count | Min => Model_min | Max => Model_max | Sum => Model_sum
  | Avg | Other_function _ => Model_avg
  end.

Lemma before_parenthesis_name : forall f rest, 
  before_parenthesis (function_name f ++ "(" ++ rest)%string = function_name f.
Proof. intros [| | | | |id] rest; reflexivity. Qed.

Lemma rewrite_plain : forall e, plain e ->
  rewrite_aggregate (Expr e) = Ok (Model (model_of (expr_function e))).
Proof.
  intros e ((rest & Hn) & Hf & _). unfold rewrite_aggregate. cbn [aggregate_name].
  rewrite Hn, before_parenthesis_name.
  destruct (expr_function e) as [| | | | |id]; try reflexivity. now destruct (Hf id).
Qed.

Lemma rewrite_all : forall exprs, (forall e, In e exprs -> plain e) ->
  rewrite_aggregates (map Expr exprs)
  = Ok (map Model (map (fun e => model_of (expr_function e)) exprs)).
Proof.
  induction exprs as [|e exprs IH]; intros H; [reflexivity|]. cbn [map rewrite_aggregates].
  rewrite (rewrite_plain e (H e (or_introl eq_refl))). cbn [bind].
  rewrite IH by (intros e' He; apply H; now right). reflexivity.
Qed.

Lemma not_null_some : forall l, not_null (map Some l) = l.
Proof. induction l as [|v l IH]; [reflexivity|]. cbn. now rewrite IH. Qed.
Lemma not_null_length : forall (f : f32 -> option f32) l, (forall v, f v <> None) ->
  length (not_null (map f l)) = length l.
Proof.
  intros f l H. induction l as [|v l IH]; [reflexivity|]. cbn [map not_null].
  destruct (f v) as [w|] eqn:E; [|now apply H in E]. cbn [length]. now rewrite IH.
Qed.
Lemma argument_values : forall (f : f32 -> option f32) l, (forall v, f v = Some v) ->
  not_null (map f l) = l.
Proof.
  intros f l H. rewrite (map_ext f Some H). apply not_null_some.
Qed.

Lemma state_correct : forall P files e values, good_log2 P -> ties_first P ->
  plain e -> suitable P files (expr_function e) -> decompressed P files values ->
  exists s, model_state P (model_of (expr_function e)) files = Ok s
    /\ correct (expr_function e) (expr_distinct e) (not_null (map (expr_argument e) values)) s.
Proof.
  intros P files e values HP HT (_ & Hother & Hdist & Harg) (Hne & Hc & Hv) Hd.
  destruct (Hv values Hd) as (Hlen & Hf).
  destruct (created_values P files HP HT Hc) as (values' & Hd' & Hll).
  assert (values' = values) by (eapply decompressed_unique; eauto). subst values'.
  assert (Hnv : values <> []).
  { intros ->. destruct files; [congruence|]. cbn in Hll. lia. }
  rewrite Hdist.
  assert (Hex : Forall finite32 values -> exists x, In x values /\ finite32 x).
  { intros F. destruct values as [|x values]; [congruence|]. inversion F. exists x.
    split; [now left|assumption]. }
  assert (Hns : Forall (fun s => sg_model_type_id s <> swing_id) files ->
            Forall (fun s => created P s /\ sg_model_type_id s <> swing_id) files).
  { intros F. rewrite Forall_forall in *. auto. }
  assert (Hsum : Forall (fun s => sg_model_type_id s <> swing_id) files ->
     Forall (short P) files -> Forall finite32 values ->
     (growth_of values * magnitude values <= IZR (2 ^ 127))%R ->
     exists sum, model_sum P f64_zero files = Ok sum
       /\ model_avg P 0 f64_zero files = Ok (Z.of_nat (length values), sum) /\ close values sum).
  { intros F1 F2 F3 F4.
    destruct (sum_avg_correct P files HP HT (Hns F1) F2) as (values' & Hd2 & Hs).
    assert (values' = values) by (eapply decompressed_unique; eauto). subst values'.
    assert (G : ((1 + unit32) ^ (length values + length files) <= growth_of values)%R).
    { apply (growth_le (length values + length files) (2 * length values)). lia. }
    pose proof (magnitude_pos values) as M.
    assert (G1 : ((1 + unit32) ^ (length values + length files) * magnitude values
                  <= growth_of values * magnitude values)%R)
      by (apply Rmult_le_compat_r; assumption).
    destruct (Hs F3 ltac:(lia) ltac:(lra)) as (sum & E1 & E2 & E3 & E4). exists sum.
    split; [exact E1|]. split; [exact E2|]. split; [exact E3|].
    eapply Rle_trans; [exact E4|]. apply Rmult_le_compat_r; [exact M|lra]. }
  destruct (expr_function e) as [| | | | |id]; cbn [model_of model_state correct].
  - destruct (count_correct P files HP HT Hc) as (values' & Hd2 & Hcount).
    assert (values' = values) by (eapply decompressed_unique; eauto). subst values'.
    rewrite (Hcount 0%Z) by lia. cbn [bind]. eexists. split; [reflexivity|]. cbn [correct].
    rewrite (not_null_length _ _ Harg). lia.
  - destruct Hf as (F1 & F2).
    destruct (min_max_correct P files HP HT (Hns F1)) as (values' & Hd2 & Hmin & _).
    assert (values' = values) by (eapply decompressed_unique; eauto). subst values'.
    eexists. split; [reflexivity|]. cbn [correct]. rewrite (argument_values _ _ Harg). apply Hmin.
    destruct (Hex F2) as (x & Hx & Fx). exists x. split; [exact Hx|]. now apply finite_below_max.
  - destruct Hf as (F1 & F2).
    destruct (min_max_correct P files HP HT (Hns F1)) as (values' & Hd2 & _ & Hmax).
    assert (values' = values) by (eapply decompressed_unique; eauto). subst values'.
    eexists. split; [reflexivity|]. cbn [correct]. rewrite (argument_values _ _ Harg). apply Hmax.
    destruct (Hex F2) as (x & Hx & Fx). exists x. split; [exact Hx|]. now apply finite_below_max.
  - destruct Hf as (F1 & F2 & F3 & F4). destruct (Hsum F1 F2 F3 F4) as (s & E1 & _ & E3).
    rewrite E1. cbn [bind]. eexists. split; [reflexivity|]. cbn [correct].
    rewrite (argument_values _ _ Harg). split; assumption.
  - destruct Hf as (F1 & F2 & F3 & F4). destruct (Hsum F1 F2 F3 F4) as (s & _ & E2 & E3).
    rewrite E2. cbn [bind]. eexists. split; [reflexivity|]. cbn [correct].
    rewrite (argument_values _ _ Harg). split; [assumption|]. split; [assumption|reflexivity].
  - contradiction.
Qed.

Lemma state_within : forall P size latest slack files e values, good_log2 P -> ties_first P ->
  (latest <= 2 ^ 52)%Z -> (size <= 2 ^ 96)%R -> (0 <= slack)%R ->
  plain e -> suitable_within P size latest slack files (expr_function e) ->
  decompressed P files values ->
  exists s, model_state P (model_of (expr_function e)) files = Ok s
    /\ correct_within slack (expr_function e) (expr_distinct e)
         (not_null (map (expr_argument e) values)) s.
Proof.
  intros P size latest slack files e values HP HT HL HS HK (_ & Hother & Hdist & Harg) (Hne & Hc & Hv) Hd.
  destruct (Hv values Hd) as (Hlen & Hf).
  destruct (created_values P files HP HT Hc) as (values' & Hd' & Hll).
  assert (values' = values) by (eapply decompressed_unique; eauto). subst values'.
  assert (Hnv : values <> []).
  { intros ->. destruct files; [congruence|]. cbn in Hll. lia. }
  rewrite Hdist.
  assert (Hns : Forall (lines_within size latest slack) files ->
            Forall (fun s => created P s /\ lines_within size latest slack s) files).
  { intros F. rewrite Forall_forall in *. auto. }
  assert (Hmm : Forall (lines_within size latest slack) files -> Forall finite32 values ->
     near_least slack (model_min P files) values /\ near_greatest slack (model_max P files) values).
  { intros F1 F2.
    destruct (near_min_max P files size latest slack HP HT HL HS HK Hne (Hns F1)) as (values' & Hd2 & H).
    assert (values' = values) by (eapply decompressed_unique; eauto). subst values'. auto. }
  assert (Hsum : Forall (lines_within size latest slack) files ->
     Forall (short P) files -> Forall finite32 values ->
     (growth_of values * (magnitude values + lines_of slack values) <= IZR (2 ^ 127))%R ->
     exists sum, model_sum P f64_zero files = Ok sum
       /\ model_avg P 0 f64_zero files = Ok (Z.of_nat (length values), sum)
       /\ close_within slack values sum).
  { intros F1 F2 F3 F4.
    destruct (near_sum_avg P files size latest slack HP HT HL HS HK (Hns F1) F2) as (values' & Hd2 & Hs).
    assert (values' = values) by (eapply decompressed_unique; eauto). subst values'.
    assert (G : ((1 + unit32) ^ (length values + length files) <= growth_of values)%R).
    { apply (growth_le (length values + length files) (2 * length values)). lia. }
    assert (M : (0 <= magnitude values + lines_of slack values)%R).
    { pose proof (magnitude_pos values) as M. unfold lines_of. pose proof (pos_INR (length values)).
      assert (0 <= INR (length values) * (2 * slack))%R by (apply Rmult_le_pos; lra). lra. }
    fold (lines_of slack values) in Hs.
    assert (G1 : ((1 + unit32) ^ (length values + length files) * (magnitude values + lines_of slack values)
                  <= growth_of values * (magnitude values + lines_of slack values))%R)
      by (apply Rmult_le_compat_r; assumption).
    destruct (Hs F3 ltac:(lia) ltac:(lra)) as (sum & E1 & E2 & E3 & E4). exists sum.
    split; [exact E1|]. split; [exact E2|]. split; [exact E3|].
    eapply Rle_trans; [exact E4|]. apply Rplus_le_compat_r.
    apply Rmult_le_compat_r; [exact M|lra]. }
  destruct (expr_function e) as [| | | | |id]; cbn [model_of model_state correct_within].
  - destruct (count_correct P files HP HT Hc) as (values' & Hd2 & Hcount).
    assert (values' = values) by (eapply decompressed_unique; eauto). subst values'.
    rewrite (Hcount 0%Z) by lia. cbn [bind]. eexists. split; [reflexivity|]. cbn [correct_within].
    rewrite (not_null_length _ _ Harg). lia.
  - destruct Hf as (F1 & F2). eexists. split; [reflexivity|]. cbn [correct_within].
    rewrite (argument_values _ _ Harg). now apply Hmm.
  - destruct Hf as (F1 & F2). eexists. split; [reflexivity|]. cbn [correct_within].
    rewrite (argument_values _ _ Harg). now apply Hmm.
  - destruct Hf as (F1 & F2 & F3 & F4). destruct (Hsum F1 F2 F3 F4) as (s & E1 & _ & E3).
    rewrite E1. cbn [bind]. eexists. split; [reflexivity|]. cbn [correct_within].
    rewrite (argument_values _ _ Harg). split; assumption.
  - destruct Hf as (F1 & F2 & F3 & F4). destruct (Hsum F1 F2 F3 F4) as (s & _ & E2 & E3).
    rewrite E2. cbn [bind]. eexists. split; [reflexivity|]. cbn [correct_within].
    rewrite (argument_values _ _ Harg). split; [assumption|]. split; [assumption|reflexivity].
  - contradiction.
Qed.

(** Segments that suit a function have values, for which the state is right. *)
Definition good_states (P : platform) (right : aggregate_function -> bool -> list f32 -> state -> Prop)
  (suits : list segment -> aggregate_function -> Prop) : Prop :=
  forall files e, plain e -> suits files (expr_function e) ->
  exists values, decompressed P files values
    /\ exists s, model_state P (model_of (expr_function e)) files = Ok s
      /\ right (expr_function e) (expr_distinct e) (not_null (map (expr_argument e) values)) s.

Lemma suitable_good : forall P, good_log2 P -> ties_first P -> good_states P correct (suitable P).
Proof.
  intros P HP HT files e H1 H2. destruct H2 as (Hn & Hc & Hv) eqn:E. clear E.
  destruct (created_values P files HP HT Hc) as (values & Hd & _). exists values.
  split; [exact Hd|]. now apply state_correct.
Qed.
Lemma within_good : forall P size latest slack, good_log2 P -> ties_first P ->
  (latest <= 2 ^ 52)%Z -> (size <= 2 ^ 96)%R -> (0 <= slack)%R ->
  good_states P (correct_within slack) (suitable_within P size latest slack).
Proof.
  intros P size latest slack HP HT HL HS HK files e H1 H2. destruct H2 as (Hn & Hc & Hv) eqn:E.
  clear E. destruct (created_values P files HP HT Hc) as (values & Hd & _). exists values.
  split; [exact Hd|]. now apply (state_within P size latest slack).
Qed.

Lemma states_right : forall P right suits files values exprs, good_states P right suits ->
  decompressed P files values ->
  (forall e, In e exprs -> plain e /\ suits files (expr_function e)) ->
  exists states,
    states_of (map (fun f => model_state P f files) (map (fun e => model_of (expr_function e)) exprs))
    = Ok states
    /\ Forall2 (fun e s => right (expr_function e) (expr_distinct e)
                            (not_null (map (expr_argument e) values)) s) exprs states.
Proof.
  intros P right suits files values exprs HG Hd. induction exprs as [|e exprs IH]; intros H.
  - exists []. split; [reflexivity|constructor].
  - destruct IH as (states & E & F); [intros e' He; apply H; now right|].
    destruct (H e (or_introl eq_refl)) as (H1 & H2).
    destruct (HG files e H1 H2) as (values' & Hd' & s & E1 & C).
    assert (values' = values) by (eapply decompressed_unique; eauto). subst values'.
    exists (s :: states). cbn [map]. unfold states_of in *. cbn [fold_right].
    rewrite E1. cbn [bind]. rewrite E. split; [reflexivity|]. now constructor.
Qed.

(** ** Plans *)
Section Plans.
  Context {R : Type}.
  Variable P : platform.
  Variable right : aggregate_function -> bool -> list f32 -> state -> Prop.
  Variable suits : list segment -> aggregate_function -> Prop.
  Hypothesis HG : good_states P right suits.
  Variable other : exec -> list (outcome (result R)) -> outcome (result R) -> Prop.

  Definition refines (p q : exec) : Prop :=
    forall r, returns P right other q r -> returns P right other p r.

  Lemma rewritten_shape : forall p q, rewritten_child p = Ok q ->
    exists mode name filters aggregates aggregates' input schema g source,
      p = Aggregate_exec mode [(name, Float32)] [] filters aggregates input
      /\ forallb negb filters = true /\ join_below input = Some (schema, [g])
      /\ hd_error (children g) = Some source /\ can_rewrite source = true
      /\ rewrite_aggregates aggregates = Ok aggregates'
      /\ q = Aggregate_exec mode [(name, Float32)] [] filters aggregates' source.
  Proof.
    intros p q H. destruct p as [mode s group filters aggregates input| | | | | ]; try discriminate.
    cbn [rewritten_child] in H.
    destruct s as [|(name, t) [|? ?]]; try discriminate; [|destruct t; discriminate].
    destruct t; try discriminate. destruct group; try discriminate.
    destruct (forallb negb filters) eqn:Ef; [|discriminate].
    assert (X : exists schema grids, join_below input = Some (schema, grids)
      /\ try_new_aggregate_exec mode [(name, Float32)] [] filters aggregates grids = Ok q).
    { destruct input as [| i |schema grids| | | ]; cbn [join_below] in *; try discriminate.
      - destruct i as [| |schema grids| | | ]; try discriminate. exists schema, grids. auto.
      - exists schema, grids. auto. }
    destruct X as (schema & grids & J & E). unfold try_new_aggregate_exec in E.
    destruct grids as [|g [|? ?]]; try discriminate.
    destruct (children g) as [|source rest] eqn:Ec; [discriminate|].
    destruct (can_rewrite source) eqn:Cr; [|discriminate].
    destruct (rewrite_aggregates aggregates) as [aggregates'| |] eqn:Er; cbn [bind] in E;
      try discriminate. injection E as <-.
    exists mode, name, filters, aggregates, aggregates', input, schema, g, source.
    rewrite Ec. auto 8.
  Qed.

  (** A rewritten aggregate. *)
  Lemma rewritten_ok : forall p q, consistent p -> safe_aggregates suits p -> rewritten_child p = Ok q ->
    exists states, returns P right other q (Ok (States states)) /\ refines p q.
  Proof.
    intros p q Hcons Hsafe Hq. pose proof (rewritten_shape p q Hq) as Sh.
    destruct Sh as (mode & name & filters & aggregates & aggregates' & input & schema & g & source
      & -> & Ef & J & Hg & Cr & Er & ->).
    assert (Hs : exists files, source = Data_source files false).
    { destruct source as [| | | |files [|]|]; try discriminate. now exists files. }
    destruct Hs as (files & ->).
    (* the join is below the aggregate *)
    assert (Hj : part_of_plan (Sorted_join_exec schema [g])
              (Aggregate_exec mode [(name, Float32)] [] filters aggregates input)
              /\ (input = Sorted_join_exec schema [g]
                  \/ input = Repartition_exec (Sorted_join_exec schema [g]))).
    { destruct input as [| i |s' grids'| | | ]; cbn [join_below] in J; try discriminate.
      - destruct i as [| |s' grids'| | | ]; try discriminate. injection J as -> ->.
        split; [|now right]. eapply part_child; [left; reflexivity|].
        eapply part_child; [left; reflexivity|]. constructor.
      - injection J as -> ->. split; [|now left].
        eapply part_child; [left; reflexivity|]. constructor. }
    destruct Hj as (Hpart & Hin).
    destruct (Hcons _ Hpart) as (C1 & _ & _).
    destruct (C1 schema [g] g eq_refl (or_introl eq_refl)) as (gi & ->).
    cbn [children hd_error] in Hg. injection Hg as ->.
    destruct (Hcons _ (part_self _)) as (_ & _ & C3).
    pose proof (C3 _ _ _ _ _ _ _ _ eq_refl J) as Es.
    destruct (Hsafe mode [(name, Float32)] filters aggregates input schema files (part_self _)
                ltac:(rewrite Hq; reflexivity) J) as (-> & exprs & -> & Hne & He).
    rewrite rewrite_all in Er by (intros e H; now apply He). injection Er as <-.
    (* the values *)
    assert (Hvals : exists values states, decompressed P files values
      /\ states_of (map (fun f => model_state P f files)
           (map (fun e => model_of (expr_function e)) exprs)) = Ok states
      /\ Forall2 (fun e s => right (expr_function e) (expr_distinct e)
                            (not_null (map (expr_argument e) values)) s) exprs states).
    { destruct exprs as [|e exprs]; [congruence|].
      destruct (He e (or_introl eq_refl)) as (H1 & H2).
      destruct (HG files e H1 H2) as (values & Hd & _).
      destruct (states_right P right suits files values (e :: exprs) HG Hd He) as (states & E1 & E2).
      exists values, states. auto. }
    destruct Hvals as (values & states & Hd & Est & Hst).
    assert (Old : returns P right other (Aggregate_exec Partial [(name, Float32)] [] filters
                       (map Expr exprs) input) (Ok (States states))).
      { apply (returns_aggregates P right other _ _ _ _ values states); [|exact Ef|exact Hst].
        assert (Jr : returns P right other (Sorted_join_exec schema [Grid_exec (Data_source files false)])
                       (Ok (Column_of values))).
        { rewrite <- Es. apply returns_join. eapply returns_grid; [apply returns_source|exact Hd]. }
        destruct Hin as [-> | ->]; [exact Jr|now apply returns_repartition]. }
      assert (New : forall r, returns P right other (Aggregate_exec Partial [(name, Float32)] [] filters
                 (map Model (map (fun e => model_of (expr_function e)) exprs))
                 (Data_source files false)) r -> r = Ok (States states)).
      { intros r Hr.
        match type of Hr with returns _ _ _ ?x _ => remember x as q eqn:Eq end.
        destruct Hr as [ | | | |s f ex i v st H1 H2 H3|s fs f i sg H1|m s fs f i sg H1 H2 H3
                       |p' rs r H1 H2 H3]; try discriminate Eq.
        - injection Eq as -> -> Em ->. destruct exprs as [|e exprs]; [congruence|].
          destruct ex; discriminate Em.
        - injection Eq as -> -> Em ->.
          assert (fs = map (fun e => model_of (expr_function e)) exprs).
          { apply (f_equal (map (fun a => match a with Model f => f | _ => Model_count end))) in Em.
            rewrite !map_map in Em. now rewrite !map_id in Em. }
          subst fs. inversion H1 as [fl| | | | | | |p' rs r' K1 K2 K3]; subst.
          + rewrite Est. reflexivity.
          + cbn [described] in K2. discriminate K2.
        - injection Eq as -> _ _ _ _. congruence.
        - subst p'. destruct exprs as [|e exprs]; [congruence|]. cbn [described map existsb] in H2.
          discriminate H2. }
    exists states. split.
    - replace (Ok (States states)) with
        (let? states := states_of (map (fun f => model_state P f files)
           (map (fun e => model_of (expr_function e)) exprs)) in Ok (@States R states))
        by (rewrite Est; reflexivity).
      apply returns_model. apply returns_source.
    - intros r Hr. rewrite (New r Hr). exact Old.
  Qed.

  (** Replacing inputs. *)
  Lemma refines_refl : forall p, refines p p.
  Proof. intros p r H. exact H. Qed.
  Lemma refines_trans : forall p q s, refines p q -> refines q s -> refines p s.
  Proof. intros p q s H1 H2 r H. auto. Qed.

  Lemma refines_all : forall inputs inputs', Forall2 refines inputs inputs' -> forall rs,
    Forall2 (returns P right other) inputs' rs -> Forall2 (returns P right other) inputs rs.
  Proof.
    intros inputs inputs' H. induction H as [|p q ps qs H Hs IH]; intros rs F;
      inversion F; subst; constructor; auto.
  Qed.

  Lemma described_inputs : forall p inputs (rs : list (outcome (result R))),
    length inputs = length (children p) ->
    described (with_new_children p inputs) rs = described p rs
    /\ operator_of (with_new_children p inputs) = operator_of p
    /\ children (with_new_children p inputs) = inputs.
  Proof.
    intros p inputs rs H. destruct p as [m s g f a i|i|s l|i|fl b|id l]; cbn [children] in H;
      try (destruct inputs as [|x [|y inputs]]; try discriminate H; repeat split; reflexivity);
      repeat split; try reflexivity.
    all: destruct inputs; [|discriminate H]; reflexivity.
  Qed.

  Lemma refines_inputs : forall p inputs, Forall2 refines (children p) inputs ->
    refines p (with_new_children p inputs).
  Proof.
    intros p inputs Hr r H.
    assert (L : length inputs = length (children p)).
    { clear - Hr. induction Hr; cbn; auto. }
    remember (with_new_children p inputs) as q eqn:Eq.
    assert (Hother : forall rs, Forall2 (returns P right other) (children q) rs -> described q rs = false ->
              other (operator_of q) rs r -> returns P right other p r).
    { intros rs H1 H2 H3. destruct (described_inputs p inputs rs L) as (D1 & D2 & D3). subst q.
      rewrite D1 in H2. rewrite D2 in H3. rewrite D3 in H1.
      apply (returns_other P right other p rs r); auto. now apply (refines_all _ inputs). }
    destruct p as [m s g f a i|i|s l|i|fl b|id l]; cbn [children] in Hr.
    - inversion Hr as [|? i' ? [|? ?] R1 R2]; subst; [|inversion R2]. cbn [with_new_children] in *.
      inversion H; subst; [eapply returns_aggregates|eapply returns_model|eapply returns_model_single
                          |eapply Hother]; eauto.
    - inversion Hr as [|? i' ? [|? ?] R1 R2]; subst; [|inversion R2]. cbn [with_new_children] in *.
      inversion H; subst; [apply returns_repartition|eapply Hother]; eauto.
    - cbn [with_new_children] in Eq. subst q. inversion H; subst; [|eapply Hother; eauto].
      inversion Hr as [|g' ? ? [|? ?] R1 R2]; subst. inversion R2; subst.
      apply returns_join. auto.
    - inversion Hr as [|? i' ? [|? ?] R1 R2]; subst; [|inversion R2]. cbn [with_new_children] in *.
      inversion H; subst; [eapply returns_grid|eapply Hother]; eauto.
    - inversion Hr; subst. exact H.
    - cbn [with_new_children] in Eq. subst q. inversion H; subst. eapply Hother; eauto.
  Qed.

  Lemma part_trans : forall p c, In c (children p) -> forall q, part_of_plan q c -> part_of_plan q p.
  Proof. intros p c Hc q H. eapply part_child; eauto. Qed.

  Lemma child_consistent : forall p c, In c (children p) -> consistent p -> consistent c.
  Proof. intros p c Hc H q Hq. apply H. now apply (part_trans p c). Qed.
  Lemma child_safe : forall p c, In c (children p) -> safe_aggregates suits p -> safe_aggregates suits c.
  Proof.
    intros p c Hc H mode s filters aggregates input schema files q Hq.
    apply (H mode s filters aggregates input schema files). now apply (part_trans p c).
  Qed.

  (** The new aggregates are not rewritten again. *)
  Lemma transform_source : forall n mode s g filters aggregates files,
    transform_down n (Aggregate_exec mode s g filters aggregates (Data_source files false))
    = Ok (Aggregate_exec mode s g filters aggregates (Data_source files false)).
  Proof. intros [|[|n]]; intros; reflexivity. Qed.

  Lemma rewrite_node_cases : forall p p', rewrite_node p = Ok p' ->
    p' = p \/ exists c q, children p = [c] /\ rewritten_child c = Ok q
                        /\ p' = with_new_children p [q].
  Proof.
    intros p p' H. unfold rewrite_node in H.
    destruct (children p) as [|c [|? ?]] eqn:Ec; try (injection H as <-; now left).
    destruct (rewritten_child c) as [q| |] eqn:Eq; try discriminate; injection H as <-;
      [right; exists c, q; auto|now left].
  Qed.

  Lemma transform_refines : forall n p p', consistent p -> safe_aggregates suits p ->
    transform_down n p = Ok p' -> refines p p'.
  Proof.
    induction n as [|n IH]; intros p p' Hc Hs H; cbn [transform_down] in H.
    - injection H as <-. apply refines_refl.
    - destruct (rewrite_node p) as [p1| |] eqn:E1; cbn [bind] in H; try discriminate.
      match type of H with (let? _ := ?a in _) = _ => destruct a as [inputs| |] eqn:E2 end;
        cbn [bind] in H; try discriminate. injection H as <-.
      destruct (rewrite_node_cases p p1 E1) as [->|(c & q & Ec & Eq & ->)].
      + apply refines_inputs.
        assert (X : forall l, (forall c, In c l -> In c (children p)) -> forall inputs,
          (fix all (l : list exec) : outcome (list exec) :=
             match l with
             | [] => Ok []
             | c :: l => let? c := transform_down n c in let? l := all l in Ok (c :: l)
             end) l = Ok inputs -> Forall2 refines l inputs).
        { clear E2 inputs. induction l as [|c l IHl]; intros Hin inputs E2.
          - injection E2 as <-. constructor.
          - destruct (transform_down n c) as [c'| |] eqn:Et; cbn [bind] in E2; try discriminate.
            match type of E2 with (let? _ := ?a in _) = _ => destruct a as [l'| |] eqn:E3 end;
              cbn [bind] in E2; try discriminate. injection E2 as <-.
            constructor; [|apply IHl; [intros x Hx; apply Hin; now right|reflexivity]].
            assert (Hcc : In c (children p)) by (apply Hin; now left).
            apply (IH c c'); [now apply (child_consistent p c)|now apply (child_safe p c)|exact Et]. }
        apply X; auto.
      + assert (Hcc : In c (children p)) by (rewrite Ec; now left).
        destruct (rewritten_ok c q (child_consistent p c Hcc Hc) (child_safe p c Hcc Hs) Eq)
          as (states & _ & Hq).
        destruct (described_inputs p [q] [] ltac:(rewrite Ec; reflexivity)) as (_ & _ & D3).
        rewrite D3 in E2. cbn beta iota in E2.
        destruct (rewritten_shape c q Eq) as (mode & name & filters & aggregates & aggregates' & input
          & schema & g & source & _ & _ & _ & _ & Cr & _ & Eq').
        destruct source as [| | | |files [|]|]; try discriminate Cr. rewrite Eq' in E2.
        rewrite transform_source in E2. cbn [bind] in E2. injection E2 as <-. rewrite <- Eq'.
        assert (Hp : refines p (with_new_children p [q])).
        { apply refines_inputs. rewrite Ec. constructor; [exact Hq|constructor]. }
        assert (Same : with_new_children (with_new_children p [q]) [q] = with_new_children p [q])
          by (destruct p; reflexivity).
        rewrite Same. exact Hp.
  Qed.
End Plans.

(** The rule does not panic. *)
Lemma rewritten_child_no_panic : forall p, consistent p -> rewritten_child p <> Panic.
Proof.
  intros p Hc H. destruct p as [mode s group filters aggregates input| | | | | ]; try discriminate.
  destruct (Hc _ (part_self _)) as (_ & _ & _).
  assert (X : forall s' grids, join_below input = Some (s', grids) ->
    try_new_aggregate_exec mode s group filters aggregates grids <> Panic).
  { intros s' grids J.
    assert (Hpart : part_of_plan (Sorted_join_exec s' grids)
              (Aggregate_exec mode s group filters aggregates input)).
    { destruct input as [| i |s1 grids1| | | ]; cbn [join_below] in J; try discriminate.
      - destruct i as [| |s1 grids1| | | ]; try discriminate. injection J as -> ->.
        eapply part_child; [left; reflexivity|]. eapply part_child; [left; reflexivity|]. constructor.
      - injection J as -> ->. eapply part_child; [left; reflexivity|]. constructor. }
    destruct (Hc _ Hpart) as (C1 & C2 & _). unfold try_new_aggregate_exec.
    destruct grids as [|g [|? ?]]; [now destruct (C2 s' [] eq_refl)| |discriminate].
    destruct (C1 s' [g] g eq_refl (or_introl eq_refl)) as (i & ->). cbn [children].
    destruct (can_rewrite i); [|discriminate].
    assert (Y : rewrite_aggregates aggregates <> Panic).
    { clear. induction aggregates as [|a l IH]; [discriminate|]. cbn [rewrite_aggregates].
      assert (Z : rewrite_aggregate a <> Panic).
      { unfold rewrite_aggregate. repeat destruct (String.eqb _ _); discriminate. }
      destruct (rewrite_aggregate a); cbn [bind]; [|discriminate|congruence].
      destruct (rewrite_aggregates l); cbn [bind]; [discriminate|discriminate|congruence]. }
    destruct (rewrite_aggregates aggregates); cbn [bind]; [discriminate|discriminate|congruence]. }
  cbn [rewritten_child] in H.
  destruct s as [|(name, t) [|? ?]]; try discriminate; [|destruct t; discriminate].
  destruct t; try discriminate. destruct group; try discriminate.
  destruct (forallb negb filters); [|discriminate].
  destruct input as [| i |s1 grids1| | | ]; try discriminate.
  - destruct i as [| |s1 grids1| | | ]; try discriminate. now apply (X s1 grids1).
  - now apply (X s1 grids1).
Qed.

Lemma optimize_total : forall p, consistent p -> exists p', optimize p = Ok p'.
Proof.
  intros p. unfold optimize. generalize (levels p). intros n. revert p.
  induction n as [|n IH]; intros p Hc; [now exists p|]. cbn [transform_down].
  assert (X : forall l, (forall c, In c l -> consistent c) -> exists inputs,
    (fix all (l : list exec) : outcome (list exec) :=
       match l with
       | [] => Ok []
       | c :: l => let? c := transform_down n c in let? l := all l in Ok (c :: l)
       end) l = Ok inputs).
  { induction l as [|c l IHl]; intros Hin; [now exists []|].
    destruct (IH c (Hin c (or_introl eq_refl))) as (c' & ->). cbn [bind].
    destruct (IHl (fun x Hx => Hin x (or_intror Hx))) as (l' & ->). cbn [bind]. eauto. }
  assert (Hn : exists p1, rewrite_node p = Ok p1).
  { unfold rewrite_node. destruct (children p) as [|c [|? ?]] eqn:Ec; eauto.
    assert (Hcc : In c (children p)) by (rewrite Ec; now left).
    pose proof (rewritten_child_no_panic c (child_consistent p c Hcc Hc)) as N.
    destruct (rewritten_child c); eauto. congruence. }
  destruct Hn as (p1 & E1). rewrite E1. cbn [bind].
  destruct (rewrite_node_cases p p1 E1) as [->|(c & q & Ec & Eq & ->)].
  - destruct (X (children p)) as (inputs & ->); [|cbn [bind]; eauto].
    intros c Hcc. now apply (child_consistent p c).
  - assert (D3 : children (with_new_children p [q]) = [q])
      by (destruct p; try reflexivity; discriminate Ec).
    rewrite D3. cbn beta iota.
    destruct (rewritten_shape c q Eq) as (mode & name & filters & aggregates & aggregates' & input
      & schema & g & source & _ & _ & _ & _ & Cr & _ & Eq').
    destruct source as [| | | |files [|]|]; try discriminate Cr. rewrite Eq'.
    rewrite transform_source. cbn [bind]. eauto.
Qed.

Theorem optimize_refines : forall (R : Type) P
    (other : exec -> list (outcome (result R)) -> outcome (result R) -> Prop) p p' r,
  good_log2 P -> ties_first P -> consistent p -> safe_aggregates (suitable P) p ->
  optimize p = Ok p' -> returns P correct other p' r -> returns P correct other p r.
Proof.
  intros R P other p p' r HP HT Hc Hs E.
  now apply (transform_refines P correct (suitable P) (suitable_good P HP HT) other (levels p) p p').
Qed.
Theorem optimize_refines_within : forall (R : Type) P size latest e
    (other : exec -> list (outcome (result R)) -> outcome (result R) -> Prop) p p' r,
  good_log2 P -> ties_first P ->
  (latest <= 2 ^ 52)%Z -> (size <= 2 ^ 96)%R -> (0 <= e)%R ->
  consistent p -> safe_aggregates (suitable_within P size latest e) p ->
  optimize p = Ok p' -> returns P (correct_within e) other p' r -> returns P (correct_within e) other p r.
Proof.
  intros R P size latest e other p p' r HP HT HL HS HK Hc Hs E.
  now apply (transform_refines P _ _ (within_good P size latest e HP HT HL HS HK) other (levels p) p p').
Qed.
Theorem rewritten_suitable : forall (R : Type) P, good_log2 P -> ties_first P ->
  forall (other : exec -> list (outcome (result R)) -> outcome (result R) -> Prop) p q,
  consistent p -> safe_aggregates (suitable P) p -> rewritten_child p = Ok q ->
  exists states, returns P correct other q (Ok (States states))
    /\ forall r, returns P correct other q r -> returns P correct other p r.
Proof.
  intros R P HP HT other p q. exact (rewritten_ok P correct (suitable P) (suitable_good P HP HT) other p q).
Qed.
Theorem rewritten_within : forall (R : Type) P size latest e, good_log2 P -> ties_first P ->
  (latest <= 2 ^ 52)%Z -> (size <= 2 ^ 96)%R -> (0 <= e)%R ->
  forall (other : exec -> list (outcome (result R)) -> outcome (result R) -> Prop) p q,
  consistent p -> safe_aggregates (suitable_within P size latest e) p -> rewritten_child p = Ok q ->
  exists states, returns P (correct_within e) other q (Ok (States states))
    /\ forall r, returns P (correct_within e) other q r -> returns P (correct_within e) other p r.
Proof.
  intros R P size latest e HP HT HL HS HK other p q.
  exact (rewritten_ok P _ _ (within_good P size latest e HP HT HL HS HK) other p q).
Qed.
