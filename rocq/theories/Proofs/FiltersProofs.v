(** Proofs about the rewriting of filters. *)
From Coq Require Import ZArith Bool String List Lia Sorting.Sorted.
From Verif Require Import Model.Base Model.Filters Spec.FiltersSpec Model.Float Model.Segments
  Spec.TimestampsSpec Spec.SegmentsSpec.
Import ListNotations.
Open Scope Z_scope.
Open Scope list_scope.

(** Induction over expressions including the arguments of functions. *)
Section Expr_induction.
  Variable Q : expr -> Prop.
  Hypothesis H_column : forall n, Q (Column n).
  Hypothesis H_literal : forall v, Q (Literal v).
  Hypothesis H_binary : forall l op r, Q l -> Q r -> Q (Binary l op r).
  Hypothesis H_apply : forall id l, Forall Q l -> Q (Apply id l).
  Fixpoint expr_induction (e : expr) : Q e :=
    match e with
    | Column n => H_column n
    | Literal v => H_literal v
    | Binary l op r => H_binary l op r (expr_induction l) (expr_induction r)
    | Apply id l =>
        H_apply id l ((fix all (l : list expr) : Forall Q l :=
                         match l with
                         | [] => Forall_nil Q
                         | e :: l => Forall_cons e (expr_induction e) (all l)
                         end) l)
    end.
End Expr_induction.

Lemma constant_same : forall F e r1 r2, constant e = true -> evaluate F r1 e = evaluate F r2 e.
Proof.
  intros F e r1 r2. induction e as [n|v|l op r IHl IHr|id l IH] using expr_induction;
    cbn [constant evaluate]; intro H.
  - discriminate.
  - reflexivity.
  - apply andb_prop in H. destruct H as [Hl Hr]. rewrite IHl, IHr by assumption. reflexivity.
  - enough (E : forall l, Forall (fun e => constant e = true -> evaluate F r1 e = evaluate F r2 e) l ->
        forallb constant l = true ->
        (fix all (l : list expr) : option (list value) :=
           match l with
           | [] => Some []
           | e :: l => match evaluate F r1 e, all l with
                       | Some v, Some vs => Some (v :: vs)
                       | _, _ => None
                       end
           end) l
        = (fix all (l : list expr) : option (list value) :=
           match l with
           | [] => Some []
           | e :: l => match evaluate F r2 e, all l with
                       | Some v, Some vs => Some (v :: vs)
                       | _, _ => None
                       end
           end) l) by (rewrite (E l IH H); reflexivity).
    clear. intros l. induction l as [|e l IHl]; intros HF H; [reflexivity|].
    apply Forall_cons_iff in HF. destruct HF as [He HF].
    cbn [forallb] in H. apply andb_prop in H. destruct H as [Hc H].
    rewrite (He Hc), (IHl HF H). reflexivity.
Qed.

Lemma and_satisfied : forall F r a b,
  satisfies F r (Binary a And b) <-> satisfies F r a /\ satisfies F r b.
Proof.
  intros F r a b. unfold satisfies. cbn [evaluate].
  destruct (evaluate F r a) as [[t|[|]| |v|s]|]; destruct (evaluate F r b) as [[t'|[|]| |v'|s']|];
    cbn [operate and3]; split; intros H; try discriminate; try (destruct H; discriminate);
    try (split; reflexivity); try reflexivity.
Qed.

Lemma fold_satisfied : forall F r l e,
  satisfies F r (fold_left (fun e f => Binary e And f) l e)
  <-> satisfies F r e /\ Forall (satisfies F r) l.
Proof.
  intros F r l. induction l as [|f l IH]; intros e; cbn [fold_left].
  - split; [intro H; split; [exact H|constructor]|tauto].
  - rewrite IH, and_satisfied, Forall_cons_iff. tauto.
Qed.

Lemma conjunction_passes : forall F r l, passes F r (conjunction l) <-> Forall (satisfies F r) l.
Proof.
  intros F r [|e l]; cbn [conjunction passes].
  - split; [constructor|trivial].
  - rewrite fold_satisfied, Forall_cons_iff. tauto.
Qed.

(** The rewriting of one filter. *)
Definition sound (F : functions) (s : schema) (filter p g : expr) : Prop :=
  forall time start_time end_time point seg grid,
    start_time <= time <= end_time ->
    table_row s time point -> segment_row start_time end_time seg -> grid_row time grid ->
    (satisfies F point filter -> satisfies F seg p)
    /\ (satisfies F grid g <-> satisfies F point filter).

Lemma times_monotone : forall F op v a b,
  match op with Gt | GtEq => a <= b | Lt | LtEq => b <= a | _ => False end ->
  operate F op (Time a) v = Some (Boolean true) -> operate F op (Time b) v = Some (Boolean true).
Proof.
  intros F op v a b Hop H.
  destruct op; try contradiction; destruct v; cbn in H |- *; try discriminate; injection H as H;
    f_equal; f_equal; lia.
Qed.

Lemma times_monotone_right : forall F op v a b,
  match op with Gt | GtEq => b <= a | Lt | LtEq => a <= b | _ => False end ->
  operate F op v (Time a) = Some (Boolean true) -> operate F op v (Time b) = Some (Boolean true).
Proof.
  intros F op v a b Hop H.
  destruct op; try contradiction; destruct v; cbn in H |- *; try discriminate; injection H as H;
    f_equal; f_equal; lia.
Qed.

Lemma satisfies_left : forall F r name op e t,
  r name = Some (Time t) ->
  (satisfies F r (Binary (Column name) op e)
   <-> exists v, evaluate F r e = Some v /\ operate F op (Time t) v = Some (Boolean true)).
Proof.
  intros F r name op e t H. unfold satisfies. cbn [evaluate]. rewrite H.
  destruct (evaluate F r e) as [v|].
  - split; [intro E; exists v; tauto|intros (v' & E & H'); injection E as <-; exact H'].
  - split; [discriminate|intros (v' & E & _); discriminate].
Qed.

Lemma satisfies_right : forall F r name op e t,
  r name = Some (Time t) ->
  (satisfies F r (Binary e op (Column name))
   <-> exists v, evaluate F r e = Some v /\ operate F op v (Time t) = Some (Boolean true)).
Proof.
  intros F r name op e t H. unfold satisfies. cbn [evaluate]. rewrite H.
  destruct (evaluate F r e) as [v|].
  - split; [intro E; exists v; tauto|intros (v' & E & H'); injection E as <-; exact H'].
  - split; [discriminate|intros (v' & E & _); discriminate].
Qed.

Lemma rewrite_left_sound : forall F s name op right p g,
  field_with_name s name = Some Timestamp_type -> constant right = true ->
  rewrite_filter s (Binary (Column name) op right) = Ok (Some (p, g)) ->
  sound F s (Binary (Column name) op right) p g.
Proof.
  intros F s name op right p g Hname Hc H time st en point seg grid Ht Hp [Hs1 Hs2] Hg.
  assert (Hp' := Hp name Hname). unfold grid_row in Hg.
  cbn [rewrite_filter] in H. rewrite Hname in H.
  assert (Egp := constant_same F right grid point Hc).
  assert (Esp := constant_same F right seg point Hc).
  rewrite (satisfies_left F point name op right time Hp').
  destruct op; try discriminate; injection H as <- <-;
    (split; [|rewrite (satisfies_left F grid _ _ right time Hg), Egp; reflexivity]);
    intros (v & Ev & H).
  - apply and_satisfied.
    rewrite (satisfies_left F seg _ _ right st Hs1), (satisfies_left F seg _ _ right en Hs2), Esp.
    destruct v; cbn in H; try discriminate. injection H as H.
    split; exists (Time t); (split; [exact Ev|cbn; f_equal; f_equal; lia]).
  - rewrite (satisfies_left F seg _ _ right st Hs1), Esp. exists v. split; [exact Ev|].
    exact (times_monotone F Lt v time st ltac:(cbn; lia) H).
  - rewrite (satisfies_left F seg _ _ right st Hs1), Esp. exists v. split; [exact Ev|].
    exact (times_monotone F LtEq v time st ltac:(cbn; lia) H).
  - rewrite (satisfies_left F seg _ _ right en Hs2), Esp. exists v. split; [exact Ev|].
    exact (times_monotone F Gt v time en ltac:(cbn; lia) H).
  - rewrite (satisfies_left F seg _ _ right en Hs2), Esp. exists v. split; [exact Ev|].
    exact (times_monotone F GtEq v time en ltac:(cbn; lia) H).
Qed.

Lemma rewrite_right_sound : forall F s name op left p g,
  field_with_name s name = Some Timestamp_type -> constant left = true -> op <> Eq ->
  rewrite_filter s (Binary left op (Column name)) = Ok (Some (p, g)) ->
  sound F s (Binary left op (Column name)) p g.
Proof.
  intros F s name op left p g Hname Hc Hop H time st en point seg grid Ht Hp [Hs1 Hs2] Hg.
  assert (Hp' := Hp name Hname). unfold grid_row in Hg.
  assert (Egp := constant_same F left grid point Hc).
  assert (Esp := constant_same F left seg point Hc).
  rewrite (satisfies_right F point name op left time Hp').
  assert (E : Ok match op with
                 | Gt | GtEq => Some (Binary left op (Column "start_time"),
                                      Binary left op (Column "timestamp"))
                 | Lt | LtEq => Some (Binary left op (Column "end_time"),
                                      Binary left op (Column "timestamp"))
                 | Eq => Some (Binary (Binary left LtEq (Column "start_time")) And
                                      (Binary left GtEq (Column "end_time")),
                               Binary (Column name) op (Column "timestamp"))
                 | _ => None
                 end = Ok (Some (p, g))).
  { rewrite <- H. destruct left; cbn [rewrite_filter]; rewrite ?Hname; try reflexivity.
    cbn [constant] in Hc. discriminate. }
  destruct op; try discriminate; try congruence; injection E as <- <-;
    (split; [|rewrite (satisfies_right F grid _ _ left time Hg), Egp; reflexivity]);
    intros (v & Ev & H').
  - rewrite (satisfies_right F seg _ _ left en Hs2), Esp. exists v. split; [exact Ev|].
    exact (times_monotone_right F Lt v time en ltac:(cbn; lia) H').
  - rewrite (satisfies_right F seg _ _ left en Hs2), Esp. exists v. split; [exact Ev|].
    exact (times_monotone_right F LtEq v time en ltac:(cbn; lia) H').
  - rewrite (satisfies_right F seg _ _ left st Hs1), Esp. exists v. split; [exact Ev|].
    exact (times_monotone_right F Gt v time st ltac:(cbn; lia) H').
  - rewrite (satisfies_right F seg _ _ left st Hs1), Esp. exists v. split; [exact Ev|].
    exact (times_monotone_right F GtEq v time st ltac:(cbn; lia) H').
Qed.

(** A filter is rewritten exactly if it is a time filter. *)
Lemma rewritten_time_filter : forall s filter r, rewrite_filter s filter = Ok r ->
  (time_filter s filter = true <-> r <> None).
Proof.
  intros s filter r H.
  assert (T : forall (b : bool), b = false -> r = None -> (b = true <-> r <> None))
    by (intros b Hb Hr; rewrite Hb, Hr; split; congruence).
  destruct filter as [n|v|left op right|id l]; cbn [rewrite_filter] in H;
    try (injection H as <-; apply T; reflexivity).
  cbn [time_filter].
  assert (N : forall n, match left with Column _ => False | _ => True end -> right = Column n ->
     time_filter s (Binary left op right)
     = ordering op && is_timestamp_column s (Column n)).
  { intros n Hl ->. cbn [time_filter].
    destruct left; try contradiction; cbn [is_timestamp_column is_column negb orb andb];
      reflexivity. }
  destruct left as [n|v|l1 op1 r1|id l].
  - cbn [is_timestamp_column is_column negb andb] in *. rewrite orb_false_r.
    destruct (field_with_name s n) as [[| |]|]; try discriminate; injection H as <-;
      rewrite ?andb_false_r, ?andb_true_r; destruct op; cbn [ordering]; split; congruence.
  - destruct right as [n| | |]; cbn [is_timestamp_column is_column negb andb orb] in *;
      try (injection H as <-; apply T; [apply andb_false_r|reflexivity]).
    destruct (field_with_name s n) as [[| |]|]; try discriminate; injection H as <-;
      rewrite ?andb_false_r, ?andb_true_r; destruct op; cbn [ordering]; split; congruence.
  - destruct right as [n| | |]; cbn [is_timestamp_column is_column negb andb orb] in *;
      try (injection H as <-; apply T; [apply andb_false_r|reflexivity]).
    destruct (field_with_name s n) as [[| |]|]; try discriminate; injection H as <-;
      rewrite ?andb_false_r, ?andb_true_r; destruct op; cbn [ordering]; split; congruence.
  - destruct right as [n| | |]; cbn [is_timestamp_column is_column negb andb orb] in *;
      try (injection H as <-; apply T; [apply andb_false_r|reflexivity]).
    destruct (field_with_name s n) as [[| |]|]; try discriminate; injection H as <-;
      rewrite ?andb_false_r, ?andb_true_r; destruct op; cbn [ordering]; split; congruence.
Qed.

Lemma rewrite_sound : forall F s filter p g,
  supported s filter = true -> rewrite_filter s filter = Ok (Some (p, g)) ->
  sound F s filter p g.
Proof.
  intros F s filter p g Hs H. destruct filter as [n|v|left op right|id l]; try discriminate.
  cbn [supported] in Hs. apply orb_prop in Hs. destruct Hs as [Hs|Hs].
  - apply andb_prop in Hs. destruct Hs as [Hl Hr].
    destruct left as [n| | |]; try discriminate. cbn [is_timestamp_column] in Hl.
    destruct (field_with_name s n) as [[| |]|] eqn:E; try discriminate.
    exact (rewrite_left_sound F s n op right p g E Hr H).
  - apply andb_prop in Hs. destruct Hs as [Hs Hop]. apply andb_prop in Hs. destruct Hs as [Hl Hr].
    destruct right as [n| | |]; try discriminate. cbn [is_timestamp_column] in Hr.
    destruct (field_with_name s n) as [[| |]|] eqn:E; try discriminate.
    apply (rewrite_right_sound F s n op left p g E Hl); [|exact H].
    intros ->. discriminate.
Qed.

Lemma filters_sound : forall F s filters p g,
  (forall f, In f filters -> time_filter s f = true -> supported s f = true) ->
  rewrite_and_combine_filters s filters = Ok (p, g) ->
  forall time start_time end_time point seg grid,
    start_time <= time <= end_time ->
    table_row s time point -> segment_row start_time end_time seg -> grid_row time grid ->
    ((forall f, In f filters -> time_filter s f = true -> satisfies F point f) -> passes F seg p)
    /\ (passes F grid g
        <-> forall f, In f filters -> time_filter s f = true -> satisfies F point f).
Proof.
  intros F s filters p g Hsup H time st en point seg grid Ht Hp Hs Hg.
  unfold rewrite_and_combine_filters in H.
  destruct (rewrite_filters s filters) as [[ps gs]| |] eqn:E; cbn [bind] in H; try discriminate.
  injection H as <- <-. rewrite !conjunction_passes.
  revert ps gs E. induction filters as [|f filters IH]; intros ps gs E; cbn [rewrite_filters] in E.
  - injection E as <- <-.
    split; [intros _; constructor|split; [intros _ f []|intros _; constructor]].
  - destruct (rewrite_filter s f) as [r| |] eqn:Ef; cbn [bind] in E; try discriminate.
    destruct (rewrite_filters s filters) as [[ps' gs']| |] eqn:E'; cbn [bind] in E; try discriminate.
    assert (Hsup' : forall f, In f filters -> time_filter s f = true -> supported s f = true)
      by (intros f' Hf'; apply Hsup; right; exact Hf').
    destruct (IH Hsup' ps' gs' eq_refl) as [IH1 IH2].
    assert (Htf := rewritten_time_filter s f r Ef).
    destruct r as [[p g]|]; injection E as <- <-.
    + assert (Tf : time_filter s f = true) by (apply Htf; discriminate).
      destruct (rewrite_sound F s f p g (Hsup f (or_introl eq_refl) Tf) Ef time st en point seg grid
                  Ht Hp Hs Hg) as [H1 H2].
      split.
      * intros Hall. constructor; [apply H1, Hall; [left; reflexivity|exact Tf]|].
        apply IH1. intros f' Hf'. apply Hall. right. exact Hf'.
      * rewrite Forall_cons_iff, IH2, H2. split.
        -- intros [Hf Hall] f' [<-|Hf'] T; [exact Hf|exact (Hall f' Hf' T)].
        -- intros Hall. split; [apply Hall; [left; reflexivity|exact Tf]|].
           intros f' Hf'. apply Hall. right. exact Hf'.
    + assert (Tf : time_filter s f = false).
      { destruct (time_filter s f) eqn:Tf; [|reflexivity].
        exfalso. apply (proj1 Htf); reflexivity. }
      split.
      * intros Hall. apply IH1. intros f' Hf'. apply Hall. right. exact Hf'.
      * rewrite IH2. split.
        -- intros Hall f' [<-|Hf'] T; [congruence|exact (Hall f' Hf' T)].
        -- intros Hall f' Hf'. apply Hall. right. exact Hf'.
Qed.

(** Matching segments are kept if the data point satisfies all filters. *)
Lemma filters_complete : forall F s filters p g,
  (forall f, In f filters -> time_filter s f = true -> supported s f = true) ->
  rewrite_and_combine_filters s filters = Ok (p, g) ->
  forall time start_time end_time point seg grid,
    start_time <= time <= end_time ->
    table_row s time point -> segment_row start_time end_time seg -> grid_row time grid ->
    ((forall f, In f filters -> satisfies F point f) -> passes F seg p /\ passes F grid g)
    /\ (passes F grid g
        <-> forall f, In f filters -> time_filter s f = true -> satisfies F point f).
Proof.
  intros F s filters p g Hsup H time st en point seg grid Ht Hp Hs Hg.
  destruct (filters_sound F s filters p g Hsup H time st en point seg grid Ht Hp Hs Hg) as [H1 H2].
  split; [|exact H2]. intros Hall. split.
  - apply H1. intros f Hf _. exact (Hall f Hf).
  - apply H2. intros f Hf _. exact (Hall f Hf).
Qed.

(** Segments contain the timestamps of their data points. *)
Lemma last_sorted : forall l t, StronglySorted Z.lt l -> In t l -> t <= last l 0.
Proof.
  induction l as [|a l IH]; intros t Hs Ht; [contradiction|].
  apply StronglySorted_inv in Hs. destruct Hs as [Hs Ha].
  destruct l as [|b l]; [destruct Ht as [<-|[]]; cbn; lia|].
  change (last (a :: b :: l) 0) with (last (b :: l) 0).
  destruct Ht as [<-|Ht]; [|exact (IH t Hs Ht)].
  rewrite Forall_forall in Ha. specialize (Ha b (or_introl eq_refl)).
  specialize (IH b Hs (or_introl eq_refl)). lia.
Qed.

Lemma covers_times : forall s points time v, covers s points ->
  strictly_increasing (map fst points) -> In (time, v) points ->
  sg_start_time s <= time <= sg_end_time s.
Proof.
  intros s points time v Hc Hs Hin. destruct Hc as (_ & Est & Een & _). rewrite Est, Een.
  assert (Ht : In time (map fst points)) by (apply in_map_iff; exists (time, v); tauto).
  split; [|exact (last_sorted _ _ Hs Ht)].
  unfold first_timestamp. destruct (map fst points) as [|a l]; [contradiction|]. cbn [hd].
  apply StronglySorted_inv in Hs. destruct Hs as [_ Ha]. rewrite Forall_forall in Ha.
  destruct Ht as [<-|Ht]; [lia|]. specialize (Ha time Ht). lia.
Qed.

Lemma compressed_filters : forall F sch filters p g,
  (forall f, In f filters -> time_filter sch f = true -> supported sch f = true) ->
  rewrite_and_combine_filters sch filters = Ok (p, g) ->
  forall s points time v point seg,
    covers s points -> strictly_increasing (map fst points) -> In (time, v) points ->
    table_row sch time point -> segment_row (sg_start_time s) (sg_end_time s) seg ->
    (forall f, In f filters -> satisfies F point f) -> passes F seg p.
Proof.
  intros F sch filters p g Hsup H s points time v point seg Hc Hs Hin Hp Hseg Hall.
  assert (Ht := covers_times s points time v Hc Hs Hin).
  refine (proj1 (filters_sound F sch filters p g Hsup H time _ _ point seg
    (fun _ => Some (Time time)) Ht Hp Hseg eq_refl) _).
  intros f Hf _. exact (Hall f Hf).
Qed.

(** Panics. *)
Lemma filter_panics : forall s filter,
  rewrite_filter s filter = Panic
  <-> exists name, In name (operand_columns filter) /\ field_with_name s name = None.
Proof.
  intros s filter.
  assert (E : forall r n, (match field_with_name s n with
                           | None => Panic
                           | Some Timestamp_type => Ok r
                           | Some _ => Ok None
                           end : outcome (option (expr * expr))) = Panic
                          <-> exists name, In name [n] /\ field_with_name s name = None).
  { intros r n. split.
    - intros H. exists n. split; [left; reflexivity|].
      destruct (field_with_name s n) as [[| |]|]; try discriminate; reflexivity.
    - intros (n' & [<-|[]] & H). rewrite H. reflexivity. }
  assert (N : (Ok None : outcome (option (expr * expr))) = Panic
              <-> exists name, In name [] /\ field_with_name s name = None)
    by (split; [discriminate|intros (n & [] & _)]).
  destruct filter as [n|v|left op right|id l]; cbn [rewrite_filter operand_columns]; try exact N.
  destruct left as [n|v|l1 op1 r1|id l]; [apply E|..];
    (destruct right as [n'|v'|l1' op1' r1'|id' l']; [apply E|exact N|exact N|exact N]).
Qed.

Lemma rewrite_filter_err : forall s filter, rewrite_filter s filter <> Err.
Proof.
  intros s filter H. destruct filter as [n|v|left op right|id l]; cbn [rewrite_filter] in H;
    try discriminate.
  destruct left as [n|v|l1 op1 r1|id l];
    [|destruct right as [n| | |]; try discriminate..];
    destruct (field_with_name s n) as [[| |]|]; discriminate.
Qed.

Lemma filters_panic : forall s filters,
  rewrite_and_combine_filters s filters = Panic
  <-> exists f name, In f filters /\ In name (operand_columns f) /\ field_with_name s name = None.
Proof.
  intros s filters. unfold rewrite_and_combine_filters.
  assert (E : rewrite_filters s filters <> Err /\ (rewrite_filters s filters = Panic
     <-> exists f name, In f filters /\ In name (operand_columns f)
                        /\ field_with_name s name = None)).
  { induction filters as [|f filters [IH1 IH2]]; cbn [rewrite_filters].
    - split; [discriminate|]. split; [discriminate|intros (f & n & [] & _)].
    - assert (Hp := filter_panics s f). assert (He := rewrite_filter_err s f).
      destruct (rewrite_filter s f) as [r| |]; cbn [bind]; [|congruence|].
      + destruct (rewrite_filters s filters) as [[ps gs]| |]; cbn [bind]; [|congruence|].
        * split; [discriminate|]. split; [discriminate|].
          intros (f' & n & [<-|Hf] & Hn).
          -- exfalso. assert (P : @Ok (option (expr * expr)) r = Panic) by (apply Hp; exists n; exact Hn).
             discriminate.
          -- exfalso. assert (P : Ok (ps, gs) = Panic) by (apply IH2; exists f', n; tauto).
             discriminate.
        * split; [discriminate|]. split; [|reflexivity]. intros _.
          destruct (proj1 IH2 eq_refl) as (f' & n & Hf & Hn).
          exists f', n. split; [right; exact Hf|exact Hn].
      + split; [discriminate|]. split; [|reflexivity]. intros _.
        destruct (proj1 Hp eq_refl) as (n & Hn). exists f, n. split; [left; reflexivity|exact Hn]. }
  destruct E as [E1 E2].
  destruct (rewrite_filters s filters) as [[ps gs]| |]; cbn [bind].
  - split; [discriminate|]. intros H. apply E2 in H. discriminate.
  - congruence.
  - split; [intros _; exact (proj1 E2 eq_refl)|reflexivity].
Qed.

(** Witnesses. *)
Definition no_functions : functions :=
  {| apply := fun _ _ => None; apply_operator := fun _ _ _ => None |}.
Definition point_at (t : Z) : row := fun _ => Some (Time t).
Definition segment_at (a b : Z) : row :=
  fun n => if String.eqb n "start_time" then Some (Time a)
           else if String.eqb n "end_time" then Some (Time b) else None.

Lemma equal_right_wrong : exists s filter p g,
  rewrite_and_combine_filters s [filter] = Ok (Some p, Some g)
  /\ exists F time start_time end_time point seg,
       start_time <= time <= end_time /\ table_row s time point
       /\ segment_row start_time end_time seg
       /\ satisfies F point filter /\ ~ satisfies F seg p
       /\ (forall grid, grid "time"%string = None -> evaluate F grid g = None).
Proof.
  exists [("time"%string, Timestamp_type); ("f"%string, Field_type)],
    (Binary (Literal (Time 5)) Eq (Column "time")).
  eexists. eexists. split; [reflexivity|].
  exists no_functions, 5, 0, 10, (point_at 5), (segment_at 0 10).
  split; [lia|]. split; [intros n _; reflexivity|]. split; [split; reflexivity|].
  split; [reflexivity|]. split; [discriminate|].
  intros grid H. cbn. rewrite H. reflexivity.
Qed.

Lemma equal_right_kept : exists s filter p g,
  rewrite_and_combine_filters s [filter] = Ok (Some p, Some g)
  /\ exists F time point grid,
       table_row s time point /\ grid_row time grid
       /\ ~ satisfies F point filter /\ satisfies F grid g.
Proof.
  exists [("timestamp"%string, Timestamp_type); ("f"%string, Field_type)],
    (Binary (Literal (Time 5)) Eq (Column "timestamp")).
  eexists. eexists. split; [reflexivity|].
  exists no_functions, 6, (point_at 6), (point_at 6).
  split; [intros n _; reflexivity|]. split; [reflexivity|]. split; [discriminate|reflexivity].
Qed.

Lemma field_with_name_none : forall s name, ~ In name (map fst s) -> field_with_name s name = None.
Proof.
  induction s as [|[n t] s IH]; intros name H; [reflexivity|]. cbn [field_with_name map fst] in *.
  destruct (String.eqb n name) eqn:E.
  - apply String.eqb_eq in E. exfalso. apply H. left. exact E.
  - apply IH. intro Hin. apply H. right. exact Hin.
Qed.

Lemma generated_filter_panics : forall columns name op e,
  ~ In name (map fst (stored_schema columns)) ->
  scan_filters columns [Binary (Column name) op e] = Panic.
Proof.
  intros columns name op e H. unfold scan_filters. apply filters_panic.
  exists (Binary (Column name) op e), name. split; [left; reflexivity|].
  split; [left; reflexivity|]. exact (field_with_name_none _ _ H).
Qed.

Lemma filters_example :
  let s := [("tag", Tag_type); ("time", Timestamp_type); ("f", Field_type)]%string in
  let filters := [Binary (Column "time") GtEq (Literal (Time 5));
                  Binary (Literal (Time 9)) Gt (Column "time");
                  Binary (Column "f") Eq (Literal (Value 1))]%string in
  (forall f, In f filters -> time_filter s f = true -> supported s f = true)
  /\ (forall f name, In f filters -> In name (operand_columns f) -> field_with_name s name <> None)
  /\ rewrite_and_combine_filters s filters
     = Ok (Some (Binary (Binary (Column "end_time") GtEq (Literal (Time 5))) And
                        (Binary (Literal (Time 9)) Gt (Column "start_time"))),
           Some (Binary (Binary (Column "timestamp") GtEq (Literal (Time 5))) And
                        (Binary (Literal (Time 9)) Gt (Column "timestamp"))))%string.
Proof.
  split; [|split; [|reflexivity]].
  - intros f [<-|[<-|[<-|[]]]]; intros; (reflexivity || discriminate).
  - intros f n [<-|[<-|[<-|[]]]] [<-|[]]; discriminate.
Qed.
