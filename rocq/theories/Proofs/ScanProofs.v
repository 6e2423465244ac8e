(** Planning and computing the columns of a query. *)
From Coq Require Import ZArith Bool String List Lia Permutation Sorted.
From Verif Require Import Model.Base Model.ErrorBound Model.Filters Model.Streams Model.Table
  Model.Scan Spec.ErrorBoundSpec Spec.FiltersSpec Spec.StreamsSpec Spec.TableSpec Spec.ScanSpec
  Proofs.TableProofs Proofs.DefinitionProofs Proofs.StoredDefinitionProofs Proofs.JoinStreamProofs.
Import ListNotations.
Open Scope nat_scope.
Open Scope list_scope.

Lemma NoDup_snoc : forall {A} (l : list A) a, NoDup l -> ~ In a l -> NoDup (l ++ [a]).
Proof.
  intros A l a H N. induction H as [|b l Hb H IH]; cbn; [constructor; [intros []|constructor]|].
  constructor.
  - rewrite in_app_iff. cbn. intros [?|[<-|[]]]; [contradiction|]. apply N. now left.
  - apply IH. intros Hin. apply N. now right.
Qed.

(** The projection with the sources of generated columns. *)
Lemma extend_spec : forall sources projection, exists extra,
  extend projection sources = projection ++ extra
  /\ (forall i, In i extra -> In i sources)
  /\ (forall i, In i sources -> In i (projection ++ extra))
  /\ (NoDup projection -> NoDup (projection ++ extra)).
Proof.
  induction sources as [|s sources IH]; intros projection; cbn [extend].
  - exists []. rewrite app_nil_r. repeat split; [intros i []|intros i []|auto].
  - destruct (existsb (Nat.eqb s) projection) eqn:E.
    + destruct (IH projection) as (extra & E1 & E2 & E3 & E4). exists extra.
      split; [exact E1|]. split; [intros i H; right; auto|]. split; [|exact E4].
      intros i [<-|H]; [|auto]. apply existsb_exists in E. destruct E as (x & Hx & E).
      apply Nat.eqb_eq in E. subst x. apply in_or_app. now left.
    + destruct (IH (projection ++ [s])) as (extra & E1 & E2 & E3 & E4). exists (s :: extra).
      rewrite <- app_assoc in E1, E3. cbn [app] in E1, E3.
      split; [exact E1|]. split; [|split].
      * intros i [<-|H]; [now left|right; auto].
      * intros i [<-|H]; [|auto]. apply in_or_app. right. now left.
      * intros H. assert (X : NoDup ((projection ++ [s]) ++ extra)).
        { apply E4, NoDup_snoc; [exact H|]. intros Hin.
          assert (X : existsb (Nat.eqb s) projection = true).
          { apply existsb_exists. exists s. split; [exact Hin|apply Nat.eqb_refl]. }
          congruence. }
        now rewrite <- app_assoc in X.
Qed.

Lemma project_ok : forall columns projection, (forall i, In i projection -> i < length columns) ->
  exists cs, project columns projection = Ok cs
    /\ map Some cs = map (nth_error columns) projection.
Proof.
  intros columns projection. induction projection as [|i l IH]; intros H; cbn [project].
  - now exists [].
  - assert (Hi := H i (or_introl eq_refl)). apply nth_error_Some in Hi.
    destruct (nth_error columns i) as [c|] eqn:E; [|congruence].
    destruct IH as (cs & E1 & E2); [intros j Hj; apply H; now right|].
    rewrite E1. cbn [bind]. exists (c :: cs). split; [reflexivity|]. cbn [map]. now rewrite E, E2.
Qed.

(** Expressions: columns are found at their positions. *)
Section Expressions.
  Variable F : functions.
  Variable columns : list column.
  Variable values : row.
  Variable cells : list value.
  Hypothesis Hcells : forall name i, index_of columns name = Some i ->
    nth_error cells i = values name.

  Fixpoint size_of (e : expr) : nat :=
    match e with
    | Column _ | Literal _ => 1
    | Binary l _ r => S (size_of l + size_of r)
    | Apply _ arguments => S (list_sum (map size_of arguments))
    end.

  Lemma list_sum_le : forall (l : list expr) e, In e l -> size_of e <= list_sum (map size_of l).
  Proof.
    induction l as [|x l IH]; intros e H; [destruct H|].
    change (list_sum (map size_of (x :: l))) with (size_of x + list_sum (map size_of l)).
    destruct H as [->|H]; [lia|]. specialize (IH e H). lia.
  Qed.

  Lemma physical_size : forall n e, size_of e <= n ->
    (forall name, In name (names_in e) -> In name (map fst columns)) ->
    exists p, create_physical columns e = Ok p
      /\ evaluate_physical F cells p = evaluate F values e.
  Proof.
    induction n as [|n IH]; intros [name|v|l op r|id arguments] Hn Hin; cbn [size_of] in Hn; try lia;
      cbn [create_physical names_in] in *.
    - destruct (index_of columns name) as [i|] eqn:E.
      + eexists. split; [reflexivity|]. cbn. now apply Hcells.
      + apply index_of_none in E. destruct E. apply Hin. now left.
    - eexists. split; [reflexivity|]. reflexivity.
    - destruct (IH l) as (p & E1 & E2); [lia|intros x Hx; apply Hin, in_or_app; now left|].
      destruct (IH r) as (q & E3 & E4); [lia|intros x Hx; apply Hin, in_or_app; now right|].
      rewrite E1, E3. cbn [bind]. eexists. split; [reflexivity|].
      cbn [evaluate_physical evaluate]. now rewrite E2, E4.
    - assert (X : forall args, (forall e, In e args -> size_of e <= n) ->
        (forall name, In name (flat_map names_in args) -> In name (map fst columns)) ->
        exists ps,
          (fix all (l : list expr) : outcome (list physical) :=
             match l with
             | [] => Ok []
             | e :: l => let? p := create_physical columns e in let? ps := all l in Ok (p :: ps)
             end) args = Ok ps
          /\ (fix all (l : list physical) : option (list value) :=
                match l with
                | [] => Some []
                | e :: l => match evaluate_physical F cells e, all l with
                            | Some v, Some vs => Some (v :: vs)
                            | _, _ => None
                            end
                end) ps
             = (fix all (l : list expr) : option (list value) :=
                  match l with
                  | [] => Some []
                  | e :: l => match evaluate F values e, all l with
                              | Some v, Some vs => Some (v :: vs)
                              | _, _ => None
                              end
                  end) args).
      { induction args as [|e args IHa]; intros Hs Hn'; [exists []; split; reflexivity|].
        destruct (IH e) as (p & E1 & E2);
          [apply Hs; now left|intros x Hx; apply Hn'; cbn; apply in_or_app; now left|].
        destruct IHa as (ps & E3 & E4);
          [intros x Hx; apply Hs; now right|intros x Hx; apply Hn'; cbn; apply in_or_app; now right|].
        exists (p :: ps). rewrite E1. cbn [bind]. rewrite E3. split; [reflexivity|].
        now rewrite E2, E4. }
      destruct (X arguments) as (ps & E1 & E2).
      + intros e He. apply list_sum_le in He. lia.
      + exact Hin.
      + rewrite E1. cbn [bind]. eexists. split; [reflexivity|].
        cbn [evaluate_physical evaluate]. now rewrite E2.
  Qed.

  Lemma convert_ok : forall e, NoDup (map fst columns) ->
    (forall name, In name (names_in e) -> In name (map fst columns)) ->
    exists p, convert e columns = Ok p /\ evaluate_physical F cells p = evaluate F values e.
  Proof.
    intros e ND H. unfold convert. rewrite (proj2 (to_dfschema_ok columns _) (conj eq_refl ND)).
    cbn [bind]. now apply (physical_size (size_of e)).
  Qed.
End Expressions.

(** What is known about a valid table. *)
Section Table.
  Variable m : metadata.
  Hypothesis Hvalid : valid_table m.

  Lemma table_facts :
    length (generated_columns m) = length (query_schema m)
    /\ (forall i c, stored_at (generated_columns m) i -> nth_error (query_schema m) i = Some c ->
          In c (schema m))
    /\ (forall c, In c (schema m) -> exists i, stored_at (generated_columns m) i
          /\ nth_error (query_schema m) i = Some c)
    /\ NoDup (map fst (schema m))
    /\ (forall i g s, nth_error (generated_columns m) i = Some (Some g) ->
          In s (source_columns g) -> stored_at (generated_columns m) s)
    /\ (forall i t, type_at (query_schema m) i t ->
          t = Timestamp_us \/ t = Float32 \/ t = Utf8View)
    /\ (forall k, In k (field_column_indices m) <-> type_at (schema m) k Float32)
    /\ (forall name, In (name, Utf8View) (schema m) -> In name (tag_names m))
    /\ (exists i, stored_at (generated_columns m) i /\ type_at (query_schema m) i Float32).
  Proof.
    destruct Hvalid as [(bounds & H) ND HV HB HG].
    destruct (try_new_ok _ _ _ _ _ H) as (W & D & _ & _ & S1 & _).
    assert (L : length (generated_columns m) = length (query_schema m)) by apply W.
    split; [exact L|]. split; [|split; [|split; [|split; [|split; [|split; [|split]]]]]].
    - intros i c Hs Hc.
      apply (positions_stored _ _ _ _ D) in Hs.
      assert (X : In (Some c) (map Some (schema m))).
      { rewrite (schema_stored _ _ _ _ D). apply in_map_iff. now exists i. }
      apply in_map_iff in X. destruct X as (c' & E & X). now injection E as ->.
    - intros c Hc. apply (in_map Some) in Hc. rewrite (schema_stored _ _ _ _ D) in Hc.
      apply in_map_iff in Hc. destruct Hc as (i & E & Hi). exists i.
      split; [now apply (positions_stored _ _ _ _ D)|exact E].
    - rewrite S1, <- without_map. now apply without_NoDup.
    - exact (stored_sources _ _ _ W).
    - exact (known_types _ _ _ W).
    - exact (proj2 (field_indices _ _ _ _ D)).
    - intros name Hin. apply In_nth_error in Hin. destruct Hin as (k & Hk).
      unfold tag_names, columns_at. apply in_map_iff. exists (name, Utf8View). split; [reflexivity|].
      apply in_flat_map. exists k. split.
      + apply (proj2 (tag_indices _ _ _ _ D)). now exists name.
      + change (@nth_error column (schema m) k = Some (name, Utf8View)) in Hk. rewrite Hk. now left.
    - exact (some_field _ _ _ W).
  Qed.

  Definition is_stored (i : nat) : bool :=
    match nth_error (generated_columns m) i with Some None => true | _ => false end.
  Lemma is_stored_iff : forall i, is_stored i = true <-> stored_at (generated_columns m) i.
  Proof.
    intros i. unfold is_stored, stored_at. destruct (nth_error (generated_columns m) i) as [[]|];
      split; congruence.
  Qed.

  Definition column_at (i : nat) : column := nth i (query_schema m) (EmptyString, Float32).
  Lemma column_at_nth : forall i, i < length (query_schema m) ->
    nth_error (query_schema m) i = Some (column_at i).
  Proof. intros i H. apply nth_error_nth'. exact H. Qed.

  (** The columns that are joined. *)
  Lemma joined_columns_ok : forall l, (forall i, In i l -> i < length (query_schema m)) ->
    joined_columns m l = Ok (map column_at (filter is_stored l)).
  Proof.
    destruct table_facts as (L & _).
    induction l as [|i l IH]; intros H; [reflexivity|]. cbn [joined_columns filter].
    assert (Hi := H i (or_introl eq_refl)). unfold is_stored at 1.
    rewrite (column_at_nth i Hi).
    rewrite <- L in Hi. apply nth_error_Some in Hi.
    assert (IH' := IH (fun j Hj => H j (or_intror Hj))).
    destruct (nth_error (generated_columns m) i) as [[g|]|] eqn:E; [exact IH'| |congruence].
    rewrite IH'. reflexivity.
  Qed.

  Lemma find_unique : forall (columns : list column) c, NoDup (map fst columns) -> In c columns ->
    find (fun d => String.eqb (fst d) (fst c)) columns = Some c.
  Proof.
    induction columns as [|d columns IH]; intros c ND Hin; [destruct Hin|]. cbn [find map] in *.
    inversion ND as [|? ? N ND']; subst. destruct Hin as [->|Hin].
    - now rewrite String.eqb_refl.
    - destruct (String.eqb (fst d) (fst c)) eqn:E; [|now apply IH].
      apply String.eqb_eq in E. destruct N. rewrite E. now apply in_map.
  Qed.

  (** The value of a stored column. *)
  Definition stored_value (r : data_row) (i : nat) : value :=
    match value_in r (column_at i) with Some v => v | None => Null end.
  Lemma column_type_cases : forall i, i < length (query_schema m) ->
    snd (column_at i) = Timestamp_us \/ snd (column_at i) = Float32
    \/ snd (column_at i) = Utf8View.
  Proof.
    intros i Hi. destruct table_facts as (_ & _ & _ & _ & _ & K & _).
    apply (K i). exists (fst (column_at i)). rewrite (column_at_nth i Hi).
    now destruct (column_at i).
  Qed.
  Lemma stored_value_in : forall r i, i < length (query_schema m) ->
    value_in r (column_at i) = Some (stored_value r i).
  Proof.
    intros r i Hi. unfold stored_value. apply column_type_cases in Hi.
    destruct (column_at i) as (name, t). cbn [snd] in Hi.
    destruct Hi as [->|[->| ->]]; reflexivity.
  Qed.
  Lemma values_of_stored : forall r i, i < length (query_schema m) ->
    stored_at (generated_columns m) i ->
    values_of (schema m) r (fst (column_at i)) = Some (stored_value r i).
  Proof.
    intros r i Hi Hs. destruct table_facts as (_ & In1 & _ & ND & _). unfold values_of.
    rewrite (find_unique (schema m) (column_at i) ND (In1 i _ Hs (column_at_nth i Hi))).
    now apply stored_value_in.
  Qed.

  Lemma column_at_unique : forall i j, i < length (query_schema m) -> j < length (query_schema m) ->
    fst (column_at i) = fst (column_at j) -> i = j.
  Proof.
    intros i j Hi Hj E. assert (ND := unique_names m Hvalid).
    rewrite NoDup_nth_error in ND. apply ND; [now rewrite map_length|].
    rewrite (map_nth_error fst _ _ (column_at_nth i Hi)),
      (map_nth_error fst _ _ (column_at_nth j Hj)). now f_equal.
  Qed.

  Lemma joined_NoDup : forall l, (forall i, In i l -> i < length (query_schema m)) -> NoDup l ->
    NoDup (map fst (map column_at l)).
  Proof.
    induction l as [|i l IH]; intros H ND; cbn; [constructor|]. inversion ND as [|? ? N ND']; subst.
    constructor.
    - intros Hin. rewrite map_map in Hin. apply in_map_iff in Hin. destruct Hin as (j & E & Hj).
      apply column_at_unique in E; [subst; contradiction|apply H; now right|apply H; now left].
    - apply IH; [intros j Hj; apply H; now right|exact ND'].
  Qed.

  (** The rows that are joined. *)
  Lemma joined_values : forall r l, (forall i, In i l -> i < length (query_schema m)) ->
    (forall i, In i l -> stored_at (generated_columns m) i) -> forall name k,
    index_of (map column_at l) name = Some k ->
    nth_error (map (stored_value r) l) k = values_of (schema m) r name.
  Proof.
    intros r l H1 H2 name k Hk. apply index_of_some in Hk. destruct Hk as (t & Hk).
    destruct (nth_error l k) as [i|] eqn:E.
    - rewrite (map_nth_error column_at k l E) in Hk. injection Hk as Hk.
      apply nth_error_In in E as Hin. rewrite (map_nth_error (stored_value r) k l E).
      pose proof (values_of_stored r i (H1 i Hin) (H2 i Hin)) as V.
      rewrite Hk in V. symmetry. exact V.
    - apply nth_error_None in E. assert (X : k < length (map column_at l))
        by (apply nth_error_Some; congruence).
      rewrite map_length in X. lia.
  Qed.

  (** The expression of a generated column, if its sources are joined. *)
  Lemma generated_converted : forall F i g l, (forall i, In i l -> i < length (query_schema m)) ->
    (forall i, In i l -> stored_at (generated_columns m) i) -> NoDup l ->
    nth_error (generated_columns m) i = Some (Some g) ->
    (forall s, In s (source_columns g) -> In s l) ->
    exists p, convert (generated_expr g) (map column_at l) = Ok p
      /\ forall r, evaluate_physical F (map (stored_value r) l) p
                   = evaluate F (values_of (schema m) r) (generated_expr g).
  Proof.
    intros F i g l H1 H2 ND Hg Hs.
    destruct (generated_fields m Hvalid i g Hg) as (_ & M1 & M2 & M3).
    assert (Hn : forall name, In name (names_in (generated_expr g)) ->
              In name (map fst (map column_at l))).
    { intros name Hname. assert (Hq := M3 name Hname). apply in_map_iff in Hq.
      destruct Hq as ((name', t) & E & Hq). cbn in E. subst name'.
      apply In_nth_error in Hq. destruct Hq as (s & Hq).
      assert (Hin : In s l). { apply Hs, M2. exists name, t. now split. }
      rewrite map_map. apply in_map_iff. exists s. split; [|exact Hin].
      change (@nth_error column (query_schema m) s = Some (name, t)) in Hq.
      rewrite (column_at_nth s (H1 s Hin)) in Hq. injection Hq as Hq. now rewrite Hq. }
    assert (X : forall r, exists p, convert (generated_expr g) (map column_at l) = Ok p
      /\ evaluate_physical F (map (stored_value r) l) p
         = evaluate F (values_of (schema m) r) (generated_expr g)).
    { intros r. apply convert_ok; [now apply joined_values|now apply joined_NoDup|exact Hn]. }
    destruct (X (DataRow 0 (fun _ => EmptyString) (fun _ => 0%Z))) as (p & E & _). exists p.
    split; [exact E|]. intros r. destruct (X r) as (q & E1 & E2). rewrite E in E1.
    injection E1 as <-. exact E2.
  Qed.

  (** The columns of the plan. *)
  Definition kind (i : nat) : column_type :=
    match column_at i with
    | (_, Timestamp_us) => Timestamp
    | (name, Utf8View) => Tag name
    | _ => Field
    end.
  Definition is_field (i : nat) : bool := arrow_type_eqb (snd (column_at i)) Float32.
  Definition field_index (i : nat) : nat :=
    match index_of (schema m) (fst (column_at i)) with Some k => k | None => 0 end.
  Fixpoint todo_ok (js : list column) (k : nat) (l : list nat) (todo : list (nat * physical))
    : Prop :=
    match l with
    | [] => todo = []
    | i :: l =>
        if is_stored i then todo_ok js (S k) l todo
        else match todo with
             | (j, p) :: todo =>
                 j = k /\ (exists g, nth_error (generated_columns m) i = Some (Some g)
                             /\ convert (generated_expr g) js = Ok p)
                 /\ todo_ok js (S k) l todo
             | [] => False
             end
    end.

  Lemma field_index_ok : forall i, i < length (query_schema m) ->
    stored_at (generated_columns m) i ->
    index_of (schema m) (fst (column_at i)) = Some (field_index i)
    /\ nth_error (schema m) (field_index i) = Some (column_at i).
  Proof.
    intros i Hi Hs. destruct table_facts as (_ & In1 & _ & ND & _).
    assert (Hin := In1 i _ Hs (column_at_nth i Hi)). apply In_nth_error in Hin.
    destruct Hin as (k & Hk). unfold field_index. destruct (column_at i) as (name, t) eqn:E.
    cbn [fst]. rewrite (index_of_nth (schema m) name t k ND Hk). now split.
  Qed.

  Lemma plan_ok : forall js l k, (forall i, In i l -> i < length (query_schema m)) ->
    (forall i g, In i l -> nth_error (generated_columns m) i = Some (Some g) ->
       exists p, convert (generated_expr g) js = Ok p) ->
    exists todo,
      plan_columns m js k l
      = Ok (map kind (filter is_stored l),
            map field_index (filter is_field (filter is_stored l)), todo)
      /\ todo_ok js k l todo.
  Proof.
    intros js. destruct table_facts as (L & _).
    induction l as [|i l IH]; intros k H1 H2; cbn [plan_columns]; [now exists []|].
    assert (Hi := H1 i (or_introl eq_refl)). rewrite (column_at_nth i Hi).
    destruct (IH (S k)) as (todo & E & T);
      [intros j Hj; apply H1; now right|intros j g Hj; apply H2; now right|].
    assert (Hc := column_type_cases i Hi).
    assert (G : i < length (generated_columns m)) by lia. apply nth_error_Some in G.
    cbn [filter todo_ok].
    destruct (nth_error (generated_columns m) i) as [[g|]|] eqn:Eg; [| |congruence].
    - assert (St : is_stored i = false) by (unfold is_stored; now rewrite Eg).
      rewrite St.
      destruct (generated_fields m Hvalid i g Eg) as ((n & Ty) & _).
      change (@nth_error column (query_schema m) i = Some (n, Float32)) in Ty.
      rewrite (column_at_nth i Hi) in Ty. injection Ty as Ty. rewrite Ty.
      destruct (H2 i g (or_introl eq_refl) Eg) as (p & Ep). rewrite Ep. cbn [bind].
      rewrite E. cbn [bind]. exists ((k, p) :: todo). split; [reflexivity|].
      split; [reflexivity|]. split; [|exact T]. now exists g.
    - assert (St : is_stored i = true) by (unfold is_stored; now rewrite Eg).
      rewrite St. cbn [map]. exists todo.
      destruct (field_index_ok i Hi (proj1 (is_stored_iff i) St)) as (F1 & _).
      cbn [filter].
      destruct (column_at i) as (name, t) eqn:Ec. cbn [fst snd] in *.
      assert (Kd : kind i = match t with Timestamp_us => Timestamp | Utf8View => Tag name
                            | _ => Field end) by (unfold kind; now rewrite Ec).
      assert (Fd : is_field i = arrow_type_eqb t Float32) by (unfold is_field; now rewrite Ec).
      rewrite Kd, Fd.
      destruct Hc as [->|[->| ->]]; cbn [arrow_type_eqb].
      + rewrite E. cbn [bind]. split; [reflexivity|exact T].
      + rewrite F1, E. cbn [bind map]. split; [reflexivity|exact T].
      + rewrite E. cbn [bind]. split; [reflexivity|exact T].
  Qed.

  (** The joined columns. *)
  Lemma position_nth : forall name names (f : string -> string), In name names ->
    exists k, position name names = Some k /\ nth k (map f names) EmptyString = f name.
  Proof.
    intros name names f. induction names as [|n names IH]; intros H; [destruct H|].
    cbn [position]. destruct (String.eqb n name) eqn:E.
    - apply String.eqb_eq in E. subst n. exists 0. split; reflexivity.
    - destruct H as [->|H]; [rewrite String.eqb_refl in E; discriminate|].
      destruct (IH H) as (k & -> & Hk). exists (S k). split; [reflexivity|exact Hk].
  Qed.

  Lemma expected_values : forall rows k0 more l,
    (forall i, In i l -> i < length (query_schema m)) ->
    (forall i, In i l -> stored_at (generated_columns m) i) ->
    map (map cell_value)
      (expected (map kind l) (tag_names m) (map (point_of m k0) rows)
         (map (fun k => map (point_of m k) rows) (map field_index (filter is_field l)) ++ more))
    = map (fun i => map (fun r => stored_value r i) rows) l.
  Proof.
    intros rows k0 more. destruct table_facts as (_ & In1 & _ & ND & _ & _ & _ & Tg & _).
    induction l as [|i l IH]; intros H1 H2; [reflexivity|].
    assert (IH' := IH (fun j Hj => H1 j (or_intror Hj)) (fun j Hj => H2 j (or_intror Hj))).
    assert (Hi := H1 i (or_introl eq_refl)). assert (Hs := H2 i (or_introl eq_refl)).
    assert (Hc := column_type_cases i Hi).
    destruct (field_index_ok i Hi Hs) as (_ & F2).
    assert (In2 := In1 i _ Hs (column_at_nth i Hi)).
    cbn [map filter]. destruct (column_at i) as (name, t) eqn:Ec. cbn [fst snd] in *.
    assert (Kd : kind i = match t with Timestamp_us => Timestamp | Utf8View => Tag name
                          | _ => Field end) by (unfold kind; now rewrite Ec).
    assert (Fd : is_field i = arrow_type_eqb t Float32) by (unfold is_field; now rewrite Ec).
    assert (Sv : forall r, stored_value r i = match value_in r (name, t) with
                                              | Some v => v | None => Null end)
      by (intros r; unfold stored_value; now rewrite Ec).
    rewrite Kd, Fd. destruct Hc as [->|[->| ->]]; cbn [arrow_type_eqb map app expected].
    - rewrite IH'. f_equal. rewrite !map_map. apply map_ext. intros r. now rewrite Sv.
    - rewrite IH'. f_equal. rewrite !map_map. apply map_ext. intros r. rewrite Sv.
      unfold point_of. change (@nth_error column (schema m) (field_index i) = Some (name, Float32)) in F2.
      cbn [p_value]. rewrite F2. reflexivity.
    - rewrite IH'. f_equal. rewrite !map_map. apply map_ext. intros r. rewrite Sv.
      destruct (position_nth name (tag_names m) (r_tag r) (Tg name In2)) as (k & E1 & E2).
      rewrite E1. unfold point_of. cbn [p_tags cell_value value_in]. now rewrite E2.
  Qed.

  (** The columns of the result. *)
  Variable F : functions.
  Definition out (rows : list data_row) (i : nat) : list value :=
    map (fun r => match value_at F m r i with Some v => v | None => Null end) rows.

  Lemma out_stored : forall rows i, i < length (query_schema m) ->
    stored_at (generated_columns m) i -> out rows i = map (fun r => stored_value r i) rows.
  Proof.
    intros rows i Hi Hs. apply map_ext. intros r. unfold value_at.
    rewrite (column_at_nth i Hi). unfold stored_at in Hs. rewrite Hs.
    now rewrite (stored_value_in r i Hi).
  Qed.

  Lemma all_some_ok : forall {A B} (f : nat -> option A) (g : B -> A) (l : list B) k,
    (forall t b, nth_error l t = Some b -> f (k + t) = Some (g b)) ->
    all_some (map f (seq k (length l))) = Some (map g l).
  Proof.
    intros A B f g. induction l as [|b l IH]; intros k H; [reflexivity|].
    cbn [length seq map all_some]. rewrite <- (Nat.add_0_r k) at 1.
    rewrite (H 0 b eq_refl). cbn [option_map].
    rewrite IH; [reflexivity|]. intros t c Hc. rewrite Nat.add_succ_l, <- Nat.add_succ_r. now apply H.
  Qed.

  Lemma evaluate_batch_ok : forall rows L p i, L <> [] ->
    (forall i, In i L -> i < length (query_schema m)) ->
    (forall i, In i L -> stored_at (generated_columns m) i) ->
    (forall r, In r rows -> evaluate_physical F (map (stored_value r) L) p = value_at F m r i
                            /\ exists v, value_at F m r i = Some v) ->
    evaluate_batch F p (map (out rows) L) = Some (out rows i).
  Proof.
    intros rows L p i HL H1 H2 He. unfold evaluate_batch, num_rows.
    destruct L as [|j L]; [congruence|]. cbn [map hd].
    assert (Len : length (out rows j) = length rows) by apply map_length.
    rewrite Len. unfold out at 3.
    apply (all_some_ok _ _ rows 0). intros t r Hr. rewrite Nat.add_0_l.
    assert (Hrow : row_at (out rows j :: map (out rows) L) t = map (stored_value r) (j :: L)).
    { change (out rows j :: map (out rows) L) with (map (out rows) (j :: L)). unfold row_at.
      rewrite map_map. apply map_ext_in. intros k Hk.
      rewrite (out_stored rows k (H1 k Hk) (H2 k Hk)).
      apply nth_error_nth. now apply (map_nth_error (fun r => stored_value r k)). }
    rewrite Hrow. destruct (He r (nth_error_In _ _ Hr)) as (-> & v & ->). reflexivity.
  Qed.

  (** Copying stored columns. *)
  Lemma filter_length : forall (f : nat -> bool) l,
    length (filter f l) + length (filter (fun i => negb (f i)) l) = length l.
  Proof.
    intros f. induction l as [|i l IH]; [reflexivity|]. cbn [filter]. destruct (f i);
      cbn [negb length]; lia.
  Qed.
  Definition generated_in (l : list nat) : nat := length (filter (fun i => negb (is_stored i)) l).

  Lemma filter_all : forall (f : nat -> bool) l, forallb f l = true -> filter f l = l.
  Proof.
    intros f. induction l as [|i l IH]; intros H; [reflexivity|]. cbn [forallb filter] in *.
    apply andb_prop in H. destruct H as (-> & H). now rewrite IH.
  Qed.

  Lemma copy_ok : forall rows mid before after, forallb is_stored mid = true ->
    copy (map (out rows) (filter is_stored (before ++ mid ++ after))) (generated_in before)
      (length before) (length mid) = Ok (map (out rows) mid).
  Proof.
    intros rows. assert (X : forall mid before j after, forallb is_stored mid = true ->
      generated_in before <= j -> j - generated_in before = length (filter is_stored before) ->
      copy (map (out rows) (filter is_stored (before ++ mid ++ after))) (generated_in before)
        j (length mid) = Ok (map (out rows) mid)).
    { induction mid as [|i mid IH]; intros before j after H Hj Hg; [reflexivity|].
      cbn [forallb] in H. apply andb_prop in H. destruct H as (Hi & H). cbn [length copy].
      rewrite Hg.
      assert (E : nth_error (map (out rows) (filter is_stored (before ++ (i :: mid) ++ after)))
                    (length (filter is_stored before)) = Some (out rows i)).
      { rewrite filter_app, map_app, nth_error_app2; rewrite map_length; [|lia].
        rewrite Nat.sub_diag. cbn [app filter]. rewrite Hi. reflexivity. }
      rewrite E.
      assert (G1 : generated_in (before ++ [i]) = generated_in before).
      { unfold generated_in. rewrite filter_app. cbn [filter]. rewrite Hi. cbn [negb].
        now rewrite app_nil_r. }
      specialize (IH (before ++ [i]) (S j) after H). rewrite G1 in IH.
      assert (A : (before ++ [i]) ++ mid ++ after = before ++ (i :: mid) ++ after)
        by (rewrite <- app_assoc; reflexivity).
      rewrite A in IH. rewrite IH; [reflexivity|lia|].
      rewrite filter_app, app_length. cbn [filter]. rewrite Hi. cbn [length]. lia. }
    intros mid before after H. apply X; [exact H| |]; unfold generated_in;
      pose proof (filter_length is_stored before); lia.
  Qed.

  (** The loop over the columns to generate. *)
  Lemma add_columns_ok : forall rows full js batch extra,
    batch = map (out rows) (filter is_stored full) ->
    (forall i g p, In i full -> nth_error (generated_columns m) i = Some (Some g) ->
       convert (generated_expr g) js = Ok p -> evaluate_batch F p batch = Some (out rows i)) ->
    forall l before mid todo, forallb is_stored mid = true ->
    full = before ++ mid ++ l ++ extra -> todo_ok js (length before + length mid) l todo ->
    exists done rest, before ++ mid ++ l = done ++ rest /\ forallb is_stored rest = true
      /\ add_columns F batch todo (map (out rows) before) (generated_in before)
         = Ok (map (out rows) done, generated_in done).
  Proof.
    intros rows full js batch extra Hb He.
    induction l as [|i l IH]; intros before mid todo Hm Hf Ht; cbn [todo_ok] in Ht.
    - subst todo. exists before, mid. rewrite app_nil_r. split; [reflexivity|].
      split; [exact Hm|reflexivity].
    - destruct (is_stored i) eqn:Si.
      + destruct (IH before (mid ++ [i]) todo) as (d & rest & E1 & E2 & E3).
        * rewrite forallb_app. cbn. now rewrite Hm, Si.
        * rewrite <- !app_assoc. exact Hf.
        * rewrite app_length. cbn [length].
          replace (length before + (length mid + 1)) with (S (length before + length mid)) by lia.
          exact Ht.
        * exists d, rest. rewrite <- app_assoc in E1. cbn [app] in E1.
          split; [exact E1|]. split; [exact E2|exact E3].
      + destruct todo as [|(j, p) todo]; [contradiction|].
        destruct Ht as (-> & (g & Eg & Ep) & Ht). cbn [add_columns].
        rewrite map_length.
        replace (length before + length mid - length before) with (length mid) by lia.
        assert (C : copy batch (generated_in before) (length before) (length mid)
                    = Ok (map (out rows) mid)) by (rewrite Hb, Hf; now apply copy_ok).
        rewrite C. cbn [bind].
        rewrite (He i g p); [|rewrite Hf; apply in_or_app; right; apply in_or_app; right; now left
                             |exact Eg|exact Ep].
        destruct (IH (before ++ mid ++ [i]) [] todo) as (d & rest & E1 & E2 & E3).
        * reflexivity.
        * rewrite Hf. rewrite <- !app_assoc. reflexivity.
        * rewrite !app_length. cbn [length].
          replace (length before + (length mid + 1) + 0) with (S (length before + length mid)) by lia.
          exact Ht.
        * exists d, rest. split; [rewrite <- E1; rewrite <- !app_assoc; reflexivity|].
          split; [exact E2|]. rewrite <- E3. rewrite !map_app. f_equal.
          unfold generated_in. rewrite !filter_app, !app_length.
          assert (Z : filter (fun i => negb (is_stored i)) mid = []).
          { clear - Hm. induction mid as [|x mid IHm]; [reflexivity|]. cbn [forallb filter] in *.
            apply andb_prop in Hm. destruct Hm as (-> & Hm). cbn [negb]. now apply IHm. }
          rewrite Z. cbn [filter length]. rewrite Si. cbn [negb length]. lia.
  Qed.

  Lemma new_batch_ok : forall rows l cs, map Some cs = map (nth_error (query_schema m)) l ->
    (forall i r, In i l -> In r rows -> exists v, value_at F m r i = Some v
                 /\ has_type (snd (column_at i)) v = true) ->
    new_batch cs (map (out rows) l) = Ok (map (out rows) l).
  Proof.
    intros rows l cs Hc Hv. unfold new_batch.
    assert (X : types_match cs (map (out rows) l) = true); [|now rewrite X].
    revert cs Hc Hv. induction l as [|i l IH]; intros [|(name, t) cs] Hc Hv; try discriminate;
      [reflexivity|].
    cbn [map types_match] in *. injection Hc as Ei Hc.
    rewrite IH; [|exact Hc|intros j r Hj; apply Hv; now right]. rewrite andb_true_r.
    apply forallb_forall. intros v Hin. unfold out in Hin. apply in_map_iff in Hin.
    destruct Hin as (r & <- & Hr). destruct (Hv i r (or_introl eq_refl) Hr) as (v & E & T).
    rewrite E. assert (Hi : column_at i = (name, t)).
    { unfold column_at. apply nth_error_nth. now symmetry. }
    rewrite Hi in T. exact T.
  Qed.

  Lemma value_typed : forall rows l i r, (forall i, In i l -> i < length (query_schema m)) ->
    (forall r, In r rows -> computable F m l r) -> In i l -> In r rows ->
    exists v, value_at F m r i = Some v /\ has_type (snd (column_at i)) v = true.
  Proof.
    intros rows l i r H Hc Hi Hr. assert (Li := H i Hi). destruct table_facts as (L & _).
    assert (G : i < length (generated_columns m)) by lia. apply nth_error_Some in G.
    destruct (nth_error (generated_columns m) i) as [[g|]|] eqn:Eg; [| |congruence].
    - destruct (Hc r Hr i g Hi Eg) as (v & E). exists (Value v). split; [exact E|].
      destruct (generated_fields m Hvalid i g Eg) as ((n & Ty) & _).
      change (@nth_error column (query_schema m) i = Some (n, Float32)) in Ty.
      rewrite (column_at_nth i Li) in Ty. injection Ty as ->. reflexivity.
    - exists (stored_value r i). unfold value_at. rewrite (column_at_nth i Li), Eg.
      split; [now apply stored_value_in|]. unfold stored_value.
      assert (Cs := column_type_cases i Li). destruct (column_at i) as (n, t). cbn [snd] in *.
      destruct Cs as [->|[->| ->]]; reflexivity.
  Qed.

  (** Computing the columns of the result for some rows. *)
  Lemma generate_ok : forall rows l extra js todo cs,
    (forall i, In i (l ++ extra) -> i < length (query_schema m)) -> NoDup (l ++ extra) ->
    (forall i, In i extra -> stored_at (generated_columns m) i) ->
    (forall i g s, In i l -> nth_error (generated_columns m) i = Some (Some g) ->
       In s (source_columns g) -> In s (l ++ extra)) ->
    js = map column_at (filter is_stored (l ++ extra)) -> filter is_stored (l ++ extra) <> [] ->
    todo_ok js 0 l todo -> map Some cs = map (nth_error (query_schema m)) l ->
    (forall r, In r rows -> computable F m l r) ->
    generate F cs todo (map (out rows) (filter is_stored (l ++ extra))) = Ok (map (out rows) l).
  Proof.
    intros rows l extra js todo cs H1 ND H2 H3 Hjs Hne Ht Hcs Hc.
    destruct table_facts as (_ & _ & _ & _ & Src & _).
    set (full := l ++ extra) in *.
    assert (Hin : forall i, In i (filter is_stored full) -> In i full /\ stored_at (generated_columns m) i).
    { intros i Hi. apply filter_In in Hi. rewrite is_stored_iff in Hi. exact Hi. }
    assert (He : forall i g p, In i full -> nth_error (generated_columns m) i = Some (Some g) ->
       convert (generated_expr g) js = Ok p ->
       evaluate_batch F p (map (out rows) (filter is_stored full)) = Some (out rows i)).
    { intros i g p Hi Hg Hp. assert (Il : In i l).
      { apply in_app_or in Hi. destruct Hi as [Hi|Hi]; [exact Hi|]. apply H2 in Hi.
        unfold stored_at in Hi. congruence. }
      apply evaluate_batch_ok; [exact Hne|intros j Hj; apply H1; now apply Hin
                               |intros j Hj; now apply Hin|].
      destruct (generated_converted F i g (filter is_stored full)) as (q & Eq & Ev).
      - intros j Hj. apply H1. now apply Hin.
      - intros j Hj. now apply Hin.
      - now apply NoDup_filter.
      - exact Hg.
      - intros s Hs. apply filter_In. split; [now apply (H3 i g)|].
        apply is_stored_iff. now apply (Src i g).
      - rewrite <- Hjs, Hp in Eq. injection Eq as <-. intros r Hr. split.
        + rewrite Ev. unfold value_at. now rewrite (column_at_nth i (H1 i Hi)), Hg.
        + destruct (Hc r Hr i g Il Hg) as (v & E). now exists (Value v). }
    destruct (add_columns_ok rows full js _ extra eq_refl He l [] [] todo eq_refl eq_refl Ht)
      as (d & rest & E1 & E2 & E3).
    cbn [app] in E1. unfold generate. cbn [map] in E3. change (generated_in []) with 0 in E3.
    rewrite E3. cbn [bind]. rewrite map_length.
    assert (Lc : length cs = length l).
    { apply (f_equal (@length _)) in Hcs. now rewrite !map_length in Hcs. }
    rewrite Lc, E1, app_length.
    replace (length d + length rest - length d) with (length rest) by lia.
    assert (Ef : full = d ++ rest ++ extra) by (subst full; rewrite E1, <- app_assoc; reflexivity).
    rewrite Ef, (copy_ok rows rest d extra E2). cbn [bind].
    rewrite <- map_app, <- app_length, <- (map_length (out rows)), firstn_all, <- E1.
    apply new_batch_ok; [exact Hcs|]. intros i r Hi Hr. apply (value_typed rows l i r); auto.
    intros j Hj. apply H1. apply in_or_app. now left.
  Qed.

  (** A column that cannot be computed for a row is an error. *)
  Lemma all_some_none : forall {A} (l : list (option A)), In None l -> all_some l = None.
  Proof.
    intros A. induction l as [|[a|] l IH]; intros Hi; [destruct Hi| |reflexivity].
    destruct Hi as [E|Hi]; [discriminate|]. cbn [all_some]. now rewrite (IH Hi).
  Qed.

  Lemma evaluate_batch_err : forall rows L p i r, L <> [] ->
    (forall i, In i L -> i < length (query_schema m)) ->
    (forall i, In i L -> stored_at (generated_columns m) i) ->
    In r rows -> evaluate_physical F (map (stored_value r) L) p = value_at F m r i ->
    value_at F m r i = None -> evaluate_batch F p (map (out rows) L) = None.
  Proof.
    intros rows L p i r HL H1 H2 Hr He Hn. unfold evaluate_batch, num_rows.
    destruct L as [|j L]; [congruence|]. cbn [map hd]. apply all_some_none.
    apply In_nth_error in Hr. destruct Hr as (t & Hr). apply in_map_iff. exists t. split.
    - assert (Hrow : row_at (out rows j :: map (out rows) L) t = map (stored_value r) (j :: L)).
      { change (out rows j :: map (out rows) L) with (map (out rows) (j :: L)). unfold row_at.
        rewrite map_map. apply map_ext_in. intros k Hk.
        rewrite (out_stored rows k (H1 k Hk) (H2 k Hk)).
        apply nth_error_nth. now apply (map_nth_error (fun r => stored_value r k)). }
      rewrite Hrow, He. exact Hn.
    - apply in_seq. unfold out. rewrite map_length. split; [lia|]. cbn [Nat.add].
      apply nth_error_Some. congruence.
  Qed.

  Lemma add_columns_err : forall rows full js batch extra,
    batch = map (out rows) (filter is_stored full) ->
    (forall i g p, In i full -> nth_error (generated_columns m) i = Some (Some g) ->
       convert (generated_expr g) js = Ok p ->
       evaluate_batch F p batch = Some (out rows i) \/ evaluate_batch F p batch = None) ->
    forall l before mid todo, forallb is_stored mid = true ->
    full = before ++ mid ++ l ++ extra -> todo_ok js (length before + length mid) l todo ->
    (exists i g, In i l /\ nth_error (generated_columns m) i = Some (Some g)
       /\ forall p, convert (generated_expr g) js = Ok p -> evaluate_batch F p batch = None) ->
    add_columns F batch todo (map (out rows) before) (generated_in before) = Err.
  Proof.
    intros rows full js batch extra Hb He.
    induction l as [|i l IH]; intros before mid todo Hm Hf Ht (k & gk & Hk & Ek & Hn);
      cbn [todo_ok] in Ht; [destruct Hk|].
    destruct (is_stored i) eqn:Si.
    - apply (IH before (mid ++ [i]) todo).
      + rewrite forallb_app. cbn. now rewrite Hm, Si.
      + rewrite <- !app_assoc. exact Hf.
      + rewrite app_length. cbn [length].
        replace (length before + (length mid + 1)) with (S (length before + length mid)) by lia.
        exact Ht.
      + exists k, gk. split; [|now split]. destruct Hk as [->|Hk]; [|exact Hk].
        unfold is_stored in Si. rewrite Ek in Si. discriminate.
    - destruct todo as [|(j, p) todo]; [contradiction|].
      destruct Ht as (-> & (g & Eg & Ep) & Ht). cbn [add_columns].
      rewrite map_length.
      replace (length before + length mid - length before) with (length mid) by lia.
      assert (C : copy batch (generated_in before) (length before) (length mid)
                  = Ok (map (out rows) mid)) by (rewrite Hb, Hf; now apply copy_ok).
      rewrite C. cbn [bind].
      destruct (He i g p) as [E|E];
        [rewrite Hf; apply in_or_app; right; apply in_or_app; right; now left|exact Eg|exact Ep
        | |now rewrite E].
      rewrite E.
      assert (Hk' : In k l).
      { destruct Hk as [->|Hk]; [|exact Hk]. rewrite Eg in Ek. injection Ek as ->.
        rewrite (Hn p Ep) in E. discriminate. }
      assert (X := IH (before ++ mid ++ [i]) [] todo eq_refl).
      rewrite <- X.
      + rewrite !map_app. f_equal.
        unfold generated_in. rewrite !filter_app, !app_length.
        assert (Z : filter (fun i => negb (is_stored i)) mid = []).
        { clear - Hm. induction mid as [|x mid IHm]; [reflexivity|]. cbn [forallb filter] in *.
          apply andb_prop in Hm. destruct Hm as (-> & Hm). cbn [negb]. now apply IHm. }
        rewrite Z. cbn [filter length]. rewrite Si. cbn [negb length]. lia.
      + rewrite Hf. rewrite <- !app_assoc. reflexivity.
      + rewrite !app_length. cbn [length].
        replace (length before + (length mid + 1) + 0) with (S (length before + length mid)) by lia.
        exact Ht.
      + exists k, gk. now split.
  Qed.

  Lemma generate_err : forall rows l extra js todo cs,
    (forall i, In i (l ++ extra) -> i < length (query_schema m)) -> NoDup (l ++ extra) ->
    (forall i, In i extra -> stored_at (generated_columns m) i) ->
    (forall i g s, In i l -> nth_error (generated_columns m) i = Some (Some g) ->
       In s (source_columns g) -> In s (l ++ extra)) ->
    js = map column_at (filter is_stored (l ++ extra)) -> filter is_stored (l ++ extra) <> [] ->
    todo_ok js 0 l todo ->
    (exists r i, In r rows /\ In i l /\ value_at F m r i = None) ->
    generate F cs todo (map (out rows) (filter is_stored (l ++ extra))) = Err.
  Proof.
    intros rows l extra js todo cs H1 ND H2 H3 Hjs Hne Ht (r0 & i0 & Hr0 & Hi0 & Hn0).
    destruct table_facts as (L & _ & _ & _ & Src & _).
    set (full := l ++ extra) in *.
    assert (Hin : forall i, In i (filter is_stored full) -> In i full /\ stored_at (generated_columns m) i).
    { intros i Hi. apply filter_In in Hi. rewrite is_stored_iff in Hi. exact Hi. }
    assert (He : forall i g p, In i full -> nth_error (generated_columns m) i = Some (Some g) ->
       convert (generated_expr g) js = Ok p -> In i l /\
       forall r, evaluate_physical F (map (stored_value r) (filter is_stored full)) p = value_at F m r i).
    { intros i g p Hi Hg Hp. assert (Il : In i l).
      { apply in_app_or in Hi. destruct Hi as [Hi|Hi]; [exact Hi|]. apply H2 in Hi.
        unfold stored_at in Hi. congruence. }
      split; [exact Il|].
      destruct (generated_converted F i g (filter is_stored full)) as (q & Eq & Ev).
      - intros j Hj. apply H1. now apply Hin.
      - intros j Hj. now apply Hin.
      - now apply NoDup_filter.
      - exact Hg.
      - intros s Hs. apply filter_In. split; [now apply (H3 i g)|].
        apply is_stored_iff. now apply (Src i g).
      - rewrite <- Hjs, Hp in Eq. injection Eq as <-. intros r.
        rewrite Ev. unfold value_at. now rewrite (column_at_nth i (H1 i Hi)), Hg. }
    assert (H1' : forall j, In j (filter is_stored full) -> j < length (query_schema m))
      by (intros j Hj; apply H1; now apply Hin).
    assert (H2' : forall j, In j (filter is_stored full) -> stored_at (generated_columns m) j)
      by (intros j Hj; now apply Hin).
    assert (Hone : forall i g p, In i full -> nth_error (generated_columns m) i = Some (Some g) ->
       convert (generated_expr g) js = Ok p ->
       evaluate_batch F p (map (out rows) (filter is_stored full)) = Some (out rows i)
       \/ evaluate_batch F p (map (out rows) (filter is_stored full)) = None).
    { intros i g p Hi Hg Hp. destruct (He i g p Hi Hg Hp) as (Il & Ev).
      destruct (existsb (fun r => match value_at F m r i with None => true | _ => false end) rows) eqn:B.
      - right. apply existsb_exists in B. destruct B as (r & Hr & B).
        destruct (value_at F m r i) eqn:V; [discriminate|].
        exact (evaluate_batch_err rows _ p i r Hne H1' H2' Hr (Ev r) V).
      - left. apply evaluate_batch_ok; [exact Hne|exact H1'|exact H2'|]. intros r Hr.
        split; [apply Ev|]. destruct (value_at F m r i) as [v|] eqn:V; [now exists v|].
        exfalso. assert (X : existsb (fun r => match value_at F m r i with None => true | _ => false end)
                                rows = true); [|congruence].
        apply existsb_exists. exists r. now rewrite V. }
    assert (G : i0 < length (query_schema m)) by (apply H1; apply in_or_app; now left).
    assert (Gen : exists g, nth_error (generated_columns m) i0 = Some (Some g)).
    { assert (G' : i0 < length (generated_columns m)) by lia. apply nth_error_Some in G'.
      destruct (nth_error (generated_columns m) i0) as [[g|]|] eqn:Eg; [now exists g| |congruence].
      exfalso. unfold value_at in Hn0. rewrite (column_at_nth i0 G), Eg in Hn0.
      rewrite (stored_value_in r0 i0 G) in Hn0. discriminate. }
    destruct Gen as (g0 & Hg0).
    unfold generate.
    assert (X := add_columns_err rows full js _ extra eq_refl Hone l [] [] todo eq_refl eq_refl Ht).
    cbn [map] in X. change (generated_in []) with 0 in X. rewrite X; [reflexivity|].
    exists i0, g0. split; [exact Hi0|]. split; [exact Hg0|]. intros p Hp.
    assert (Hf : In i0 full) by (apply in_or_app; now left).
    destruct (He i0 g0 p Hf Hg0 Hp) as (_ & Ev).
    exact (evaluate_batch_err rows _ p i0 r0 Hne H1' H2' Hr0 (Ev r0) Hn0).
  Qed.
End Table.
