(** Proofs about creating time series tables from C and Python. *)
From Coq Require Import ZArith Reals Lra Lia Bool String List Permutation.
From Flocq Require Import Core IEEE754.BinarySingleNaN IEEE754.Binary IEEE754.Bits.
From Verif Require Import Model.Base Model.Float Model.ErrorBound Model.Filters Model.Table
  Model.ForeignTables Spec.ErrorBoundSpec Spec.TableSpec Spec.ForeignTablesSpec
  Proofs.FloatProofs Proofs.ErrorBoundProofs Proofs.TableProofs Proofs.DefinitionProofs
  Proofs.StoredDefinitionProofs.
Import ListNotations.
Open Scope R_scope.
Open Scope list_scope.

(** ** Floats *)
Lemma f32_neg_finite : forall x, finite32 x -> finite32 (f32_neg x) /\ R32 (f32_neg x) = - R32 x.
Proof.
  intros x H. unfold finite32, R32, f32_neg, b32_opp. rewrite is_finite_Bopp, B2R_Bopp. auto.
Qed.
Lemma f64_neg_finite : forall x, finite64 x -> finite64 (f64_neg x) /\ R64 (f64_neg x) = - R64 x.
Proof.
  intros x H. unfold finite64, R64, f64_neg, b64_opp. rewrite is_finite_Bopp, B2R_Bopp. auto.
Qed.
Lemma f64_le_iff : forall x y, finite64 x -> finite64 y -> f64_le x y = true <-> R64 x <= R64 y.
Proof.
  intros x y Hx Hy. unfold f64_le, b64_compare. rewrite Bcompare_correct by assumption.
  fold (R64 x) (R64 y). destruct (Rcompare_spec (R64 x) (R64 y)); split; intros; try reflexivity;
    try discriminate; lra.
Qed.

Lemma strict32 : forall x : f32, R32 x <> 0 -> is_finite_strict 24 128 x = true.
Proof. intros [s|s|s pl Hpl|s m e Hme] H; try reflexivity; exfalso; now apply H. Qed.

(** ** The entries of the array *)
Lemma entry_ok : forall v eb, entry_to_error_bound v = Ok eb <->
  meaningful v /\ R32 v <> 0 /\ stands_for v eb.
Proof.
  intros v eb. unfold entry_to_error_bound, meaningful.
  assert (Hz : finite32 f32_zero) by reflexivity.
  destruct (Bool.bool_dec (is_finite 24 128 v) true) as [F|F].
  - pose proof (f32_lt_iff _ _ F Hz) as L. change (R32 f32_zero) with 0 in L.
    destruct (f32_neg_finite v F) as (NF & NR).
    destruct (f32_lt v f32_zero).
    + destruct L as [L _]. specialize (L eq_refl).
      rewrite try_new_relative_iff. unfold finite32 in NF. rewrite NF, NR.
      destruct (bool_dec true true) as [_|]; [|congruence].
      destruct (Rlt_dec 0 (- R32 v)) as [_|]; [|lra].
      destruct (Rle_dec (- R32 v) 100) as [H|H]; cbn [expect].
      * split.
        -- intros E. injection E as <-. repeat split; try assumption; lra.
        -- intros ((_ & _) & _ & S). destruct eb as [e|e|]; cbn in S; [lra| |lra].
           destruct S as (_ & Fe & Re). f_equal. f_equal.
           apply (B2R_inj 24 128); [| |change (R32 (f32_neg v) = R32 e); lra].
           ++ apply strict32. lra.
           ++ apply strict32. lra.
      * split; [discriminate|]. intros ((_ & ?) & _). lra.
    + assert (0 <= R32 v). { destruct (Rle_or_lt 0 (R32 v)); [assumption|]. now apply L in H. }
      rewrite try_new_absolute_iff. rewrite F. destruct (bool_dec true true) as [_|]; [|congruence].
      destruct (Rlt_dec 0 (R32 v)) as [P|P]; cbn [expect].
      * split.
        -- intros E. injection E as <-. repeat split; try assumption; lra.
        -- intros (_ & _ & S). destruct eb as [e|e|]; cbn in S; [|lra|lra].
           now destruct S as (_ & ->).
      * split; [discriminate|]. intros (_ & ? & _). lra.
  - split; [|intros ((? & _) & _); contradiction].
    destruct v as [s|s|s pl Hpl|s m e Hme]; try (exfalso; now apply F); destruct s; discriminate.
Qed.

Lemma entry_panic : forall v, entry_to_error_bound v = Panic <-> ~ (meaningful v /\ R32 v <> 0).
Proof.
  intros v. split.
  - intros E (M & N).
    assert (X : exists eb, stands_for v eb).
    { destruct (Rtotal_order (R32 v) 0) as [L|[L|L]]; [|lra|].
      - exists (Relative (f32_neg v)). destruct M as (F & _).
        destruct (f32_neg_finite v F). cbn. repeat split; assumption.
      - exists (Absolute v). cbn. split; [lra|reflexivity]. }
    destruct X as (eb & S). assert (O : entry_to_error_bound v = Ok eb) by now apply entry_ok.
    congruence.
  - intros H. destruct (entry_to_error_bound v) as [eb| |] eqn:E; [| |reflexivity].
    + apply entry_ok in E. tauto.
    + unfold entry_to_error_bound in E. destruct (f32_lt _ _);
        [destruct (try_new_relative _)|destruct (try_new_absolute _)]; discriminate.
Qed.

(** ** Maps *)
Lemma get_insert : forall {V} k k' (v : V) m,
  get k' (insert k v m) = if String.eqb k k' then Some v else get k' m.
Proof.
  induction m as [|[a b] m IH]; cbn [insert get]; [reflexivity|].
  destruct (String.eqb_spec a k) as [->|N]; cbn [get].
  - destruct (String.eqb k k'); reflexivity.
  - rewrite IH. destruct (String.eqb_spec a k') as [->|]; [|reflexivity].
    destruct (String.eqb_spec k k'); [congruence|reflexivity].
Qed.

Lemma bounds_loop_ok : forall entries m m', NoDup (map fst entries) ->
  error_bounds_loop entries m = Ok m' ->
  Forall (fun e => meaningful (snd e) /\ R32 (snd e) <> 0) entries
  /\ (forall n v, In (n, v) entries -> exists eb, get n m' = Some eb /\ stands_for v eb)
  /\ (forall n, ~ In n (map fst entries) -> get n m' = get n m).
Proof.
  induction entries as [|[n v] entries IH]; intros m m' ND; cbn [error_bounds_loop].
  - intros E. injection E as <-. split; [constructor|]. split; [intros ? ? []|reflexivity].
  - cbn [map fst] in ND. apply NoDup_cons_iff in ND. destruct ND as (NI & ND).
    destruct (entry_to_error_bound v) as [eb| |] eqn:E; cbn [bind]; try discriminate.
    intros H. apply IH in H; [|assumption]. destruct H as (A & B & C).
    apply entry_ok in E. destruct E as (M & N & S). split; [constructor; [split|]; assumption|].
    split.
    + intros n' v' [X|X]; [|now apply B]. injection X as <- <-. exists eb. split; [|assumption].
      rewrite C by assumption. rewrite get_insert, String.eqb_refl. reflexivity.
    + intros n' X. cbn [map fst] in X. rewrite C by (intros Y; apply X; now right).
      rewrite get_insert. destruct (String.eqb_spec n n') as [->|]; [|reflexivity].
      exfalso. apply X. now left.
Qed.

Lemma bounds_loop_exists : forall entries m,
  Forall (fun e => meaningful (snd e) /\ R32 (snd e) <> 0) entries ->
  exists m', error_bounds_loop entries m = Ok m'.
Proof.
  induction entries as [|[n v] entries IH]; intros m H; cbn [error_bounds_loop]; [now eexists|].
  pose proof (Forall_inv H) as (M & N). cbn [snd] in *.
  destruct (entry_to_error_bound v) as [eb| |] eqn:E.
  - cbn [bind]. apply IH. now apply Forall_inv_tail in H.
  - exfalso. unfold entry_to_error_bound in E. destruct (f32_lt _ _);
      [destruct (try_new_relative _)|destruct (try_new_absolute _)]; discriminate.
  - apply entry_panic in E. tauto.
Qed.

Lemma bounds_loop_panic : forall entries m, error_bounds_loop entries m = Panic <->
  Exists (fun e => ~ (meaningful (snd e) /\ R32 (snd e) <> 0)) entries.
Proof.
  induction entries as [|[n v] entries IH]; intros m; cbn [error_bounds_loop].
  - split; [discriminate|]. intros H. inversion H.
  - destruct (entry_to_error_bound v) as [eb| |] eqn:E; cbn [bind].
    + rewrite IH. split; [now right|]. intros H. inversion H as [? ? X|]; subst; [|assumption].
      cbn in X. apply entry_ok in E. tauto.
    + exfalso. unfold entry_to_error_bound in E. destruct (f32_lt _ _);
        [destruct (try_new_relative _)|destruct (try_new_absolute _)]; discriminate.
    + split; [|reflexivity]. intros _. left. cbn. now apply entry_panic.
Qed.

Lemma bounds_loop_not_err : forall entries m, error_bounds_loop entries m <> Err.
Proof.
  induction entries as [|[n v] entries IH]; intros m; cbn [error_bounds_loop]; [discriminate|].
  destruct (entry_to_error_bound v) as [eb| |] eqn:E; cbn [bind]; [apply IH| |discriminate].
  unfold entry_to_error_bound in E. destruct (f32_lt _ _);
    [destruct (try_new_relative _)|destruct (try_new_absolute _)]; discriminate.
Qed.

Lemma map_array_get : forall entries, NoDup (map fst entries) ->
  (forall n t, get n (map_array_to_map entries) = Some t <-> In (n, t) entries).
Proof.
  intros entries ND n t. unfold map_array_to_map.
  assert (G : forall entries m, NoDup (map fst entries) ->
            (forall x, In x (map fst entries) -> get x m = None) ->
            get n (fold_left (fun map entry => insert (fst entry) (snd entry) map) entries m)
              = Some t <-> In (n, t) entries \/ get n m = Some t).
  { clear. induction entries as [|[a b] entries IH]; intros m ND F; cbn [fold_left fst snd].
    - cbn. tauto.
    - cbn [map fst] in ND. apply NoDup_cons_iff in ND. destruct ND as (NI & ND).
      rewrite IH; [|assumption|].
      + rewrite get_insert. cbn [In]. destruct (String.eqb_spec a n) as [->|N].
        * assert (get n m = None) as -> by (apply F; now left).
          split; [intros [?|X]; [tauto|injection X as ->; tauto]|].
          intros [[X|?]|?]; [injection X as ->; tauto|tauto|discriminate].
        * split; [tauto|]. intros [[X|?]|?]; [injection X as -> ->; congruence|tauto|tauto].
      + intros x X. rewrite get_insert. destruct (String.eqb_spec a x) as [->|]; [contradiction|].
        apply F. now right. }
  rewrite G; [|assumption|reflexivity]. cbn [get]. intuition discriminate.
Qed.

Lemma map_array_none : forall entries, NoDup (map fst entries) ->
  (forall n, get n (map_array_to_map entries) = None <-> ~ In n (map fst entries)).
Proof.
  intros entries ND n. pose proof (map_array_get entries ND n) as G. split.
  - intros E H. apply in_map_iff in H. destruct H as ((a & t) & <- & H). cbn [fst] in *.
    apply G in H. congruence.
  - intros H. destruct (get n (map_array_to_map entries)) as [t|]; [|reflexivity].
    pose proof (proj1 (G t) eq_refl) as E. exfalso. apply H.
    apply in_map_iff. now exists (n, t).
Qed.

(** ** The columns *)
Definition generated_as (generated : list (string * string)) (parse : string -> outcome expr)
  (order : list string -> list string) (columns : list column) (c : column)
  (g : option generated_column) : Prop :=
  match g with
  | None => ~ In (fst c) (map fst generated)
  | Some g => exists text e, In (fst c, text) generated /\ parse text = Ok e
                /\ try_from_expr order columns e = Ok g
  end.

Lemma columns_loop_ok : forall order parse columns fields bounds generated all,
  NoDup (map fst generated) ->
  columns_loop order parse columns fields bounds (map_array_to_map generated) = Ok all ->
  fst all = map (fun c => match get (fst c) bounds with Some b => b | None => Lossless end) fields
  /\ Forall2 (generated_as generated parse order columns) fields (snd all).
Proof.
  intros order parse columns. induction fields as [|[n t] fields IH]; intros bounds generated all ND;
    cbn [columns_loop].
  - intros E. injection E as <-. split; [reflexivity|constructor].
  - destruct (get n (map_array_to_map generated)) as [text|] eqn:G; cbn [bind].
    + destruct (parse text) as [e| |] eqn:P; cbn [bind]; try discriminate.
      destruct (try_from_expr order columns e) as [g| |] eqn:T; cbn [bind]; try discriminate.
      destruct (columns_loop _ _ _ _ _ _) as [rest| |] eqn:R; cbn [bind]; try discriminate.
      intros E. injection E as <-. apply IH in R; [|assumption]. destruct R as (R1 & R2).
      cbn [fst snd map]. split; [now rewrite R1|]. constructor; [|assumption].
      exists text, e. apply map_array_get in G; [|assumption]. now repeat split.
    + destruct (columns_loop _ _ _ _ _ _) as [rest| |] eqn:R; cbn [bind]; try discriminate.
      intros E. injection E as <-. apply IH in R; [|assumption]. destruct R as (R1 & R2).
      cbn [fst snd map]. split; [now rewrite R1|]. constructor; [|assumption].
      cbn. now apply map_array_none in G.
Qed.

Lemma columns_loop_exists : forall order parse columns fields bounds generated gs,
  NoDup (map fst generated) ->
  Forall2 (generated_as generated parse order columns) fields gs ->
  columns_loop order parse columns fields bounds (map_array_to_map generated)
  = Ok (map (fun c => match get (fst c) bounds with Some b => b | None => Lossless end) fields, gs).
Proof.
  intros order parse columns fields bounds generated gs ND H.
  induction H as [|[n t] g fields gs Hg H IH]; cbn [columns_loop]; [reflexivity|].
  destruct g as [g|]; cbn in Hg.
  - destruct Hg as (text & e & HI & P & T). apply map_array_get in HI; [|assumption].
    rewrite HI. cbn [bind]. rewrite P. cbn [bind]. rewrite T. cbn [bind]. rewrite IH. reflexivity.
  - apply map_array_none in Hg; [|assumption]. rewrite Hg. cbn [bind]. rewrite IH. reflexivity.
Qed.

Lemma columns_loop_no_panic : forall order parse columns fields bounds generated,
  (forall text, parse text <> Panic) ->
  columns_loop order parse columns fields bounds generated <> Panic.
Proof.
  intros order parse columns fields bounds generated HP.
  induction fields as [|[n t] fields IH]; cbn [columns_loop]; [discriminate|].
  assert (N : forall e, try_from_expr order columns e <> Panic).
  { intros e. unfold try_from_expr.
    assert (M : forall names, indices_of columns names <> Panic).
    { induction names as [|x names IH']; cbn [indices_of]; [discriminate|].
      destruct (index_of columns x); [|discriminate].
      destruct (indices_of columns names); cbn [bind]; congruence. }
    specialize (M (order (column_refs e))).
    destruct (indices_of columns (order (column_refs e))); cbn [bind]; congruence. }
  destruct (get n generated) as [text|]; cbn [bind].
  - specialize (HP text). destruct (parse text) as [e| |]; cbn [bind]; try congruence.
    specialize (N e). destruct (try_from_expr order columns e); cbn [bind]; try congruence.
    destruct (columns_loop _ _ _ _ _ _); cbn [bind]; congruence.
  - destruct (columns_loop _ _ _ _ _ _); cbn [bind]; congruence.
Qed.

Lemma unique_iff : forall names, unique names = true <-> NoDup names.
Proof.
  induction names as [|n names IH]; cbn [unique].
  - split; [constructor|reflexivity].
  - rewrite andb_true_iff, IH, negb_true_iff, NoDup_cons_iff. split; intros (A & B); split; try assumption.
    + intros H. assert (existsb (String.eqb n) names = true); [|congruence].
      apply existsb_exists. exists n. split; [assumption|apply String.eqb_refl].
    + destruct (existsb _ _) eqn:E; [|reflexivity]. apply existsb_exists in E.
      destruct E as (x & Hx & E). apply String.eqb_eq in E. subst. contradiction.
Qed.

(** ** The definition *)
Lemma Forall2_nth : forall {A B} (P : A -> B -> Prop) l k, Forall2 P l k ->
  length l = length k /\ (forall i a b, nth_error l i = Some a -> nth_error k i = Some b -> P a b).
Proof.
  intros A B P l k H. induction H as [|a b l k Hab H (IH1 & IH2)]; split; cbn; try congruence.
  - intros [|i]; discriminate.
  - intros [|i] a' b' E1 E2; cbn in *; [congruence|]. eauto.
Qed.
Lemma nth_short : forall {A B} (l : list A) (k : list B) i a, length l = length k ->
  nth_error l i = Some a -> nth_error k i = None -> False.
Proof.
  intros A B l k i a L H1 H2. apply nth_error_None in H2.
  assert (H : nth_error l i <> None) by congruence. apply nth_error_Some in H. lia.
Qed.
Lemma nth_Forall2 : forall {A B} (P : A -> B -> Prop) l k, length l = length k ->
  (forall i a b, nth_error l i = Some a -> nth_error k i = Some b -> P a b) -> Forall2 P l k.
Proof.
  intros A B P l. induction l as [|a l IH]; intros [|b k] L H; try discriminate; constructor.
  - now apply (H 0%nat).
  - apply IH; [now injection L|]. intros i. apply (H (S i)).
Qed.

Lemma Forall2_without : forall {A B} (P : A -> B -> Prop) gs l k, Forall2 P l k ->
  Forall2 P (without_generated gs l) (without_generated gs k).
Proof.
  intros A B P gs l k H. revert gs. induction H as [|a b l k Hab H IH]; intros [|[g|] gs];
    cbn [without_generated]; try constructor; auto.
Qed.

Lemma without_iff : forall {A} (P : A -> Prop) gs (l : list A),
  Forall2 (fun a g => g = None <-> P a) l gs ->
  forall a, In a (without_generated gs l) <-> In a l /\ P a.
Proof.
  intros A P gs l H. induction H as [|a g l gs Hg H IH]; intros x; cbn [without_generated].
  - cbn. tauto.
  - destruct g as [g|]; cbn [without_generated In]; rewrite IH.
    + split; [tauto|]. intros ([->|?] & HP); [|tauto]. apply Hg in HP. discriminate.
    + assert (P a) by now apply Hg. split; [intros [->|?]; tauto|tauto].
Qed.

Section Create.
Context (order : list string -> list string) (Ho : enumerates order).
Context (parse : string -> outcome expr).

Lemma generated_none : forall generated columns fields gs,
  Forall2 (generated_as generated parse order columns) fields gs ->
  Forall2 (fun c g => g = None <-> ~ In (fst c) (map fst generated)) fields gs.
Proof.
  intros generated columns fields gs H. induction H as [|c g fields gs Hg H IH]; constructor; auto.
  destruct g as [g|]; cbn in Hg; [|tauto]. destruct Hg as (text & e & HI & _).
  split; [discriminate|]. intros N. exfalso. apply N. apply in_map_iff. now exists (fst c, text).
Qed.

(** What is made for the names of the columns. *)
Lemma metadata_ok : forall name columns bounds generated m, NoDup (map fst generated) ->
  try_new_time_series_table_metadata order parse name columns bounds (map_array_to_map generated)
    = Ok m ->
  exists gs, NoDup (map fst columns) /\ Forall2 (generated_as generated parse order columns) columns gs
    /\ try_new name columns
         (map (fun c => match get (fst c) bounds with Some b => b | None => Lossless end) columns) gs
       = Ok m.
Proof.
  intros name columns bounds generated m ND. unfold try_new_time_series_table_metadata, to_dfschema.
  destruct (unique (map fst columns)) eqn:U; cbn [bind]; [|discriminate]. apply unique_iff in U.
  destruct (columns_loop _ _ _ _ _ _) as [all| |] eqn:L; cbn [bind]; try discriminate.
  apply columns_loop_ok in L; [|assumption]. destruct L as (L1 & L2). rewrite L1.
  intros H. exists (snd all). now repeat split.
Qed.

Lemma metadata_asked : forall {B} (means : B -> error_bound -> Prop) entries name columns bounds
  generated m, NoDup (map fst generated) ->
  (forall n b, In (n, b) entries -> exists eb, get n bounds = Some eb /\ means b eb) ->
  (forall n, ~ In n (map fst entries) -> get n bounds = None) ->
  try_new_time_series_table_metadata order parse name columns bounds (map_array_to_map generated)
    = Ok m ->
  as_asked means parse name columns entries generated m.
Proof.
  intros B means entries name columns bounds generated m ND H1 H2 H.
  apply metadata_ok in H; [|assumption]. destruct H as (gs & U & G & H).
  destruct (accepted_facts _ _ _ _ _ H) as (L1 & L2 & S & E & _ & N & Q & GC).
  constructor; [assumption|assumption| | |].
  - rewrite S. apply (without_iff (fun c => ~ In (fst c) (map fst generated))).
    now apply generated_none in G.
  - rewrite S, E. apply Forall2_without. apply nth_Forall2; [now rewrite map_length|].
    intros i c eb E1 E2. erewrite map_nth_error in E2 by eassumption. injection E2 as <-.
    destruct c as [n t]. cbn [fst]. split.
    + intros b HI. destruct (H1 n b HI) as (eb & -> & HM). exact HM.
    + intros NI. now rewrite H2.
  - rewrite GC. apply Forall2_nth in G. destruct G as (GL & G). apply nth_Forall2; [assumption|].
    intros i c g E1 E2. specialize (G i c g E1 E2). destruct g as [g|]; [|exact G].
    destruct G as (text & e & HI & P & T). exists text. split; [assumption|].
    apply try_from_expr_ok in T; [|assumption|assumption]. destruct T as (-> & _). exact P.
Qed.

Lemma index_by_name : forall (columns : list column) i n t, NoDup (map fst columns) ->
  nth_error columns i = Some (n, t) -> forall j u, nth_error columns j = Some (n, u) -> i = j.
Proof.
  intros columns i n t ND Hi j u Hj. rewrite NoDup_nth_error in ND. apply ND.
  - apply nth_error_Some. erewrite map_nth_error by exact Hi. discriminate.
  - erewrite (map_nth_error fst i) by exact Hi. erewrite (map_nth_error fst j) by exact Hj.
    reflexivity.
Qed.

(** [try_new_time_series_table_metadata] accepts exactly the acceptable tables. *)
Lemma metadata_iff : forall name columns bounds generated, NoDup (map fst generated) ->
  (exists m, try_new_time_series_table_metadata order parse name columns bounds
               (map_array_to_map generated) = Ok m)
  <-> acceptable parse columns generated.
Proof.
  intros name columns bounds generated ND. split.
  - intros (m & H). apply metadata_ok in H; [|assumption]. destruct H as (gs & U & G & H).
    apply try_new_ok in H. destruct H as (W & _). pose proof (generated_none _ _ _ _ G) as GN.
    apply Forall2_nth in GN. destruct GN as (GL & GN).
    assert (ST : forall i n t, nth_error columns i = Some (n, t) ->
              (stored_at gs i <-> ~ In n (map fst generated))).
    { intros i n t Hi. unfold stored_at. destruct (nth_error gs i) as [g|] eqn:Eg.
      - pose proof (GN i _ _ Hi Eg) as X. cbn [fst] in X. rewrite <- X.
        split; [intros Y; now injection Y|now intros ->].
      - exfalso. exact (nth_short columns gs i _ GL Hi Eg). }
    constructor.
    + exact U.
    + apply W.
    + intros [n t] HI. apply In_nth_error in HI. destruct HI as (i & Hi).
      apply (known_types _ _ _ W i). now exists n.
    + destruct (one_timestamp _ _ _ W) as (i & Si & (n & Hi) & Un). exists n.
      split; [now apply nth_error_In in Hi|]. split; [now apply (ST i n Timestamp_us Hi)|].
      intros n' HI NI. apply In_nth_error in HI. destruct HI as (j & Hj).
      assert (j = i).
      { apply Un; [|now exists n']. now apply (ST j n' Timestamp_us Hj). }
      subst j. assert (X : Some (n', Timestamp_us) = Some (n, Timestamp_us))
        by (rewrite <- Hi; symmetry; exact Hj). now injection X.
    + destruct (some_field _ _ _ W) as (i & Si & (n & Hi)). exists n.
      split; [now apply nth_error_In in Hi|]. now apply (ST i n Float32 Hi).
    + intros n text HI HG. apply in_map_iff in HI. destruct HI as ((n' & t) & E & HI).
      cbn in E. subst n'. apply In_nth_error in HI. destruct HI as (i & Hi).
      apply Forall2_nth in G. destruct G as (_ & G).
      destruct (nth_error gs i) as [g|] eqn:Eg.
      2:{ exfalso. exact (nth_short columns gs i _ GL Hi Eg). }
      specialize (G i _ _ Hi Eg). destruct g as [g|]; cbn in G.
      * destruct G as (text' & e & HI' & P & T).
        assert (text' = text).
        { pose proof (map_array_get generated ND n) as X.
          assert (Some text' = Some text) by (rewrite <- (proj2 (X text) HG); symmetry;
            now apply X). congruence. }
        subst text'. exists e. split; [assumption|].
        apply try_from_expr_ok in T; [|assumption|assumption]. destruct T as (<- & SM).
        destruct SM as (_ & S1 & S2). intros source Hs. specialize (S2 source Hs).
        split; [assumption|]. apply in_map_iff in S2. destruct S2 as ((s' & u) & E & HS).
        cbn in E. subst s'. apply In_nth_error in HS. destruct HS as (j & Hj).
        apply (ST j source u Hj). apply (stored_sources _ _ _ W i g); [assumption|].
        apply S1. now exists source, u.
      * exfalso. apply G. apply in_map_iff. now exists (n, text).
  - intros [A1 A2 A3 A4 A5 A6].
    assert (X : forall fields, (forall c, In c fields -> In c columns) ->
              exists gs, Forall2 (generated_as generated parse order columns) fields gs).
    { induction fields as [|[n t] fields IH]; intros HF; [now exists []|].
      destruct IH as (gs & IH). { intros c Hc. apply HF. now right. }
      assert (IN : In n (map fst columns)).
      { apply in_map_iff. exists (n, t). split; [reflexivity|]. apply HF. now left. }
      destruct (get n (map_array_to_map generated)) as [text|] eqn:Eg.
      - apply map_array_get in Eg; [|assumption]. destruct (A6 n text IN Eg) as (e & P & S).
        assert (T : exists g, try_from_expr order columns e = Ok g).
        { unfold try_from_expr. destruct (indices_of_exists columns (order (column_refs e)))
            as (is & ->); [|now eexists]. intros x Hx. apply S.
          apply (Permutation_in x (Ho _)) in Hx. unfold column_refs in Hx.
          now apply nodup_In in Hx. }
        destruct T as (g & T). exists (Some g :: gs). constructor; [|assumption].
        exists text, e. now repeat split.
      - apply map_array_none in Eg; [|assumption]. exists (None :: gs). now constructor. }
    destruct (X columns (fun c H => H)) as (gs & G). clear X.
    unfold try_new_time_series_table_metadata, to_dfschema.
    assert (unique (map fst columns) = true) as -> by now apply unique_iff. cbn [bind].
    rewrite (columns_loop_exists order parse columns columns bounds generated gs ND G).
    cbn [bind fst snd]. apply try_new_complete.
    pose proof (generated_none _ _ _ _ G) as GN.
    apply Forall2_nth in GN. destruct GN as (GL & GN).
    assert (ST : forall i n t, nth_error columns i = Some (n, t) ->
              (stored_at gs i <-> ~ In n (map fst generated))).
    { intros i n t Hi. unfold stored_at. destruct (nth_error gs i) as [g|] eqn:Eg.
      - pose proof (GN i _ _ Hi Eg) as X. cbn [fst] in X. rewrite <- X.
        split; [intros Y; now injection Y|now intros ->].
      - exfalso. exact (nth_short columns gs i _ GL Hi Eg). }
    constructor.
    + now rewrite map_length.
    + symmetry; exact GL.
    + exact A2.
    + intros i t (n & Hi). apply nth_error_In in Hi. apply (A3 _ Hi).
    + destruct A4 as (n & HI & NI & Un). apply In_nth_error in HI. destruct HI as (i & Hi).
      exists i. split; [now apply (ST i n Timestamp_us Hi)|]. split; [now exists n|].
      intros j Sj (n' & Hj). assert (n' = n).
      { apply Un; [now apply nth_error_In in Hj|]. now apply (ST j n' Timestamp_us Hj). }
      subst n'. symmetry. eapply index_by_name; eassumption.
    + destruct A5 as (n & HI & NI). apply In_nth_error in HI. destruct HI as (i & Hi).
      exists i. split; [now apply (ST i n Float32 Hi)|]. now exists n.
    + intros i g s Hg HS. apply Forall2_nth in G. destruct G as (_ & G).
      destruct (nth_error columns i) as [[n t]|] eqn:Hi.
      2:{ exfalso. exact (nth_short gs columns i _ (eq_sym GL) Hg Hi). }
      specialize (G i _ _ Hi Hg). cbn in G. destruct G as (text & e & HI & P & T).
      apply try_from_expr_ok in T; [|assumption|assumption]. destruct T as (<- & _ & S1 & S2).
      apply S1 in HS. destruct HS as (x & u & Hx & Hs). apply (ST s x u Hs).
      destruct (A6 n text) as (e' & P' & A).
      * apply in_map_iff. exists (n, t). split; [reflexivity|]. now apply nth_error_In in Hi.
      * assumption.
      * rewrite P in P'. injection P' as <-. now apply A.
Qed.

Lemma metadata_no_panic : forall name columns bounds generated,
  (forall text, parse text <> Panic) -> NoDup (map fst generated) ->
  try_new_time_series_table_metadata order parse name columns bounds (map_array_to_map generated)
    <> Panic.
Proof.
  intros name columns bounds generated HP ND. unfold try_new_time_series_table_metadata, to_dfschema.
  destruct (unique (map fst columns)) eqn:U; cbn [bind]; [|discriminate]. apply unique_iff in U.
  pose proof (columns_loop_no_panic order parse columns columns bounds (map_array_to_map generated) HP)
    as LP.
  destruct (columns_loop _ _ _ _ _ _) as [all| |] eqn:L; cbn [bind]; try congruence.
  apply columns_loop_ok in L; [|assumption]. destruct L as (_ & G).
  apply try_new_no_panic. intros i g s Hg HS. apply Forall2_nth in G. destruct G as (GL & G).
  destruct (nth_error columns i) as [c|] eqn:Hi.
  2:{ exfalso. exact (nth_short (snd all) columns i _ (eq_sym GL) Hg Hi). }
  specialize (G i _ _ Hi Hg). cbn in G. destruct G as (text & e & _ & _ & T).
  apply try_from_expr_ok in T; [|assumption|assumption]. destruct T as (_ & _ & S1 & _).
  apply S1 in HS. destruct HS as (x & u & _ & Hs). apply nth_error_Some. congruence.
Qed.

(** ** C *)
Lemma c_asked : forall name columns entries generated m,
  NoDup (map fst entries) -> NoDup (map fst generated) ->
  c_create order parse name columns entries generated = Ok m ->
  as_asked stands_for parse name columns entries generated m.
Proof.
  intros name columns entries generated m N1 N2. unfold c_create, error_bounds_array_to_error_bounds.
  destruct (error_bounds_loop entries []) as [bounds| |] eqn:E; cbn [bind]; try discriminate.
  apply bounds_loop_ok in E; [|assumption]. destruct E as (_ & E1 & E2). intros H.
  eapply metadata_asked; [assumption| | |eassumption].
  - assumption.
  - intros n NI. now rewrite E2.
Qed.

Lemma c_accepted : forall name columns entries generated,
  NoDup (map fst entries) -> NoDup (map fst generated) ->
  (exists m, c_create order parse name columns entries generated = Ok m)
  <-> acceptable parse columns generated
      /\ Forall (fun e => meaningful (snd e) /\ R32 (snd e) <> 0) entries.
Proof.
  intros name columns entries generated N1 N2. unfold c_create, error_bounds_array_to_error_bounds.
  split.
  - intros (m & H). destruct (error_bounds_loop entries []) as [bounds| |] eqn:E; cbn [bind] in H;
      try discriminate.
    apply bounds_loop_ok in E; [|assumption]. split; [|apply E].
    apply (metadata_iff name columns bounds generated N2). now exists m.
  - intros (A & F). destruct (bounds_loop_exists entries [] F) as (bounds & ->). cbn [bind].
    now apply metadata_iff.
Qed.

Lemma c_aborts : forall name columns entries generated,
  (forall text, parse text <> Panic) -> NoDup (map fst generated) ->
  c_create order parse name columns entries generated = Panic
  <-> Exists (fun e => ~ meaningful (snd e) \/ R32 (snd e) = 0) entries.
Proof.
  intros name columns entries generated HP N2. unfold c_create, error_bounds_array_to_error_bounds.
  assert (EQ : Exists (fun e => ~ meaningful (snd e) \/ R32 (snd e) = 0) entries
               <-> error_bounds_loop entries [] = Panic).
  { rewrite bounds_loop_panic. rewrite !Exists_exists. split; intros (x & HI & H); exists x;
      (split; [assumption|]).
    - tauto.
    - destruct (Req_dec (R32 (snd x)) 0); [now right|]. left. tauto. }
  rewrite EQ. destruct (error_bounds_loop entries []) as [bounds| |] eqn:E; cbn [bind].
  - split; [|discriminate]. intros H. now apply metadata_no_panic in H.
  - split; discriminate.
  - tauto.
Qed.
End Create.
