(** Proofs about the definitions of tables that are only partly saved. *)
From Coq Require Import ZArith Bool String List Lia Permutation Sorted.
From Verif Require Import Model.Base Model.Float Model.ErrorBound Model.Filters Model.Table
  Model.Catalog Spec.ErrorBoundSpec Spec.TableSpec Spec.CatalogSpec Proofs.TableProofs
  Proofs.DefinitionProofs Proofs.StoredDefinitionProofs.
Import ListNotations.
Open Scope nat_scope.
Open Scope list_scope.

(** The rows of the first columns are the first rows. *)
Lemma field_rows_app : forall ser m a b k,
  field_rows ser m k (a ++ b)
  = let? x := field_rows ser m k a in
    let? y := field_rows ser m (k + length a) b in Ok (x ++ y).
Proof.
  intros ser m a b. induction a as [|(name, t) a IH]; intros k; cbn [app field_rows length bind].
  - rewrite Nat.add_0_r. destruct (field_rows ser m k b); reflexivity.
  - rewrite IH. replace (k + S (length a)) with (S k + length a) by lia.
    destruct (arrow_type_eqb t Float32); [|reflexivity].
    destruct (saved_bound m name) as [(v, r)| |]; cbn [bind]; try reflexivity.
    destruct (field_rows ser m (S k) a); cbn [bind]; try reflexivity.
    destruct (field_rows ser m (S k + length a) b); reflexivity.
Qed.

Lemma field_rows_length : forall ser m columns k rows, field_rows ser m k columns = Ok rows ->
  length rows = fields columns.
Proof.
  intros ser m columns. unfold fields. induction columns as [|(name, t) columns IH]; intros k rows;
    cbn [field_rows filter snd].
  - intros H. injection H as <-. reflexivity.
  - destruct (arrow_type_eqb t Float32); [|apply IH].
    destruct (saved_bound m name) as [(v, r)| |]; cbn [bind]; try discriminate.
    destruct (field_rows ser m (S k) columns) as [rs| |] eqn:E; cbn [bind]; try discriminate.
    intros H. injection H as <-. cbn [length]. f_equal. eapply IH, E.
Qed.

Lemma field_rows_prefix : forall ser m columns rows i, field_rows ser m 0 columns = Ok rows ->
  field_rows ser m 0 (firstn i columns) = Ok (firstn (fields (firstn i columns)) rows).
Proof.
  intros ser m columns rows i H. rewrite <- (firstn_skipn i columns), field_rows_app in H.
  destruct (field_rows ser m 0 (firstn i columns)) as [x| |] eqn:E; cbn [bind] in H; try discriminate.
  destruct (field_rows ser m _ (skipn i columns)) as [y| |]; cbn [bind] in H; try discriminate.
  injection H as <-. rewrite <- (field_rows_length _ _ _ _ _ E).
  rewrite firstn_app, Nat.sub_diag, firstn_all. cbn [firstn]. now rewrite app_nil_r.
Qed.

(** For every number of rows there is a number of columns with as many fields. *)
Lemma fields_position : forall columns j, j <= fields columns ->
  exists i, i <= length columns /\ fields (firstn i columns) = j.
Proof.
  unfold fields. induction columns as [|c columns IH]; intros j; cbn [filter].
  - cbn. intros H. exists 0. cbn. lia.
  - intros H. destruct j as [|j]; [exists 0; cbn; lia|].
    destruct (arrow_type_eqb (snd c) Float32) eqn:E.
    + cbn [length] in H. destruct (IH j) as (i & L & F); [lia|]. exists (S i). cbn [length firstn filter].
      rewrite E. cbn [length]. split; lia.
    + destruct (IH (S j) H) as (i & L & F). exists (S i). cbn [length firstn filter]. rewrite E.
      split; [lia|exact F].
Qed.

(** Loading into longer lists. *)
Lemma set_at_app : forall {A} (l t : list A) i a l', set_at l i a = Ok l' ->
  set_at (l ++ t) i a = Ok (l' ++ t).
Proof.
  intros A l t. induction l as [|b l IH]; intros [|i] a l'; cbn [set_at app]; try discriminate.
  - intros H. injection H as <-. reflexivity.
  - destruct (set_at l i a) as [l2| |] eqn:E; cbn [bind]; try discriminate.
    intros H. injection H as <-. rewrite (IH _ _ _ E). reflexivity.
Qed.

Lemma load_bounds_app : forall rows l t l', load_error_bounds rows l = Ok l' ->
  load_error_bounds rows (l ++ t) = Ok (l' ++ t).
Proof.
  induction rows as [|r rows IH]; intros l t l'; cbn [load_error_bounds].
  - intros H. injection H as <-. reflexivity.
  - destruct (f32_eq (row_error_bound r) f32_zero); [apply IH|].
    destruct (if row_relative r then _ else _) as [b| |]; cbn [bind]; try discriminate.
    destruct (set_at l (row_index r) b) as [l2| |] eqn:E; cbn [bind]; try discriminate.
    rewrite (set_at_app l t _ _ _ E). cbn [bind]. apply IH.
Qed.

Lemma load_generated_app : forall ser ord all rows l t l',
  load_generated ser ord all rows l = Ok l' -> load_generated ser ord all rows (l ++ t) = Ok (l' ++ t).
Proof.
  intros ser ord all. induction rows as [|r rows IH]; intros l t l'; cbn [load_generated].
  - intros H. injection H as <-. reflexivity.
  - destruct (row_expr r) as [[|z zs]|]; try apply IH.
    destruct (from_bytes ser (z :: zs)) as [e| |]; cbn [bind]; try discriminate.
    destruct (try_from_expr ord all e) as [g| |]; cbn [bind]; try discriminate.
    destruct (set_at l (row_index r) (Some g)) as [l2| |] eqn:E; cbn [bind]; try discriminate.
    rewrite (set_at_app l t _ _ _ E). cbn [bind]. apply IH.
Qed.

(** The error bounds of stored columns. *)
Lemma loaded_stored : forall m bounds, valid_table m ->
  try_new (table_name m) (query_schema m) bounds (generated_columns m) = Ok m ->
  without_generated (generated_columns m) (map (loaded_bound m) (query_schema m))
  = without_generated (generated_columns m) bounds.
Proof.
  intros m bounds [_ ND HV HB HG] Hacc.
  destruct (accepted_facts _ _ _ _ _ Hacc) as (L1 & L2 & S1 & B1 & L3 & _).
  rewrite without_map, <- S1, <- B1. apply map_pointwise; [now symmetry|].
  intros k (name, t) b Hk Hb. unfold loaded_bound. cbn [fst snd].
  assert (NDs : NoDup (map fst (schema m))).
  { rewrite S1, <- without_map. now apply without_NoDup. }
  destruct (arrow_type_eqb t Float32) eqn:Et.
  - now apply (bound_of_stored m k name t).
  - destruct b as [e|e|]; [| |reflexivity].
    + destruct (HB k (Absolute e) Hb) as (n & Hn); [discriminate|].
      rewrite Hk in Hn. injection Hn as _ ->. discriminate.
    + destruct (HB k (Relative e) Hb) as (n & Hn); [discriminate|].
      rewrite Hk in Hn. injection Hn as _ ->. discriminate.
Qed.

Lemma without_nth : forall {A} gs (l l' : list A) p, length l = length l' ->
  without_generated gs l = without_generated gs l' -> stored_at gs p -> nth_error l p = nth_error l' p.
Proof.
  intros A gs. unfold stored_at. induction gs as [|g gs IH]; intros [|a l] [|b l'] [|p] L E S;
    try discriminate; try reflexivity.
  - cbn [nth_error] in *. injection S as ->. cbn [without_generated] in E. congruence.
  - cbn [nth_error] in *. destruct g; cbn [without_generated] in E.
    + apply IH; [now injection L|exact E|exact S].
    + apply IH; [now injection L|congruence|exact S].
Qed.

(** Lists of which only the first elements are kept. *)
Lemma cut_nth_before : forall {A} (l : list A) i d p, p < i ->
  nth_error (firstn i l ++ repeat d (length l - i)) p = nth_error l p.
Proof.
  intros A l. induction l as [|a l IH]; intros [|i] d [|p] H; try lia; cbn [firstn app length repeat].
  - now destruct i.
  - reflexivity.
  - reflexivity.
  - cbn [Nat.sub nth_error]. apply IH. lia.
Qed.

Lemma cut_nth_after : forall {A} (l : list A) i d p, i <= p -> p < length l ->
  nth_error (firstn i l ++ repeat d (length l - i)) p = Some d.
Proof.
  intros A l. induction l as [|a l IH]; intros [|i] d [|p] H L; cbn [length] in L; try lia;
    cbn [firstn app length repeat Nat.sub nth_error].
  - reflexivity.
  - specialize (IH 0 d p (Nat.le_0_l _)). rewrite Nat.sub_0_r in IH. apply IH. lia.
  - apply IH; lia.
Qed.

Lemma cut_length : forall {A} (l : list A) i d, length (firstn i l ++ repeat d (length l - i)) = length l.
Proof. intros A l i d. rewrite app_length, firstn_length, repeat_length. lia. Qed.

Lemma same_generated_stored : forall gs hs p, Forall2 same_generated gs hs ->
  (stored_at gs p <-> stored_at hs p).
Proof.
  intros gs hs p H. unfold stored_at. revert p. induction H as [|g h gs hs Hg H IH]; intros [|p];
    cbn [nth_error].
  - tauto.
  - tauto.
  - destruct g, h; cbn in Hg; try contradiction; split; intros E; try discriminate; reflexivity.
  - apply IH.
Qed.

Lemma Forall2_nth_some : forall {A B} (P : A -> B -> Prop) l k, Forall2 P l k ->
  forall i b, nth_error k i = Some b -> exists a, nth_error l i = Some a /\ P a b.
Proof.
  intros A B P l k H. induction H as [|a b l k Hp H IH]; intros [|i] c E; try discriminate.
  - cbn in E. injection E as <-. now exists a.
  - now apply IH.
Qed.

(** A definition of which only some columns have been saved is accepted. *)
Lemma interrupted_loads : forall ser ord m i rows s, faithful ser -> enumerates ord ->
  valid_table m -> i <= length (query_schema m) ->
  field_rows ser m 0 (firstn i (query_schema m)) = Ok rows ->
  rows_for (table_name m) s = rows ->
  exists n, load_row ser ord s (table_name m, query_schema m) = Ok n /\ interrupted i m n.
Proof.
  intros ser ord m i rows s Hf Ho Hv Hi Er Hrows. pose proof Hv as [Hacc ND HV HB HG].
  destruct Hacc as (bounds & Hacc).
  destruct (accepted_facts _ _ _ _ _ Hacc) as (L1 & L2 & S1 & B1 & L3 & _).
  destruct (try_new_ok _ _ _ _ _ Hacc) as (W & D & _).
  pose proof (loaded_stored m bounds Hv Hacc) as Hstored.
  assert (Lf : length (firstn i (query_schema m)) = i) by (rewrite firstn_length; lia).
  assert (Lg : length (firstn i (generated_columns m)) = i) by (rewrite firstn_length; lia).
  (* The error bounds. *)
  pose proof (load_bounds_ok ser m (firstn i (query_schema m)) 0 rows [] L3 HV Er eq_refl) as El.
  cbn [app] in El. rewrite Lf in El.
  apply (load_bounds_app _ _ (repeat Lossless (length (query_schema m) - i))) in El.
  rewrite <- repeat_app in El. replace (i + (length (query_schema m) - i))
    with (length (query_schema m)) in El by lia.
  (* The generated columns. *)
  destruct (load_generated_ok ser ord m (firstn i (query_schema m)) (query_schema m) 0 rows []
              (firstn i (generated_columns m)) Hf Ho ND Er eq_refl) as (hs & E1 & E2 & E3).
  { rewrite Lf. exact Lg. }
  { intros j Hj. rewrite Lg in Hj. cbn [Nat.add].
    rewrite <- (firstn_skipn i (generated_columns m)) at 1.
    rewrite nth_error_app1 by lia. reflexivity. }
  { intros j g Hj.
    assert (Lj : j < i) by (rewrite <- Lg; apply nth_error_Some; congruence).
    assert (Hj' : nth_error (generated_columns m) j = Some (Some g)).
    { rewrite <- (firstn_skipn i (generated_columns m)). now rewrite nth_error_app1 by lia. }
    destruct (HG j g Hj') as ((name & T) & M). split; [|exact M]. exists name.
    rewrite <- (firstn_skipn i (query_schema m)) in T. now rewrite nth_error_app1 in T by lia. }
  cbn [app] in E1. rewrite Lf in E1, E3.
  apply (load_generated_app _ _ _ _ _ (repeat None (length (query_schema m) - i))) in E1.
  rewrite <- repeat_app in E1. replace (i + (length (query_schema m) - i))
    with (length (query_schema m)) in E1 by lia.
  set (gens := firstn i (generated_columns m)
               ++ repeat None (length (generated_columns m) - i)).
  set (hs' := hs ++ repeat None (length (query_schema m) - i)) in *.
  assert (Sg : Forall2 same_generated gens hs').
  { unfold gens, hs'. rewrite L1. apply Forall2_app; [exact E2|].
    generalize (length (query_schema m) - i). intros k. clear. induction k; constructor; [exact I|exact IHk]. }
  set (bs := map (loaded_bound m) (firstn i (query_schema m))
             ++ repeat Lossless (length (query_schema m) - i)) in *.
  set (bounds' := firstn i bounds ++ repeat Lossless (length bounds - i)).
  assert (Lbs : length bs = length (query_schema m)).
  { unfold bs. rewrite app_length, map_length, repeat_length, Lf. lia. }
  assert (Lhs : length hs' = length (query_schema m)).
  { unfold hs'. rewrite app_length, repeat_length, E3. lia. }
  (* Stored columns. *)
  assert (St : forall p, stored_at (generated_columns m) p -> stored_at gens p).
  { intros p Hp. unfold stored_at, gens in *. destruct (Nat.lt_ge_cases p i) as [Lp|Lp].
    - now rewrite cut_nth_before.
    - apply cut_nth_after; [exact Lp|]. apply nth_error_Some. congruence. }
  assert (Ts : forall p t, stored_at gens p -> type_at (query_schema m) p t ->
            stored_at (generated_columns m) p \/ (i <= p /\ t = Float32)).
  { intros p t Hp (name & Ht). destruct (nth_error (generated_columns m) p) as [[g|]|] eqn:Eg.
    - destruct (Nat.lt_ge_cases p i) as [Lp|Lp].
      + unfold stored_at, gens in Hp. rewrite cut_nth_before in Hp by exact Lp. congruence.
      + right. split; [exact Lp|]. destruct (HG p g Eg) as ((name' & Ht') & _). congruence.
    - left. exact Eg.
    - apply nth_error_None in Eg. assert (p < length (query_schema m)) by (apply nth_error_Some; congruence).
      lia. }
  assert (Wn : well_formed (query_schema m) bs hs').
  { destruct W as [W1 W2 W3 W4 W5 W6 W7]. constructor.
    - exact Lbs.
    - exact Lhs.
    - exact W3.
    - exact W4.
    - destruct W5 as (j & J1 & J2 & J3). exists j.
      split; [now apply (same_generated_stored _ _ _ Sg), St|]. split; [exact J2|].
      intros q Q1 Q2. apply (same_generated_stored _ _ _ Sg) in Q1.
      destruct (Ts q _ Q1 Q2) as [Q3|(_ & Q3)]; [now apply J3|discriminate].
    - destruct W6 as (j & J1 & J2). exists j.
      split; [now apply (same_generated_stored _ _ _ Sg), St|exact J2].
    - intros j h q Hj Hq. apply (same_generated_stored _ _ _ Sg), St.
      destruct (Forall2_nth_some _ _ _ Sg j _ Hj) as ([g|] & Hg & Sgh); [|destruct Sgh].
      destruct Sgh as (_ & P).
      assert (Hg' : nth_error (generated_columns m) j = Some (Some g)).
      { unfold gens in Hg. destruct (Nat.lt_ge_cases j i) as [Lj|Lj].
        - now rewrite cut_nth_before in Hg.
        - assert (Lj' : j < length gens) by (unfold gens; apply nth_error_Some; congruence).
          unfold gens in Lj'. rewrite cut_length in Lj'. rewrite cut_nth_after in Hg by assumption.
          discriminate. }
      apply (W7 j g q Hg'). apply (Permutation_in _ (Permutation_sym P)), Hq. }
  destruct (try_new_complete (table_name m) _ _ _ Wn) as (n & En).
  exists n. split.
  - unfold load_row. rewrite Hrows, El. cbn [bind].
    rewrite (proj2 (to_dfschema_ok (query_schema m) _) (conj eq_refl ND)). cbn [bind].
    rewrite E1. cbn [bind]. exact En.
  - destruct (try_new_ok _ _ _ _ _ En) as (_ & Dn & Nn & _).
    destruct (accepted_facts _ _ _ _ _ En) as (_ & _ & _ & _ & _ & _ & Qn & Gn).
    split; [exact Nn|]. split; [exact Qn|]. exists bounds. split; [exact D|].
    rewrite Gn. split; [|exact Sg]. destruct Dn as [D1 D2 D3 D4 D5 D6 D7 D8 D9].
    constructor; try assumption.
    rewrite D4. apply map_ext_in. intros p Hp. apply D2 in Hp.
    apply (same_generated_stored _ _ _ Sg) in Hp. fold bounds'.
    destruct (Nat.lt_ge_cases p i) as [Lp|Lp].
    + unfold bounds'. rewrite cut_nth_before by exact Lp.
      assert (Hp' : stored_at (generated_columns m) p).
      { unfold stored_at, gens in Hp. now rewrite cut_nth_before in Hp. }
      assert (L : length (map (loaded_bound m) (query_schema m)) = length bounds)
        by (rewrite map_length; now symmetry).
      pose proof (without_nth _ _ _ p L Hstored Hp') as X. rewrite <- X.
      unfold bs. rewrite nth_error_app1 by (rewrite map_length; lia).
      rewrite !nth_error_map. f_equal.
      rewrite <- (firstn_skipn i (query_schema m)) at 2. rewrite nth_error_app1 by lia. reflexivity.
    + assert (Lp' : p < length gens) by (apply nth_error_Some; unfold stored_at in Hp; congruence).
      unfold gens in Lp'. rewrite cut_length in Lp'.
      unfold bounds'. rewrite cut_nth_after by lia.
      unfold bs. rewrite nth_error_app2 by (rewrite map_length; lia).
      apply nth_error_repeat. rewrite map_length, Lf. lia.
Qed.

(** A definition depends only on the rows of its table. *)
Lemma load_row_ext : forall ser ord name columns s s', rows_for name s = rows_for name s' ->
  load_row ser ord s (name, columns) = load_row ser ord s' (name, columns).
Proof. intros ser ord name columns s s' H. unfold load_row. now rewrite H. Qed.

(** If all columns have been saved it is the same definition. *)
Lemma complete_loads : forall ser ord m rows s, faithful ser -> enumerates ord -> valid_table m ->
  field_rows ser m 0 (query_schema m) = Ok rows -> rows_for (table_name m) s = rows ->
  exists n, load_row ser ord s (table_name m, query_schema m) = Ok n /\ same_definition m n
    /\ valid_table n.
Proof.
  intros ser ord m rows s Hf Ho Hv Er Hrows.
  destruct (restart_ok ser ord m (Store [] []) Hf Ho Hv) as (s' & Es & (n & En & Sn & Vn) & _);
    [constructor|].
  unfold save in Es. rewrite Er in Es. cbn [bind] in Es. injection Es as <-.
  exists n. split; [|split; [exact Sn|exact Vn]]. rewrite <- En. apply load_row_ext.
  rewrite Hrows. symmetry. unfold rows_for. cbn [rows_of_fields app].
  apply (rows_for_fresh (table_name m) (Store [] []) rows); [constructor|].
  now apply (field_rows_table ser m (query_schema m) 0).
Qed.
