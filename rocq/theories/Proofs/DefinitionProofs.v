(** Proofs that definitions of time series tables are created, stored and sent correctly. *)
From Coq Require Import ZArith Bool String List Lia Permutation Sorted.
From Verif Require Import Model.Base Model.Float Model.ErrorBound Model.Filters Model.Table
  Spec.ErrorBoundSpec Spec.TableSpec Proofs.ErrorBoundProofs Proofs.TableProofs.
Import ListNotations.
Open Scope nat_scope.
Open Scope list_scope.

Lemma unique_NoDup : forall names, unique names = true <-> NoDup names.
Proof.
  induction names as [|n names IH]; cbn [unique].
  - split; [constructor|reflexivity].
  - rewrite andb_true_iff, negb_true_iff, IH. split.
    + intros [H1 H2]. constructor; [|exact H2]. intros Hin.
      assert (existsb (String.eqb n) names = true)
        by (apply existsb_exists; exists n; split; [exact Hin|apply String.eqb_refl]).
      congruence.
    + intros H. inversion H; subst. split; [|assumption].
      apply not_true_is_false. intros E. apply existsb_exists in E. destruct E as (x & Hx & Ex).
      apply String.eqb_eq in Ex. congruence.
Qed.

Lemma to_dfschema_ok : forall columns c, to_dfschema columns = Ok c <->
  c = columns /\ NoDup (map fst columns).
Proof.
  intros columns c. unfold to_dfschema. destruct (unique (map fst columns)) eqn:E.
  - apply unique_NoDup in E. split; [|intros [-> _]; reflexivity]. intros H.
    injection H as <-. split; [reflexivity|exact E].
  - split; [discriminate|]. intros [_ H]. apply unique_NoDup in H. congruence.
Qed.

(** Looking up columns by name. *)
Lemma index_of_some : forall columns name i, index_of columns name = Some i ->
  exists t, nth_error columns i = Some (name, t).
Proof.
  induction columns as [|(n, t) columns IH]; intros name i; cbn [index_of]; [discriminate|].
  destruct (String.eqb_spec n name) as [->|N].
  - intros H. injection H as <-. now exists t.
  - destruct (index_of columns name) as [j|] eqn:E; cbn [option_map]; [|discriminate].
    intros H. injection H as <-. now apply IH.
Qed.

Lemma index_of_none : forall columns name, index_of columns name = None <->
  ~ In name (map fst columns).
Proof.
  induction columns as [|(n, t) columns IH]; intros name; cbn [index_of map fst In].
  - tauto.
  - destruct (String.eqb_spec n name) as [->|N]; [split; [discriminate|tauto]|].
    destruct (index_of columns name) as [j|] eqn:E; cbn [option_map].
    + split; [discriminate|]. intros H. exfalso.
      assert (~ In name (map fst columns)) by tauto. apply IH in H0. congruence.
    + apply IH in E. tauto.
Qed.

Lemma index_of_app : forall before name t after, ~ In name (map fst before) ->
  index_of (before ++ (name, t) :: after) name = Some (length before).
Proof.
  induction before as [|(n, u) before IH]; intros name t after H; cbn [app index_of length].
  - now rewrite String.eqb_refl.
  - cbn [map fst In] in H. destruct (String.eqb_spec n name); [tauto|].
    rewrite IH by tauto. reflexivity.
Qed.

Lemma index_of_nth : forall columns name t i, NoDup (map fst columns) ->
  nth_error columns i = Some (name, t) -> index_of columns name = Some i.
Proof.
  intros columns name t i ND H. apply nth_error_split in H. destruct H as (l1 & l2 & -> & <-).
  apply index_of_app. rewrite map_app in ND. cbn [map fst] in ND.
  apply NoDup_remove_2 in ND. intros H. apply ND. apply in_or_app. now left.
Qed.

Lemma indices_of_ok : forall columns names indices, indices_of columns names = Ok indices ->
  Forall2 (fun name i => index_of columns name = Some i) names indices.
Proof.
  induction names as [|n names IH]; intros indices; cbn [indices_of].
  - intros H. injection H as <-. constructor.
  - destruct (index_of columns n) as [i|] eqn:E; [|discriminate].
    destruct (indices_of columns names) as [is| |]; cbn [bind]; try discriminate.
    intros H. injection H as <-. constructor; [exact E|now apply IH].
Qed.

Lemma indices_of_exists : forall columns names, (forall n, In n names -> In n (map fst columns)) ->
  exists indices, indices_of columns names = Ok indices.
Proof.
  induction names as [|n names IH]; intros H; cbn [indices_of]; [now eexists|].
  destruct (index_of columns n) as [i|] eqn:E.
  - destruct IH as (is & ->); [intros m Hm; apply H; now right|]. cbn [bind]. now eexists.
  - apply index_of_none in E. exfalso. apply E, H. now left.
Qed.

Lemma Forall2_In_r : forall {A B} (P : A -> B -> Prop) l k, Forall2 P l k ->
  forall b, In b k -> exists a, In a l /\ P a b.
Proof.
  intros A B P l k H. induction H as [|a b l k H1 H2 IH]; intros c Hc; [destruct Hc|].
  destruct Hc as [<-|Hc]; [exists a; split; [now left|exact H1]|].
  destruct (IH c Hc) as (a' & Ha & HP). exists a'. split; [now right|exact HP].
Qed.
Lemma Forall2_In_l : forall {A B} (P : A -> B -> Prop) l k, Forall2 P l k ->
  forall a, In a l -> exists b, In b k /\ P a b.
Proof.
  intros A B P l k H. induction H as [|a b l k H1 H2 IH]; intros c Hc; [destruct Hc|].
  destruct Hc as [<-|Hc]; [exists b; split; [now left|exact H1]|].
  destruct (IH c Hc) as (b' & Hb & HP). exists b'. split; [now right|exact HP].
Qed.

Lemma column_refs_In : forall e n, In n (column_refs e) <-> In n (names_in e).
Proof. intros. apply nodup_In. Qed.

(** The sources of a new generated column are right. *)
Lemma try_from_expr_ok : forall ord columns e g, enumerates ord -> NoDup (map fst columns) ->
  try_from_expr ord columns e = Ok g -> generated_expr g = e /\ sources_match columns g.
Proof.
  intros ord columns e g Ho ND. unfold try_from_expr.
  destruct (indices_of columns (ord (column_refs e))) as [is| |] eqn:E; cbn [bind]; try discriminate.
  intros H. injection H as <-. split; [reflexivity|]. apply indices_of_ok in E.
  assert (Hin : forall n, In n (ord (column_refs e)) <-> In n (names_in e)).
  { intros n. rewrite <- column_refs_In. split; apply Permutation_in; [|symmetry]; apply Ho. }
  split; [|split]; cbn [source_columns generated_expr].
  - assert (NDr : NoDup (ord (column_refs e))).
    { apply (Permutation_NoDup (l := column_refs e)); [symmetry; apply Ho|apply NoDup_nodup]. }
    clear Hin. induction E as [|n i ns is' H1 H2 IH]; [constructor|].
    inversion NDr; subst. constructor; [|now apply IH].
    intros Hi. destruct (Forall2_In_r _ _ _ H2 i Hi) as (m & Hm & Em).
    apply index_of_some in H1. apply index_of_some in Em. destruct H1 as (t & H1).
    destruct Em as (u & Em). rewrite H1 in Em. injection Em as -> _. contradiction.
  - intros i. split.
    + intros Hi. destruct (Forall2_In_r _ _ _ E i Hi) as (n & Hn & En).
      apply index_of_some in En. destruct En as (t & En). exists n, t. split; [now apply Hin|exact En].
    + intros (n & t & Hn & En). apply Hin in Hn.
      destruct (Forall2_In_l _ _ _ E n Hn) as (j & Hj & Ej).
      rewrite (index_of_nth columns n t i ND En) in Ej. injection Ej as ->. exact Hj.
  - intros n Hn. apply Hin in Hn. destruct (Forall2_In_l _ _ _ E n Hn) as (j & Hj & Ej).
    apply index_of_some in Ej. destruct Ej as (t & Ej). apply nth_error_In in Ej.
    now apply (in_map fst) in Ej.
Qed.

(** A generated column with the right sources is created again. *)
Lemma try_from_expr_again : forall ord columns g, enumerates ord -> NoDup (map fst columns) ->
  sources_match columns g -> exists h, try_from_expr ord columns (generated_expr g) = Ok h
    /\ same_generated (Some g) (Some h) /\ sources_match columns h.
Proof.
  intros ord columns g Ho ND Hg.
  assert (X : exists h, try_from_expr ord columns (generated_expr g) = Ok h).
  { unfold try_from_expr. destruct (indices_of_exists columns (ord (column_refs (generated_expr g))))
      as (is & ->); [|cbn [bind]; now eexists].
    intros n Hn. apply Hg. apply column_refs_In. revert Hn. apply Permutation_in, Ho. }
  destruct X as (h & Hh). exists h. split; [exact Hh|].
  destruct (try_from_expr_ok ord columns _ h Ho ND Hh) as (E & Hm). split; [|exact Hm].
  cbn. split; [now symmetry|]. destruct Hg as (G1 & G2 & _), Hm as (H1 & H2 & _).
  apply NoDup_Permutation; [exact G1|exact H1|]. intros i. rewrite G2, H2, E. tauto.
Qed.

Lemma same_generated_refl : forall g, same_generated g g.
Proof. intros [g|]; cbn; [split; [reflexivity|apply Permutation_refl]|exact I]. Qed.

(** [try_new] does not depend on the order of sources. *)
Lemma without_same : forall {A} gs hs (l : list A), Forall2 same_generated gs hs ->
  without_generated gs l = without_generated hs l.
Proof.
  intros A gs hs l H. revert l. induction H as [|g h gs hs H1 H2 IH]; intros [|a l]; try reflexivity.
  - destruct g, h; reflexivity.
  - destruct g as [g|], h as [h|]; cbn in H1; try tauto; cbn [without_generated].
    + apply IH.
    + f_equal. apply IH.
Qed.

Lemma same_stored_at : forall gs hs i, Forall2 same_generated gs hs ->
  stored_at gs i <-> stored_at hs i.
Proof.
  intros gs hs i H. unfold stored_at. revert i.
  induction H as [|g h gs hs H1 H2 IH]; intros [|i]; cbn [nth_error]; try tauto.
  - destruct g as [g|], h as [h|]; cbn in H1; intuition discriminate.
  - apply IH.
Qed.

Lemma check_same : forall gs hs, Forall2 same_generated gs hs ->
  check_generated gs gs = Ok tt -> check_generated hs hs = Ok tt.
Proof.
  intros gs hs H E. apply check_generated_ok. rewrite check_generated_ok in E.
  intros i h s Hi Hs. apply (same_stored_at gs hs s H).
  assert (X : exists g, nth_error gs i = Some (Some g) /\ same_generated (Some g) (Some h)).
  { clear E. revert i Hi. induction H as [|g' h' gs' hs' H1 H2 IH]; intros [|i] Hi;
      cbn [nth_error] in *; try discriminate.
    - injection Hi as ->. destruct g' as [g'|]; [|destruct H1]. now exists g'.
    - now apply IH. }
  destruct X as (g & Hg & _ & P). apply (E i g); [exact Hg|].
  revert Hs. apply Permutation_in. now symmetry.
Qed.

Lemma try_new_same : forall name columns bounds bounds' gs hs m,
  try_new name columns bounds gs = Ok m -> Forall2 same_generated gs hs ->
  length bounds' = length columns ->
  without_generated gs bounds' = without_generated gs bounds ->
  exists n, try_new name columns bounds' hs = Ok n /\ same_definition m n
    /\ generated_columns n = hs.
Proof.
  intros name columns bounds bounds' gs hs m H Hs Hl Hb.
  pose proof (check_same gs hs Hs) as Hc.
  assert (Hlen : length gs = length hs) by (clear - Hs; induction Hs; cbn; congruence).
  revert H. unfold try_new.
  destruct (Nat.eqb_spec (length columns) (length bounds)) as [L1|]; cbn [negb]; [|discriminate].
  destruct (Nat.eqb_spec (length columns) (length gs)) as [L2|]; cbn [negb]; [|discriminate].
  destruct (check_generated gs gs) as [[]| |] eqn:E1; cbn [bind]; try discriminate.
  rewrite Hl, <- Hlen, <- L2, !Nat.eqb_refl, (Hc eq_refl). cbn [negb bind].
  destruct (32767 <? Z.of_nat (length columns))%Z; [discriminate|].
  destruct (forallb (fun c => supported (snd c)) columns) eqn:E2; cbn [negb]; [|discriminate].
  rewrite <- !(without_same gs hs _ Hs).
  destruct (indices_with_type (without_generated gs columns) Timestamp_us)
    as [|t [|]] eqn:E3; try discriminate.
  destruct (indices_with_type (without_generated gs columns) Float32) as [|f fs] eqn:E4;
    [discriminate|].
  intros H. injection H as <-. eexists. split; [reflexivity|]. split; [|reflexivity].
  constructor; cbn; try reflexivity; [now symmetry|exact Hs|auto].
Qed.
