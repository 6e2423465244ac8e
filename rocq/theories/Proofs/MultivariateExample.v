(** A sort that meets the assumption about sorting, and a batch with two time series. *)
From Coq Require Import ZArith Bool Lia List Sorting.Sorted Sorting.Permutation.
From Verif Require Import Model.Base Model.Float Model.ErrorBound Model.Segments Model.Multivariate
  Spec.MultivariateSpec Proofs.MultivariateProofs.
Import ListNotations.
Open Scope Z_scope.

Fixpoint lex_compare {A : Type} (compare : A -> A -> comparison) (k l : list A) : comparison :=
  match k, l with
  | [], [] => Eq
  | [], _ :: _ => Lt
  | _ :: _, [] => Gt
  | a :: k, b :: l => match compare a b with Eq => lex_compare compare k l | c => c end
  end.

Definition cell_compare (a b : cell) : comparison :=
  match a, b with
  | Tag s, Tag s' => lex_compare Z.compare s s'
  | Time t, Time t' => t ?= t'
  | _, _ => Eq
  end.

Definition agrees {A : Type} (less : A -> A -> Prop) (c : comparison) (a b : A) : Prop :=
  match c with Eq => a = b | Lt => less a b | Gt => less b a end.

Lemma lex_compare_agrees : forall (A : Type) (less : A -> A -> Prop) compare k l,
  (forall a b, In a k -> In b l -> agrees less (compare a b) a b) ->
  agrees (lexicographic less) (lex_compare compare k l) k l.
Proof.
  intros A less compare k. induction k as [|a k IH]; intros [|b l] H; cbn [lex_compare].
  - reflexivity.
  - constructor.
  - constructor.
  - specialize (H a b (or_introl eq_refl) (or_introl eq_refl)) as Hab.
    destruct (compare a b); cbn [agrees] in Hab.
    + subst b. specialize (IH l). destruct (lex_compare compare k l); cbn [agrees] in *.
      * f_equal. apply IH. intros x y Hx Hy. apply H; now right.
      * apply lex_tail, IH. intros x y Hx Hy. apply H; now right.
      * apply lex_tail, IH. intros x y Hx Hy. apply H; now right.
    + now apply lex_head.
    + now apply lex_head.
Qed.

Lemma cell_compare_agrees : forall a b, same_type a b -> agrees cell_less (cell_compare a b) a b.
Proof.
  intros [s|t|v] [s'|t'|v'] H; cbn [same_type] in H; try contradiction; cbn [cell_compare].
  - assert (X : agrees (lexicographic Z.lt) (lex_compare Z.compare s s') s s').
    { apply lex_compare_agrees. intros a b _ _. destruct (Z.compare_spec a b); cbn [agrees]; lia. }
    destruct (lex_compare Z.compare s s'); cbn [agrees] in *; [now f_equal|exact X|exact X].
  - destruct (Z.compare_spec t t'); cbn [agrees cell_less]; [now f_equal|lia|lia].
Qed.

Lemma key_compare_agrees : forall k l, Forall2 same_type k l ->
  agrees (lexicographic cell_less) (lex_compare cell_compare k l) k l.
Proof.
  intros k l H. induction H as [|a b k l Hab H IH]; [reflexivity|]. cbn [lex_compare].
  apply cell_compare_agrees in Hab. destruct (cell_compare a b); cbn [agrees] in Hab.
  - subst b. destruct (lex_compare cell_compare k l); cbn [agrees] in *;
      [now f_equal|now apply lex_tail|now apply lex_tail].
  - now apply lex_head.
  - now apply lex_head.
Qed.

Lemma lex_transitive : forall (A : Type) (less : A -> A -> Prop),
  (forall a b c, less a b -> less b c -> less a c) ->
  forall k l m, lexicographic less k l -> lexicographic less l m -> lexicographic less k m.
Proof.
  intros A less Ht k l m H. revert m. induction H as [b l|a b k l H|a k l H IH]; intros m H'.
  - inversion H'; subst; constructor.
  - inversion H'; subst; apply lex_head; [now apply (Ht a b)|exact H].
  - inversion H'; subst; [now apply lex_head|now apply lex_tail, IH].
Qed.

Lemma key_le_transitive : forall k l m, key_le k l -> key_le l m -> key_le k m.
Proof.
  intros k l m [->|H] [->|H']; [now left|now right|now right|right].
  revert H H'. apply lex_transitive. intros [a|a|a] [b|b|b] [c|c|c] H H'; cbn [cell_less] in *;
    try contradiction; [|lia]. revert H H'. apply lex_transitive. intros; lia.
Qed.

Fixpoint insert_index (keys : list (list cell)) (i : nat) (l : list nat) : list nat :=
  match l with
  | [] => [i]
  | j :: l' => match lex_compare cell_compare (nth i keys []) (nth j keys []) with
               | Gt => j :: insert_index keys i l'
               | _ => i :: l
               end
  end.
Definition insertion_sort (keys : list (list cell)) : list nat :=
  fold_right (insert_index keys) [] (seq 0 (length keys)).

Lemma insert_permutation : forall keys i l, Permutation (insert_index keys i l) (i :: l).
Proof.
  intros keys i l. induction l as [|j l IH]; [apply Permutation_refl|]. cbn [insert_index].
  destruct (lex_compare _ _ _); try apply Permutation_refl.
  rewrite IH. apply perm_swap.
Qed.

Lemma insertion_sort_sorts : sorts insertion_sort.
Proof.
  intros keys Hc. unfold insertion_sort.
  assert (H : forall l, Forall (fun i => (i < length keys)%nat) l ->
    Permutation (fold_right (insert_index keys) [] l) l
    /\ StronglySorted key_le (map (fun i => nth i keys []) (fold_right (insert_index keys) [] l))).
  { induction l as [|i l IH]; intros Hl; [split; constructor|].
    apply Forall_cons_iff in Hl. destruct Hl as [Hi Hl]. destruct (IH Hl) as [Hp Hs].
    cbn [fold_right]. split; [rewrite insert_permutation; now constructor|].
    assert (Hf : Forall (fun i => (i < length keys)%nat) (fold_right (insert_index keys) [] l)).
    { apply Forall_forall. intros j Hj. rewrite Forall_forall in Hl. apply Hl.
      now apply (Permutation_in _ Hp). }
    revert Hs Hf. generalize (fold_right (insert_index keys) [] l) as s. clear IH Hl Hp l.
    induction s as [|j s IH]; intros Hs Hf; [repeat constructor|]. cbn [insert_index map] in *.
    apply Forall_cons_iff in Hf. destruct Hf as [Hj Hf].
    apply StronglySorted_inv in Hs as Hs'. destruct Hs' as [Hs1 Hs2].
    pose proof (key_compare_agrees (nth i keys []) (nth j keys [])
      (Hc _ _ (nth_In _ _ Hi) (nth_In _ _ Hj))) as Hcmp.
    assert (Hlow : key_le (nth i keys []) (nth j keys []) ->
      StronglySorted key_le (map (fun i => nth i keys []) (i :: j :: s))).
    { intros Hle. cbn [map]. constructor; [exact Hs|]. constructor; [exact Hle|].
      apply Forall_forall. intros k Hk. rewrite Forall_forall in Hs2.
      now apply (key_le_transitive _ (nth j keys [])), Hs2. }
    destruct (lex_compare _ _ _); cbn [agrees] in Hcmp.
    - apply Hlow. now left.
    - apply Hlow. now right.
    - cbn [map]. constructor; [now apply IH|].
      apply Forall_forall. intros k Hk. apply in_map_iff in Hk. destruct Hk as (x & <- & Hx).
      apply (Permutation_in _ (insert_permutation keys i s)) in Hx. destruct Hx as [<-|Hx].
      + now right.
      + rewrite Forall_forall in Hs2. apply Hs2. apply in_map_iff. now exists x. }
  apply H. apply Forall_forall. intros i Hi. apply in_seq in Hi. lia.
Qed.

(** Columns: a field, a tag, the timestamp and another field. *)
Definition example_table : table :=
  Table [1%nat] 2 [0%nat; 3%nat] [Lossless; Lossless; Lossless; Absolute (f32_of_Z 1)].
Definition example_row (tag t v w : Z) : row :=
  [Value (f32_of_Z v); Tag [tag]; Time t; Value (f32_of_Z w)].
Definition example_batch : list row :=
  [example_row 66 30 1 2; example_row 65 10 3 4; example_row 66 20 5 6; example_row 65 20 7 8;
   example_row 65 5 9 9].

Lemma example_hypotheses : sorts insertion_sort /\ Forall (row_of example_table) example_batch
  /\ example_batch <> [] /\ bounded example_table /\ distinct_rows example_table example_batch
  /\ Forall (fun r => forall time, time_is example_table r time -> is_i64 time) example_batch.
Proof.
  split; [exact insertion_sort_sorts|]. split.
  { repeat (apply Forall_cons; [|]); [..|apply Forall_nil];
      (split; [eexists [_]; reflexivity|]; split; [eexists; reflexivity|]);
      (intros c [<-|[<-|[]]]; eexists; reflexivity). }
  split; [discriminate|]. split; [intros c [<-|[<-|[]]]; cbn [length error_bounds example_table]; lia|].
  split.
  { unfold example_batch. repeat apply FOP_cons; [..|apply FOP_nil];
      (repeat (apply Forall_cons; [|]); [..|apply Forall_nil]);
      (intros (tags & time & H1 & H2 & H3 & H4); unfold tags_are, time_is in *;
       cbn [example_table example_row tag_column_indices timestamp_column_index map nth_error] in *;
       congruence). }
  repeat (apply Forall_cons; [|]); [..|apply Forall_nil];
    (intros time H; unfold time_is in H; cbn [example_table example_row timestamp_column_index nth_error] in H;
     assert (is_i64 30 /\ is_i64 20 /\ is_i64 10 /\ is_i64 5) by (unfold is_i64; lia); intuition congruence).
Qed.
