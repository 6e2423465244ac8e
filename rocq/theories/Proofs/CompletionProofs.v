(** Proofs about completing words. *)
From Coq Require Import Bool Ascii String List PeanoNat Lia.
From Verif Require Import Model.Completion Spec.CompletionSpec.
Import ListNotations.
Open Scope list_scope.

Lemma upper_iff : forall c d, to_upper c = to_upper d <-> same_letter c d.
Proof.
  intros c d. split.
  - unfold to_upper. intros E.
    destruct (Nat.leb 97 (nat_of_ascii c) && Nat.leb (nat_of_ascii c) 122) eqn:C;
      destruct (Nat.leb 97 (nat_of_ascii d) && Nat.leb (nat_of_ascii d) 122) eqn:D;
      try (apply andb_prop in C; destruct C as [C C2];
           apply Nat.leb_le in C; apply Nat.leb_le in C2);
      try (apply andb_prop in D; destruct D as [D D2];
           apply Nat.leb_le in D; apply Nat.leb_le in D2).
    + left. apply (f_equal nat_of_ascii) in E.
      rewrite !nat_ascii_embedding in E by lia.
      rewrite <- (ascii_nat_embedding c), <- (ascii_nat_embedding d). f_equal. lia.
    + right. exists (nat_of_ascii c - 97). split; [lia|]. right. split.
      * rewrite <- E. f_equal. lia.
      * rewrite <- (ascii_nat_embedding c) at 1. f_equal. lia.
    + right. exists (nat_of_ascii d - 97). split; [lia|]. left. split.
      * rewrite E. f_equal. lia.
      * rewrite <- (ascii_nat_embedding d) at 1. f_equal. lia.
    + now left.
  - intros [->|(n & Hn & [[-> ->]|[-> ->]])]; [reflexivity| |];
      do 26 (destruct n as [|n]; [reflexivity|]); lia.
Qed.

Lemma starts_iff : forall word t,
  starts_with (map to_upper word) (map to_upper t) = true <-> continues word t.
Proof.
  induction word as [|c word IH]; intros t.
  - split; [|reflexivity]. intros _. exists [], t. now split.
  - destruct t as [|d t]; cbn [map starts_with].
    + split; [discriminate|]. intros (f & r & E & F).
      inversion F; subst. discriminate.
    + rewrite andb_true_iff, Ascii.eqb_eq, IH, upper_iff. split.
      * intros (L & f & r & -> & F). exists (d :: f), r. split; [reflexivity|now constructor].
      * intros (f & r & E & F). inversion F; subst. injection E as -> ->.
        split; [assumption|]. now exists l', r.
Qed.

Lemma backwards_app : forall word before acc, ~ In space word ->
  backwards (rev word ++ before) acc = backwards before (word ++ acc).
Proof.
  induction word as [|c word IH] using rev_ind; intros before acc H; [reflexivity|].
  rewrite rev_app_distr. cbn [rev app backwards].
  destruct (Ascii.eqb_spec c space) as [->|N].
  - exfalso. apply H. apply in_or_app. right. now left.
  - rewrite IH by (intros I; apply H; apply in_or_app; now left).
    now rewrite <- app_assoc.
Qed.

Lemma first_part : forall (a b : text), firstn (length a) (a ++ b) = a.
Proof. intros a b. rewrite firstn_app, Nat.sub_diag, firstn_all. apply app_nil_r. Qed.

Lemma extracted : forall line pos before word after, word_at line pos before word after ->
  extract_word line pos = (length before, word).
Proof.
  intros line pos before word after (-> & -> & S & B). unfold extract_word.
  rewrite app_assoc, first_part, rev_app_distr, backwards_app, app_nil_r by assumption.
  destruct B as [->|(b & ->)]; [reflexivity|].
  rewrite rev_app_distr. cbn. rewrite rev_length, app_length. cbn. f_equal. lia.
Qed.

Lemma filter_chosen : forall A (f : A -> bool) (P : A -> Prop), (forall x, f x = true <-> P x) ->
  forall l, chosen P l (filter f l).
Proof.
  intros A f P H. induction l as [|x l IH]; cbn; [constructor|].
  destruct (f x) eqn:E; constructor; try assumption.
  - now apply H.
  - intros Q. apply H in Q. congruence.
Qed.

Lemma offered : forall names line pos before word after, word_at line pos before word after ->
  fst (complete names line pos) = length before
  /\ chosen (continues word) (keywords ++ names) (snd (complete names line pos)).
Proof.
  intros names line pos before word after W. unfold complete.
  rewrite (extracted _ _ _ _ _ W). split; [reflexivity|].
  cbn [snd]. unfold candidates. apply filter_chosen. intros t. apply starts_iff.
Qed.

Lemma accepted : forall names line pos before word after candidate,
  word_at line pos before word after ->
  replaced line (fst (complete names line pos)) pos candidate = before ++ candidate ++ after.
Proof.
  intros names line pos before word after candidate W.
  rewrite (proj1 (offered names _ _ _ _ _ W)). destruct W as (-> & -> & _).
  unfold replaced. rewrite first_part, app_assoc with (l := before) (m := word).
  now rewrite skipn_app, skipn_all, Nat.sub_diag.
Qed.

Lemma split_word : forall t : text, exists before word, t = before ++ word
  /\ ~ In space word /\ (before = [] \/ exists b, before = b ++ [space]).
Proof.
  induction t as [|c t IH] using rev_ind.
  - exists [], []. repeat split; [now intros []|now left].
  - destruct (Ascii.eqb_spec c space) as [->|N].
    + exists (t ++ [space]), []. rewrite app_nil_r. repeat split; [now intros []|].
      right. now exists t.
    + destruct IH as (b & w & -> & S & B). exists b, (w ++ [c]).
      rewrite <- app_assoc. repeat split; [|assumption].
      intros I. apply in_app_or in I. destruct I as [I|[I|[]]]; [now apply S|now apply N].
Qed.

Lemma some_word : forall line pos, pos <= length line ->
  exists before word after, word_at line pos before word after.
Proof.
  intros line pos L. destruct (split_word (firstn pos line)) as (b & w & E & S & B).
  exists b, w, (skipn pos line). unfold word_at. repeat split; try assumption.
  - rewrite app_assoc, <- E. symmetry. apply firstn_skipn.
  - rewrite <- E, firstn_length. lia.
Qed.

Lemma two_words : ~ (forall names before first rest, In (first ++ rest) keywords ->
  (before = [] \/ exists b, before = b ++ [space]) ->
  In (first ++ rest) (snd (complete names (before ++ first) (length (before ++ first))))).
Proof.
  intros H.
  specialize (H [] [] (list_ascii_of_string "GROUP B") (list_ascii_of_string "Y")).
  assert (K : In (list_ascii_of_string "GROUP B" ++ list_ascii_of_string "Y") keywords).
  { do 9 right. now left. }
  specialize (H K (or_introl eq_refl)). vm_compute in H. exact H.
Qed.
