(** C73 - Completing a word offers what continues it. *)
From Coq Require Import Bool Ascii String List.
From Verif Require Import Model.Completion Spec.CompletionSpec Proofs.CompletionProofs.
Import ListNotations.
Open Scope list_scope.

(** There is a word, perhaps an empty one, at each position of the cursor. *)
Theorem c73_word : forall line pos, pos <= length line ->
  exists before word after, word_at line pos before word after.
Proof. exact some_word. Qed.
Print Assumptions c73_word.

(** Exactly the keywords and names that continue the word are offered, as they are written and in
    their order. Missing in the full statement: keywords of more than one word. *)
Theorem c73_offered_partial : forall names line pos before word after,
  word_at line pos before word after ->
  fst (complete names line pos) = length before
  /\ chosen (continues word) (keywords ++ names) (snd (complete names line pos)).
Proof. exact offered. Qed.
Print Assumptions c73_offered_partial.

(** Only the word is replaced by what is accepted. *)
Theorem c73_accepted : forall names line pos before word after candidate,
  word_at line pos before word after ->
  replaced line (fst (complete names line pos)) pos candidate = before ++ candidate ++ after.
Proof. exact accepted. Qed.
Print Assumptions c73_accepted.

(** A keyword of which the first characters have been written is not always offered: it is not if
    they include a space. *)
Theorem c73_two_words_refuted : ~ (forall names before first rest, In (first ++ rest) keywords ->
  (before = [] \/ exists b, before = b ++ [space]) ->
  In (first ++ rest) (snd (complete names (before ++ first) (length (before ++ first))))).
Proof. exact two_words. Qed.
Print Assumptions c73_two_words_refuted.

(** With the cursor after "wi" the tables Wind and wind_2 are offered, with it after "GROUP B"
    nothing is. *)
Example c73_example :
  let t := list_ascii_of_string in
  let names := [t "Wind"; t "solar"; t "wind_2"]%string in
  let line := t "SELECT * FROM wi LIMIT 5"%string in
  word_at line 16 (t "SELECT * FROM "%string) (t "wi"%string) (t " LIMIT 5"%string)
  /\ complete names line 16 = (14, [t "Wind"; t "wind_2"]%string)
  /\ replaced line 14 16 (t "wind_2"%string) = t "SELECT * FROM wind_2 LIMIT 5"%string
  /\ complete names (t "s"%string) 1 = (0, [t "SELECT"; t "SUM"; t "solar"]%string)
  /\ complete names (t "GROUP B"%string) 7 = (6, []).
Proof.
  cbv zeta. split.
  - split; [reflexivity|]. split; [reflexivity|]. split.
    + intros [E|[E|[]]]; discriminate.
    + right. now exists (list_ascii_of_string "SELECT * FROM").
  - split; [reflexivity|]. split; [reflexivity|]. split; reflexivity.
Qed.
