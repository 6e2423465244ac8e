(** What is offered when a word is completed. *)
From Coq Require Import Ascii List.
Import ListNotations.

(** The same character, or the same letter in upper and lower case. *)
Definition same_letter (c d : ascii) : Prop :=
  c = d
  \/ exists n, n < 26
     /\ ((c = ascii_of_nat (65 + n) /\ d = ascii_of_nat (97 + n))
         \/ (d = ascii_of_nat (65 + n) /\ c = ascii_of_nat (97 + n))).

(** [candidate] starts with [word] if the case of letters is ignored. *)
Definition continues (word candidate : list ascii) : Prop :=
  exists first rest, candidate = first ++ rest /\ Forall2 same_letter word first.

(** [word] is all that is between the last space before the cursor and the cursor. *)
Definition word_at (line : list ascii) (pos : nat) (before word after : list ascii) : Prop :=
  line = before ++ word ++ after /\ pos = length (before ++ word)
  /\ ~ In " "%char word /\ (before = [] \/ exists b, before = b ++ [" "%char]).

(** The elements of a list with a property, in their order. *)
Inductive chosen {A} (P : A -> Prop) : list A -> list A -> Prop :=
| chosen_nil : chosen P [] []
| chosen_with : forall x l k, P x -> chosen P l k -> chosen P (x :: l) (x :: k)
| chosen_without : forall x l k, ~ P x -> chosen P l k -> chosen P (x :: l) k.
