(** What a query that includes other nodes is and returns. *)
From Coq Require Import Arith Bool Ascii String List Permutation.
From Verif Require Import Model.Base Model.Includes.
Import ListNotations.
Open Scope nat_scope.
Open Scope list_scope.

(** Whitespace, and a text written as a string literal. *)
Definition white (t : text) : Prop :=
  Forall (fun c => c = " " \/ c = "009" \/ c = "010" \/ c = "013")%char t.
Fixpoint escape (t : text) : text :=
  match t with
  | [] => []
  | c :: t => if Ascii.eqb c quote then quote :: quote :: escape t else c :: escape t
  end.
Definition quoted (t : text) : text := quote :: escape t ++ [quote].

(** INCLUDE in upper or lower case letters. *)
Definition is_include (word : text) : Prop :=
  Forall2 (fun c l => c = fst l \/ c = snd l) word
    [("I", "i"); ("N", "n"); ("C", "c"); ("L", "l"); ("U", "u"); ("D", "d"); ("E", "e")]%char.

(** A list of addresses. *)
Inductive address_list : list text -> text -> Prop :=
| one_address : forall w a, white w -> address_list [a] (w ++ quoted a)
| more_addresses : forall w a w' addresses t, white w -> white w' -> address_list addresses t ->
    address_list (a :: addresses) (w ++ quoted a ++ w' ++ comma :: t).

(** What follows the addresses is not part of them. *)
Definition follows_addresses (query : text) : Prop :=
  (forall t, query <> quote :: t) /\ (forall w t, white w -> query <> w ++ comma :: t).

(** A statement: INCLUDE addresses query. *)
Definition written (addresses : list text) (query sql : text) : Prop :=
  follows_addresses query /\ exists w word list, white w /\ is_include word
    /\ address_list addresses list /\ sql = w ++ word ++ list ++ query.

(** A text is part of another. *)
Definition occurs (a t : text) : Prop := exists before after, t = before ++ a ++ after.

(** The last occurrence of a text in another, and what follows it. *)
Definition last_occurrence (a t after : text) : Prop :=
  (exists before, t = before ++ a ++ after)
  /\ forall before' after', t = before' ++ a ++ after' -> length after <= length after'.

(** A text does not start within a character, which all that follow an ASCII character do not. *)
Definition starts_character (t : text) : Prop :=
  forall c t', t = c :: t' -> ~ 128 <= nat_of_ascii c < 192.
(** The first character of a text has several bytes. *)
Definition within_character (t : text) : Prop :=
  exists c d t', t = c :: d :: t' /\ 128 <= nat_of_ascii d < 192.

(** The rows of a result if none of its batches is an error. *)
Definition all_rows {V} (r : result V) (rows : list (list V)) : Prop :=
  exists batches, stream r = map Ok batches /\ rows = concat batches.
(** Rows with the names of their columns. *)
Definition named {V} (columns : list string) (rows : list (list V)) : list (list (string * V)) :=
  map (combine columns) rows.

(** The result of a statement for the client: the names of the columns, the rows, and whether they
    are all. *)
Definition responds {V} (local : text -> outcome (result V))
  (answer : text -> text -> outcome (result V)) (sql : text)
  (columns : list string) (rows : list (list V)) (ok : bool) : Prop :=
  exists streams items, include_query local answer sql = Ok (columns, streams)
    /\ merged streams items /\ send items = (rows, ok).
