(** What a file with queries is. *)
From Coq Require Import Arith Bool Ascii String List.
From Verif Require Import Model.QueryFile.
Import ListNotations.
Open Scope nat_scope.
Open Scope list_scope.

(** A file with lines. *)
Inductive written : list text -> text -> Prop :=
| written_end : written [] []
| written_last : forall l, l <> [] -> ~ In newline l -> written [l] l
| written_unix : forall l ls t, ~ In newline l -> (forall x, l <> x ++ [return_]) -> written ls t ->
    written (l :: ls) (l ++ newline :: t)
| written_dos : forall l ls t, ~ In newline l -> written ls t ->
    written (l :: ls) (l ++ return_ :: newline :: t).

(** A text is part of another. *)
Definition occurs (a t : text) : Prop := exists before after, t = before ++ a ++ after.
Definition dashes : text := [dash; dash].

(** The quote a text is within at its end. *)
Fixpoint within (q : option ascii) (t : text) : option ascii :=
  match t with
  | [] => q
  | c :: t =>
      within (match q with
              | None => if Ascii.eqb c "'" || Ascii.eqb c """" then Some c else None
              | Some d => if Ascii.eqb c d then None else Some d
              end) t
  end.
Definition closed (t : text) : Prop := within None t = None.

(** The part of a line that is not a comment in SQL: a comment starts with the first -- that is not
    quoted. *)
Definition uncommented (line code : text) : Prop :=
  exists rest, line = code ++ rest
    /\ (rest = [] \/ closed code /\ exists t, rest = dashes ++ t)
    /\ forall x y, line = x ++ dashes ++ y -> closed x -> length code <= length x.

(** White space, and a statement that is written on one line. *)
Definition white (t : text) : Prop := Forall (fun c => In c [" "; "009"; "011"; "012"; "013"]%char) t.
Definition on_one_line (q : text) : Prop :=
  ~ In newline q /\ ~ occurs dashes q
  /\ (exists c t, q = c :: t /\ ~ white [c] /\ c <> backslash)
  /\ (exists c t, q = t ++ [c] /\ ~ white [c] /\ c <> dash).
Definition comment (t : text) : Prop := t = [] \/ exists t', t = dashes ++ t'.

(** The statements on a line: at most one, between white space and a comment. *)
Inductive line_means : text -> list text -> Prop :=
| means_none : forall c, comment c -> line_means c []
| means_one : forall w q w' c, white w -> on_one_line q -> white w' -> comment c ->
    line_means (w ++ q ++ w' ++ c) [q].

(** The states of a server that executes requests. *)
Fixpoint serves {S} (serve : S -> request -> S * bool) (s : S) (rs : list request) : S :=
  match rs with
  | [] => s
  | r :: rs => serves serve (fst (serve s r)) rs
  end.
Fixpoint succeeds {S} (serve : S -> request -> S * bool) (s : S) (rs : list request) : list bool :=
  match rs with
  | [] => []
  | r :: rs => snd (serve s r) :: succeeds serve (fst (serve s r)) rs
  end.

(** The statements of a file, each ends with a semicolon that is not quoted. Lines are uncommented. *)
Inductive statement_of : text -> text -> Prop :=
| statement_first : forall q t, closed q ->
    (forall x y, q = x ++ ";"%char :: y -> ~ closed x) -> statement_of q (q ++ ";"%char :: t)
| statement_later : forall p q t, closed p -> statement_of q t -> statement_of q (p ++ ";"%char :: t).
(** A statement with white space and line breaks around it. *)
Definition blank (t : text) : Prop := Forall (fun c => white [c] \/ c = newline) t.

(** Commands are words that are separated by single spaces. *)
Fixpoint joined (words : list text) : text :=
  match words with
  | [] => []
  | [w] => w
  | w :: words => w ++ " "%char :: joined words
  end.
Definition word (s : string) : text := list_ascii_of_string s.

(** What is asked of the server by commands other than the one to quit. *)
Inductive command_asks : list text -> list request -> Prop :=
| asks_schema : forall table rest, command_asks (word "\d" :: table :: rest) [Schema table]
| asks_tables : forall rest, command_asks (word "\dt" :: rest) [Tables]
| asks_memory : forall rest, command_asks (word "\f" :: rest) [FlushMemory]
| asks_node : forall rest, command_asks (word "\F" :: rest) [FlushNode]
| asks_no_table : command_asks [word "\d"] []
| asks_nothing : forall name rest,
    ~ In (backslash :: name) (map word ["\d"; "\dt"; "\f"; "\F"; "\q"]%string) ->
    command_asks ((backslash :: name) :: rest) [].

(** What is asked of the server by a line: its statement or its command. *)
Inductive line_asks : text -> list request -> Prop :=
| asks_statement : forall l qs, line_means l qs -> line_asks l (map Query qs)
| asks_command : forall w words rs w' c, white w -> Forall (fun x => ~ In " "%char x) words ->
    command_asks words rs -> ~ In newline (joined words) -> ~ occurs dashes (joined words) ->
    (exists t d, joined words = t ++ [d] /\ ~ white [d] /\ d <> dash) -> white w' -> comment c ->
    line_asks (w ++ joined words ++ w' ++ c) rs.
