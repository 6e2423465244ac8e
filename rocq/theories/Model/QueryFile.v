(** Executing the commands and queries in a file with the command-line client:
    crates/modelardb_client/src/main.rs.

    Simplified: texts are bytes; only ASCII characters are whitespace; results are not printed; the
    connection to the server is opened before. *)
From Coq Require Import Bool Ascii String List.
Import ListNotations.
Open Scope list_scope.

Definition text := list ascii.
Definition newline : ascii := "010".
Definition return_ : ascii := "013".
Definition dash : ascii := "-".
Definition backslash : ascii := "\".
Definition space : ascii := " ".

(** [BufRead::lines]: the end of a line is removed, the last line does not need one. *)
Definition drop_return (t : text) : text :=
  match rev t with
  | c :: r => if Ascii.eqb c return_ then rev r else t
  | [] => t
  end.
Fixpoint lines_from (line t : text) : list text :=
  match t with
  | [] => match line with [] => [] | _ => [line] end
  | c :: t =>
      if Ascii.eqb c newline then drop_return line :: lines_from [] t
      else lines_from (line ++ [c]) t
  end.
Definition lines (t : text) : list text := lines_from [] t.

(** main.rs l.106-112: everything from the first -- is removed. *)
Fixpoint before_comment (t : text) : text :=
  match t with
  | [] => []
  | c :: rest =>
      match rest with
      | [] => [c]
      | d :: _ => if Ascii.eqb c dash && Ascii.eqb d dash then [] else c :: before_comment rest
      end
  end.

(** [str::trim] for ASCII. *)
Definition is_white (c : ascii) : bool :=
  Ascii.eqb c space || Ascii.eqb c "009" || Ascii.eqb c "010" || Ascii.eqb c "011"
  || Ascii.eqb c "012" || Ascii.eqb c "013".
Fixpoint trim_start (t : text) : text :=
  match t with
  | c :: rest => if is_white c then trim_start rest else t
  | [] => []
  end.
Definition trim (t : text) : text := rev (trim_start (rev (trim_start t))).

(** [split(' ')]. *)
Fixpoint split_from (word t : text) : list text :=
  match t with
  | [] => [word]
  | c :: t => if Ascii.eqb c space then word :: split_from [] t else split_from (word ++ [c]) t
  end.
Definition split (t : text) : list text := split_from [] t.

(** What is sent to the server: [do_get], [get_schema], [list_flights] and [do_action]. *)
Inductive request := Query (sql : text) | Schema (table : text) | Tables | FlushMemory | FlushNode.
(** What a line is: a request, the command to quit, to print help, or an error. *)
Inductive action := Send (r : request) | Quit | Help | Invalid.

Definition is (t : text) (s : string) : bool :=
  if list_eq_dec ascii_dec t (list_ascii_of_string s) then true else false.

(** [execute_command], l.184-252. *)
Definition command (t : text) : action :=
  match split t with
  | [] => Invalid
  | name :: arguments =>
      if is name "\d" then
        match arguments with table :: _ => Send (Schema table) | [] => Invalid end
      else if is name "\dt" then Send Tables
      else if is name "\f" then Send FlushMemory
      else if is name "\F" then Send FlushNode
      else if is name "\h" then Help
      else if is name "\q" then Quit
      else Invalid
  end.

(** [execute_and_print_command_or_query], l.160-177, for the text of a line that is not empty. *)
Definition parse (t : text) : action :=
  let t := trim t in
  match t with
  | c :: _ => if Ascii.eqb c backslash then command t else Send (Query t)
  | [] => Send (Query [])
  end.

(** A request that was sent, whether the server executed it, and whether an error was printed. The
    errors of \dt are ignored, l.218-226. *)
Record sent := Sent { request_of : request; succeeded : bool; error_printed : bool }.

(** How the client ends: [main] returns [Ok], so the exit status is 0, or [Err]. *)
Inductive status := Zero | NonZero.

(** [execute_queries_from_a_file], l.98-122. [valid] is whether the bytes of a line are UTF-8, and
    [serve] how the state of the server changes with a request and whether it succeeds. *)
Fixpoint execute {S} (valid : text -> bool) (serve : S -> request -> S * bool) (s : S)
    (ls : list text) : list sent * S * status :=
  match ls with
  | [] => ([], s, Zero)
  | l :: ls =>
      if valid l then
        match before_comment l with
        | [] => execute valid serve s ls
        | query =>
            match parse query with
            | Quit => ([], s, Zero)
            | Help | Invalid => execute valid serve s ls
            | Send r =>
                let (s, ok) := serve s r in
                let printed := match r with Tables => false | _ => negb ok end in
                let '(rest, s, exit) := execute valid serve s ls in
                (Sent r ok printed :: rest, s, exit)
            end
        end
      else ([], s, NonZero)
  end.
Definition execute_file {S} (valid : text -> bool) (serve : S -> request -> S * bool) (s : S)
    (file : text) : list sent * S * status := execute valid serve s (lines file).
