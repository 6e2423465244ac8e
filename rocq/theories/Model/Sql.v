(** The text of SQL statements that name tables: sqlparser's tokenizer, the parts of its parser for
    DROP TABLE, and the parts of ModelarDB's parser for TRUNCATE and VACUUM. *)
From Coq Require Import ZArith Bool Ascii String List.
From Verif Require Import Model.Base.
Import ListNotations.
Open Scope char_scope.
Open Scope nat_scope.
Open Scope list_scope.

(** Characters. Simplified: only those of ASCII. *)
Definition between (a b c : ascii) : bool :=
  ((nat_of_ascii a <=? nat_of_ascii c) && (nat_of_ascii c <=? nat_of_ascii b))%nat.
Definition lower_case (c : ascii) : bool := between "a" "z" c.
Definition upper_case (c : ascii) : bool := between "A" "Z" c.
Definition digit (c : ascii) : bool := between "0" "9" c.
Definition to_lower (c : ascii) : ascii :=
  if upper_case c then ascii_of_nat (nat_of_ascii c + 32) else c.
Definition to_upper (c : ascii) : ascii :=
  if lower_case c then ascii_of_nat (nat_of_ascii c - 32) else c.
Definition whitespace (c : ascii) : bool :=
  Ascii.eqb c " " || between (ascii_of_nat 9) (ascii_of_nat 13) c.

(** [GenericDialect::is_identifier_start] and [GenericDialect::is_identifier_part] of sqlparser,
    used by crates/modelardb_storage/src/parser.rs l.680-691. *)
Definition identifier_start (c : ascii) : bool :=
  lower_case c || upper_case c || Ascii.eqb c "_" || Ascii.eqb c "#" || Ascii.eqb c "@".
Definition identifier_part (c : ascii) : bool := identifier_start c || digit c || Ascii.eqb c "$".

Fixpoint map_string (f : ascii -> ascii) (s : string) : string :=
  match s with
  | EmptyString => EmptyString
  | String c s => String (f c) (map_string f s)
  end.

(** The tokens of sqlparser. The keyword of a word that is quoted is [Keyword::NoKeyword]. *)
Inductive token :=
| Word (value : string) (quoted : bool)
| Number (digits : list ascii)
| Comma
| Period
| Semicolon
| Other.

Definition is_keyword (keyword : string) (t : token) : bool :=
  match t with
  | Word value false => String.eqb (map_string to_upper value) keyword
  | _ => false
  end.

(** What the tokenizer has read of the next token, the last character first. *)
Inductive reading :=
| Nothing
| In_word (w : list ascii)
| In_number (w : list ascii)
| In_quotes (quote : ascii) (w : list ascii).

Definition text (w : list ascii) : string := string_of_list_ascii (rev w).

(** The first character of a token. Simplified: operators, parentheses, and the like are [Other],
    and there are no comments and no prefixed strings. *)
Definition begin (c : ascii) : list token * reading :=
  if whitespace c then ([], Nothing)
  else if identifier_start c then ([], In_word [c])
  else if digit c then ([], In_number [c])
  else if Ascii.eqb c """" || Ascii.eqb c "`" || Ascii.eqb c "'" then ([], In_quotes c [])
  else if Ascii.eqb c "," then ([Comma], Nothing)
  else if Ascii.eqb c "." then ([Period], Nothing)
  else if Ascii.eqb c ";" then ([Semicolon], Nothing)
  else ([Other], Nothing).

Definition finish (r : reading) : outcome (list token) :=
  match r with
  | Nothing => Ok []
  | In_word w => Ok [Word (text w) false]
  | In_number w => Ok [Number (rev w)]
  | In_quotes _ _ => Err
  end.

(** [Tokenizer::tokenize]. Simplified: a quote cannot be escaped. *)
Fixpoint tokenize (s : string) (r : reading) : outcome (list token) :=
  match s with
  | EmptyString => finish r
  | String c s =>
      let from_start (t : list token) :=
        let '(ts, r) := begin c in let? rest := tokenize s r in Ok (t ++ ts ++ rest) in
      match r with
      | Nothing => from_start []
      | In_word w => if identifier_part c then tokenize s (In_word (c :: w))
                     else from_start [Word (text w) false]
      | In_number w => if digit c || Ascii.eqb c "." then tokenize s (In_number (c :: w))
                       else from_start [Number (rev w)]
      | In_quotes quote w =>
          if Ascii.eqb c quote
          then let? rest := tokenize s Nothing in
               Ok ((if Ascii.eqb quote "'" then Other else Word (text w) true) :: rest)
          else tokenize s (In_quotes quote (c :: w))
      end
  end.

(** [parse_table_names], parser.rs l.637-654, with [parse_word_value], l.337-343. *)
Fixpoint parse_table_names (tokens : list token) : outcome (list string * list token) :=
  match tokens with
  | Word value _ :: Comma :: tokens =>
      let? (names, rest) := parse_table_names tokens in Ok (value :: names, rest)
  | Word value _ :: tokens => Ok ([value], tokens)
  | _ => Err
  end.

(** [Parser::parse_object_name] of sqlparser for the rest of a name with several parts. *)
Fixpoint parse_parts (tokens : list token) : outcome (list string * list token) :=
  match tokens with
  | Period :: Word value _ :: tokens =>
      let? (parts, rest) := parse_parts tokens in Ok (value :: parts, rest)
  | Period :: _ => Err
  | _ => Ok ([], tokens)
  end.

(** [Parser::parse_comma_separated] of sqlparser for names with several parts. *)
Fixpoint parse_object_names (fuel : nat) (tokens : list token)
  : outcome (list (list string) * list token) :=
  match fuel, tokens with
  | S fuel, Word value _ :: tokens =>
      let? (parts, rest) := parse_parts tokens in
      match rest with
      | Comma :: rest =>
          let? (names, rest) := parse_object_names fuel rest in Ok ((value :: parts) :: names, rest)
      | _ => Ok ([value :: parts], rest)
      end
  | _, _ => Err
  end.

(** [u64::from_str]. *)
Definition digit_value (c : ascii) : Z := Z.of_nat (nat_of_ascii c) - 48.
Fixpoint number (digits : list ascii) (z : Z) : option Z :=
  match digits with
  | [] => Some z
  | c :: digits => if digit c then number digits (10 * z + digit_value c) else None
  end.
Definition parse_u64 (digits : list ascii) : outcome Z :=
  match number digits 0 with
  | Some z => if z <? 2 ^ 64 then Ok z else Err
  | None => Err
  end%Z.

(** [MAX_RETENTION_PERIOD_IN_SECONDS], crates/modelardb_types/src/types.rs l.66. *)
Definition max_retention : Z := (2 ^ 63 - 1) / 1000.

(** [ModelarDbStatement], parser.rs l.57-73. Simplified: other statements are not modelled. *)
Inductive statement :=
| Drop_table (names : list string)
| Truncate_table (names : list string) (cluster : bool)
| Vacuum (names : list string) (retention : option Z) (cluster : bool).

(** [Vec::join]. *)
Fixpoint join (separator : string) (l : list string) : string :=
  match l with
  | [] => EmptyString
  | [s] => s
  | s :: l => s ++ separator ++ join separator l
  end%string.

(** [str::split_terminator]: the last part is left out if it is empty. *)
Fixpoint split (separator : ascii) (s : string) : string * list string :=
  match s with
  | EmptyString => (EmptyString, [])
  | String c s =>
      let '(first, rest) := split separator s in
      if Ascii.eqb c separator then (EmptyString, first :: rest) else (String c first, rest)
  end.
Fixpoint without_empty_last (l : list string) : list string :=
  match l with
  | [] => []
  | [s] => if String.eqb s EmptyString then [] else [s]
  | s :: l => s :: without_empty_last l
  end.
Definition split_terminator (separator : ascii) (s : string) : list string :=
  let '(first, rest) := split separator s in without_empty_last (first :: rest).

(** The optional keyword CLUSTER, l.516-524 and l.594-606. *)
Definition parse_cluster (tokens : list token) : bool * list token :=
  match tokens with
  | t :: rest => if is_keyword "CLUSTER"%string t then (true, rest) else (false, tokens)
  | [] => (false, [])
  end.

(** [parse_truncate], l.589-631, after TRUNCATE, and [semantic_checks_for_truncate], l.1286-1318. *)
Definition parse_truncate (tokens : list token) : outcome (statement * list token) :=
  let '(cluster, tokens) := parse_cluster tokens in
  let? (names, rest) := parse_table_names tokens in
  Ok (Truncate_table names cluster, rest).

(** The optional table names and the optional retention period in [parse_vacuum], l.526-553. *)
Definition parse_optional_names (tokens : list token) : outcome (list string * list token) :=
  match tokens with
  | Word value quoted :: _ =>
      if is_keyword "RETAIN"%string (Word value quoted) then Ok ([], tokens)
      else parse_table_names tokens
  | _ => Ok ([], tokens)
  end.
Definition parse_retention (tokens : list token) : outcome (option Z * list token) :=
  match tokens with
  | t :: rest =>
      if is_keyword "RETAIN"%string t then
        match rest with
        | Number digits :: rest =>
            let? period := parse_u64 digits in
            if (period >? max_retention)%Z then Err else Ok (Some period, rest)
        | _ => Err
        end
      else Ok (None, tokens)
  | [] => Ok (None, tokens)
  end.

(** [parse_vacuum], l.512-564, after VACUUM, and l.138-142: the names are joined and split again. *)
Definition parse_vacuum (tokens : list token) : outcome (statement * list token) :=
  let '(cluster, tokens) := parse_cluster tokens in
  let? (names, tokens) := parse_optional_names tokens in
  let? (retention, tokens) := parse_retention tokens in
  Ok (Vacuum (split_terminator ";" (join ";"%string names)) retention cluster, tokens).

(** [semantic_checks_for_drop], l.1244-1281, after DROP TABLE: the parts of a name are
    concatenated. Simplified: a clause that it rejects is an error as it follows the names. *)
Definition parse_drop (tokens : list token) : outcome (statement * list token) :=
  let? (names, rest) := parse_object_names (length tokens) tokens in
  Ok (Drop_table (map (fun parts => fold_left String.append parts EmptyString) names), rest).

(** [Parser::parse_sql] of sqlparser, with the statements of [ModelarDbDialect::parse_statement],
    l.704-716, and the check for a single statement, l.79-92. Simplified: a statement does not start
    with a semicolon, and the keyword END does not end it. *)
Definition parse_tokens (tokens : list token) : outcome statement :=
  let? (s, rest) :=
    match tokens with
    | t :: tokens =>
        if is_keyword "VACUUM"%string t then parse_vacuum tokens
        else if is_keyword "TRUNCATE"%string t then parse_truncate tokens
        else if is_keyword "DROP"%string t then
          match tokens with
          | t :: tokens => if is_keyword "TABLE"%string t then parse_drop tokens else Err
          | [] => Err
          end
        else Err
    | [] => Err
    end in
  if forallb (fun t => match t with Semicolon => true | _ => false end) rest then Ok s else Err.

(** [tokenize_and_parse_sql_statement], l.79-160. *)
Definition parse_sql (sql : string) : outcome statement :=
  let? tokens := tokenize sql Nothing in parse_tokens tokens.
