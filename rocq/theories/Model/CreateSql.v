(** The text of CREATE TIME SERIES TABLE statements: sqlparser's tokenizer and the parts of
    ModelarDB's parser for them, crates/modelardb_storage/src/parser.rs. *)
From Coq Require Import ZArith Bool Ascii String List.
From Verif Require Import Model.Base Model.Float Model.Filters Model.Table Model.Sql
  Model.Statements.
Import ListNotations.
Open Scope string_scope.
Open Scope char_scope.
Open Scope nat_scope.
Open Scope list_scope.

(** The tokens of sqlparser. [Symbol] are all other characters, e.g., operators in expressions. *)
Inductive token :=
| Word (value : string) (quoted : bool)
| Number (digits : list ascii)
| Text
| Open | Close | Comma | Percent | Semicolon
| Symbol (c : ascii).

(** What the tokenizer has read of the next token, the last character first. *)
Inductive reading :=
| Start
| In_word (w : list ascii)
| In_number (w : list ascii)
| In_quotes (quote : ascii) (w : list ascii).

(** The first character of a token. *)
Definition begin (c : ascii) : list token * reading :=
  if whitespace c then ([], Start)
  else if identifier_start c then ([], In_word [c])
  else if digit c then ([], In_number [c])
  else if Ascii.eqb c """" || Ascii.eqb c "`" || Ascii.eqb c "'" then ([], In_quotes c [])
  else ([if Ascii.eqb c "(" then Open
         else if Ascii.eqb c ")" then Close
         else if Ascii.eqb c "," then Comma
         else if Ascii.eqb c "%" then Percent
         else if Ascii.eqb c ";" then Semicolon
         else Symbol c], Start).

Definition after (t : token) (c : ascii) : list token * reading :=
  let '(ts, r) := begin c in (t :: ts, r).

(** One character, [Tokenizer::next_token]. Simplified: numbers have no exponents and no suffixes,
    operators are read as single characters, quotes cannot be escaped, and there are no comments and
    no prefixed strings. *)
Definition read_char (r : reading) (c : ascii) : list token * reading :=
  match r with
  | Start => begin c
  | In_word w => if identifier_part c then ([], In_word (c :: w)) else after (Word (text w) false) c
  | In_number w => if digit c || Ascii.eqb c "." then ([], In_number (c :: w))
                   else after (Number (rev w)) c
  | In_quotes quote w =>
      if Ascii.eqb c quote
      then ([if Ascii.eqb quote "'" then Text else Word (text w) true], Start)
      else ([], In_quotes quote (c :: w))
  end.
Definition at_end (r : reading) : outcome (list token) :=
  match r with
  | Start => Ok []
  | In_word w => Ok [Word (text w) false]
  | In_number w => Ok [Number (rev w)]
  | In_quotes _ _ => Err
  end.
Fixpoint read_chars (s : string) (r : reading) : list token * reading :=
  match s with
  | EmptyString => ([], r)
  | String c s => let '(ts, r) := read_char r c in
                  let '(rest, r) := read_chars s r in (ts ++ rest, r)
  end.
Definition tokens_of (s : string) : outcome (list token) :=
  let '(ts, r) := read_chars s Start in let? last := at_end r in Ok (ts ++ last).

Section Parser.
(** [f32::from_str], sqlparser's [Parser::parse_expr] followed by Apache DataFusion's
    [SqlToRel::sql_to_expr], and [ALL_KEYWORDS] of sqlparser. Simplified: that the columns of an
    expression exist is checked in Model/Table.v, when all columns are known. *)
Variable parse_f32 : list ascii -> outcome f32.
Variable parse_expr : list token -> outcome (expr * list token).
Variable reserved : string -> bool.

(** [Token::Word] whose value is [word] in upper case, quoted or not, as in [expect_word_value],
    l.314-325, and in l.255. *)
Definition has_value (word : string) (value : string) : bool :=
  String.eqb (map_string to_upper value) word.

(** The loop in [parse_columns], l.250-308, for one column. The names of columns are converted to
    lower case, see Model/Table.v. *)
Definition parse_column (tokens : list token) : outcome (column_def * list token) :=
  match tokens with
  | Word value _ :: Word data_type _ :: rest =>
      let name := map_string to_lower value in
      if has_value "TIMESTAMP" data_type then Ok ((name, Timestamp_column), rest)
      else if has_value "FIELD" data_type then
        match rest with
        | Open :: rest =>
            match rest with
            | Number digits :: rest =>
                let? bound := parse_f32 digits in
                let '(is_relative, rest) :=
                  match rest with Percent :: rest => (true, rest) | _ => (false, rest) end in
                match rest with
                | Close :: rest => Ok ((name, Field_column bound is_relative), rest)
                | _ => Err
                end
            | _ => Err
            end
        | Word value _ :: rest =>
            if has_value "AS" value then
              match rest with
              | Open :: rest =>
                  let? (e, rest) := parse_expr rest in
                  match rest with
                  | Close :: rest => Ok ((name, Generated_column e), rest)
                  | _ => Err
                  end
              | _ => Err
              end
            else Err
        | _ => Ok ((name, Field_column f32_zero false), rest)
        end
      else if has_value "TAG" data_type then Ok ((name, Tag_column), rest)
      else Err
  | _ => Err
  end.

(** [parse_columns], l.245-312, after the parenthesis. *)
Fixpoint parse_columns (fuel : nat) (tokens : list token)
  : outcome (list column_def * list token) :=
  match fuel with
  | O => Err
  | S fuel =>
      let? (column, rest) := parse_column tokens in
      match rest with
      | Close :: rest => Ok ([column], rest)
      | Comma :: rest =>
          let? (columns, rest) := parse_columns fuel rest in Ok (column :: columns, rest)
      | _ => Err
      end
  end.

(** A [Token::Word] with a [Keyword], which quoted words do not have, and one with a value. *)
Definition keyword_is (keyword : string) (t : token) : bool :=
  match t with Word value false => has_value keyword value | _ => false end.
Definition word_is (word : string) (t : token) : bool :=
  match t with Word value _ => has_value word value | _ => false end.

(** [parse_create_time_series_table], l.224-242, with [next_tokens_are_create_time_series_table],
    l.197-222, and the check for a single statement, l.79-92, where sqlparser only accepts
    semicolons after the statement. *)
Definition parse_create (tokens : list token) : outcome (string * list column_def) :=
  match tokens with
  | c :: t :: s :: b :: Word name _ :: Open :: rest =>
      if keyword_is "CREATE" c && word_is "TIME" t && word_is "SERIES" s && keyword_is "TABLE" b then
        let? (columns, rest) := parse_columns (length rest) rest in
        if forallb (fun t => match t with Semicolon => true | _ => false end) rest
        then Ok (name, columns) else Err
      else Err
  | _ => Err
  end.

(** [tokenize_and_parse_sql_statement], l.79-160, with [semantic_checks_for_create_table],
    l.782-868, and the checks of the columns, see Model/Table.v. *)
Definition create_statement (set_order : list string -> list string) (sql : string)
  : outcome metadata :=
  let? tokens := tokens_of sql in
  let? (value, columns) := parse_create tokens in
  let? name := create_name reserved value in
  create_table set_order name columns.
End Parser.
