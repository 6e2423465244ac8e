(** Reading a time series table through the embedded library: the query that is written as text, how
    DataFusion reads this text, and what it then returns. *)
From Coq Require Import ZArith Bool Ascii String List.
From Verif Require Import Model.Base Model.Sql.
Import ListNotations.
Open Scope string_scope.
Open Scope char_scope.
Open Scope list_scope.

(** [Aggregate], crates/modelardb_embedded/src/lib.rs l.43-52. *)
Inductive aggregate := Plain | Count | Min | Max | Sum | Avg.

(** The arguments of [read_time_series_table], operations/mod.rs l.102-110. The tags are in the order
    in which [HashMap::drain] returns them. *)
Record request := Request {
  columns : list (string * aggregate);
  group_by : list string;
  start_time : option string;
  end_time : option string;
  tags : list (string * string)
}.

(** [generate_read_time_series_table_sql], operations/mod.rs l.190-255. *)
Definition select_value (c : string * aggregate) : string :=
  let '(column, a) := c in
  match a with
  | Plain => column
  | Count => "COUNT(" ++ column ++ ")"
  | Min => "MIN(" ++ column ++ ")"
  | Max => "MAX(" ++ column ++ ")"
  | Sum => "SUM(" ++ column ++ ")"
  | Avg => "AVG(" ++ column ++ ")"
  end%string.
Definition where_values (r : request) : list string :=
  map (fun t => fst t ++ " = '" ++ snd t ++ "'")%string (tags r)
  ++ match start_time r with
     | Some t => ["'" ++ t ++ "' <= timestamp"]%string
     | None => []
     end
  ++ match end_time r with
     | Some t => ["timestamp <= '" ++ t ++ "'"]%string
     | None => []
     end.
Definition select_values (schema : list string) (r : request) : list string :=
  match map select_value (columns r) with [] => schema | values => values end.
Definition generate_sql (table : string) (schema : list string) (r : request) : string :=
  let where_clause :=
    match where_values r with
    | [] => ""
    | values => "WHERE " ++ join " AND " values
    end%string in
  let group_by_clause :=
    match group_by r with
    | [] => ""
    | names => "GROUP BY " ++ join ", " names
    end%string in
  ("SELECT " ++ join ", " (select_values schema r) ++ " FROM " ++ table ++ " " ++ where_clause
   ++ " " ++ group_by_clause)%string.

(** The tokens of sqlparser. Simplified: all others are [Unknown], and there are no comments, no
    prefixed strings and no escape characters other than a second quote in a text. *)
Inductive token :=
| Name (value : string) (quoted : bool)
| Text (value : string)
| Comma | Open | Close | Equal | Less_equal | Semicolon | Unknown.

(** What the tokenizer has read of the next token, the last character first. *)
Inductive reading :=
| Start
| In_name (w : list ascii)
| In_number
| In_quotes (w : list ascii)
| In_text (w : list ascii)
| After_text (w : list ascii)
| After_less.

Definition begin (c : ascii) : list token * reading :=
  if whitespace c then ([], Start)
  else if identifier_start c then ([], In_name [c])
  else if digit c then ([], In_number)
  else if Ascii.eqb c """" then ([], In_quotes [])
  else if Ascii.eqb c "'" then ([], In_text [])
  else if Ascii.eqb c "<" then ([], After_less)
  else ([if Ascii.eqb c "," then Comma
         else if Ascii.eqb c "(" then Open
         else if Ascii.eqb c ")" then Close
         else if Ascii.eqb c "=" then Equal
         else if Ascii.eqb c ";" then Semicolon
         else Unknown], Start).

Definition after (t : token) (c : ascii) : list token * reading :=
  let '(ts, r) := begin c in (t :: ts, r).

(** One character, [Tokenizer::next_token]. *)
Definition read_char (r : reading) (c : ascii) : list token * reading :=
  match r with
  | Start => begin c
  | In_name w => if identifier_part c then ([], In_name (c :: w)) else after (Name (text w) false) c
  | In_number => if digit c then ([], In_number) else after Unknown c
  | In_quotes w => if Ascii.eqb c """" then ([Name (text w) true], Start) else ([], In_quotes (c :: w))
  | In_text w => if Ascii.eqb c "'" then ([], After_text w) else ([], In_text (c :: w))
  | After_text w => if Ascii.eqb c "'" then ([], In_text (c :: w)) else after (Text (text w)) c
  | After_less => if Ascii.eqb c "=" then ([Less_equal], Start) else after Unknown c
  end.
Definition at_end (r : reading) : outcome (list token) :=
  match r with
  | Start => Ok []
  | In_name w => Ok [Name (text w) false]
  | In_number | After_less => Ok [Unknown]
  | After_text w => Ok [Text (text w)]
  | In_quotes _ | In_text _ => Err
  end.
Fixpoint read_chars (s : string) (r : reading) : list token * reading :=
  match s with
  | EmptyString => ([], r)
  | String c s => let '(ts, r) := read_char r c in
                  let '(rest, r) := read_chars s r in (ts ++ rest, r)
  end.
Definition tokens_of (s : string) : outcome (list token) :=
  let '(ts, r) := read_chars s Start in let? last := at_end r in Ok (ts ++ last).

(** The queries that are parsed. A condition is a disjunction of conjunctions of comparisons. *)
Inductive operand := Column (name : string) | Literal (value : string).
Record comparison := Compare { left_side : operand; equal : bool; right_side : operand }.
Record query := Query {
  selected : list (option string * string);
  from : string;
  condition : list (list comparison);
  grouped : list string
}.

Section Parser.
(** The words that sqlparser does not accept as names without quotes. *)
Variable reserved : string -> bool.

Definition keyword (k : string) (t : token) : bool :=
  match t with
  | Name value false => String.eqb (map_string to_upper value) k
  | _ => false
  end.

(** [IdentNormalizer::normalize] of DataFusion: names without quotes are in lower case. *)
Definition identifier (value : string) (quoted : bool) : outcome string :=
  if quoted then Ok value
  else if reserved (map_string to_upper value) then Err
  else Ok (map_string to_lower value).

(** [Parser::parse_projection] of sqlparser. Simplified: only columns and functions of a column,
    without aliases. *)
Fixpoint parse_items (tokens : list token)
  : outcome (list (option string * string) * list token) :=
  match tokens with
  | Name f false :: Open :: Name c q :: Close :: tokens =>
      let? c := identifier c q in
      let item := (Some (map_string to_upper f), c) in
      match tokens with
      | Comma :: tokens => let? (items, rest) := parse_items tokens in Ok (item :: items, rest)
      | _ => Ok ([item], tokens)
      end
  | Name c q :: tokens =>
      let? c := identifier c q in
      match tokens with
      | Comma :: tokens => let? (items, rest) := parse_items tokens in Ok ((None, c) :: items, rest)
      | _ => Ok ([(None, c)], tokens)
      end
  | _ => Err
  end.

Definition parse_operand (t : token) : outcome operand :=
  match t with
  | Name value quoted => let? name := identifier value quoted in Ok (Column name)
  | Text value => Ok (Literal value)
  | _ => Err
  end.

(** [Parser::parse_expr] of sqlparser. Simplified: only comparisons with AND and OR, without
    parentheses. *)
Fixpoint parse_condition (tokens : list token) : outcome (list (list comparison) * list token) :=
  match tokens with
  | a :: op :: b :: tokens =>
      let? a := parse_operand a in
      let? e := match op with Equal => Ok true | Less_equal => Ok false | _ => Err end in
      let? b := parse_operand b in
      let c := Compare a e b in
      match tokens with
      | t :: more =>
          if keyword "AND" t then
            let? (terms, rest) := parse_condition more in
            match terms with
            | [] => Ok ([[c]], rest)
            | term :: terms => Ok ((c :: term) :: terms, rest)
            end
          else if keyword "OR" t then
            let? (terms, rest) := parse_condition more in Ok ([c] :: terms, rest)
          else Ok ([[c]], tokens)
      | [] => Ok ([[c]], tokens)
      end
  | _ => Err
  end.

Fixpoint parse_columns (tokens : list token) : outcome (list string * list token) :=
  match tokens with
  | Name c q :: tokens =>
      let? c := identifier c q in
      match tokens with
      | Comma :: tokens => let? (names, rest) := parse_columns tokens in Ok (c :: names, rest)
      | _ => Ok ([c], tokens)
      end
  | _ => Err
  end.

Definition parse_where (tokens : list token) : outcome (list (list comparison) * list token) :=
  match tokens with
  | t :: rest => if keyword "WHERE" t then parse_condition rest else Ok ([], tokens)
  | [] => Ok ([], [])
  end.
Definition parse_group_by (tokens : list token) : outcome (list string * list token) :=
  match tokens with
  | g :: b :: rest => if keyword "GROUP" g && keyword "BY" b then parse_columns rest else Ok ([], tokens)
  | _ => Ok ([], tokens)
  end.

(** [Parser::parse_select] of sqlparser. *)
Definition parse_query (tokens : list token) : outcome query :=
  match tokens with
  | s :: tokens =>
      if keyword "SELECT" s then
        let? (items, tokens) := parse_items tokens in
        match tokens with
        | f :: Name table q :: tokens =>
            if keyword "FROM" f then
              let? table := identifier table q in
              let? (terms, tokens) := parse_where tokens in
              let? (names, tokens) := parse_group_by tokens in
              if forallb (fun t => match t with Semicolon => true | _ => false end) tokens
              then Ok (Query items table terms names) else Err
            else Err
        | _ => Err
        end
      else Err
  | [] => Err
  end.

(** Values and tables. Simplified: fields are numbers. *)
Inductive value := Time (z : Z) | Tag (s : string) | Field (z : Z).
Inductive kind := Time_column | Tag_column | Field_column.
Record data := Data { schema : list (string * kind); rows : list (list value) }.
Definition database := list (string * data).

Fixpoint position (name : string) (l : list (string * kind)) : option nat :=
  match l with
  | [] => None
  | (n, _) :: l => if String.eqb n name then Some 0%nat else option_map S (position name l)
  end.
Definition column_kind (l : list (string * kind)) (name : string) : option kind :=
  option_map snd (find (fun c => String.eqb (fst c) name) l).
Definition cell (l : list (string * kind)) (name : string) (row : list value) : value :=
  match position name l with Some i => nth i row (Field 0) | None => Field 0 end.

(** How DataFusion casts a text to a timestamp. *)
Variable timestamp_of : string -> option Z.

(** Comparisons with the types that DataFusion casts their sides to. Simplified: only a timestamp or
    a tag can be compared, and only with a text or a column of the same type. *)
Definition order {A : Type} (compare : A -> A -> Datatypes.comparison) (equal : bool) (a b : A) : bool :=
  match compare a b with Eq => true | Lt => negb equal | Gt => false end.
Definition as_time (v : value) : Z := match v with Time z => z | _ => 0%Z end.
Definition as_tag (v : value) : string := match v with Tag s => s | _ => ""%string end.

Definition operand_kind (l : list (string * kind)) (o : operand) : outcome (option kind) :=
  match o with
  | Column name => match column_kind l name with Some k => Ok (Some k) | None => Err end
  | Literal _ => Ok None
  end.
Definition time_of (l : list (string * kind)) (o : operand) : outcome (list value -> Z) :=
  match o with
  | Column name => Ok (fun row => as_time (cell l name row))
  | Literal s => match timestamp_of s with Some z => Ok (fun _ => z) | None => Err end
  end.
Definition tag_of (l : list (string * kind)) (o : operand) (row : list value) : string :=
  match o with
  | Column name => as_tag (cell l name row)
  | Literal s => s
  end.
Definition compile (l : list (string * kind)) (c : comparison) : outcome (list value -> bool) :=
  let? a := operand_kind l (left_side c) in
  let? b := operand_kind l (right_side c) in
  match a, b with
  | Some Time_column, (Some Time_column | None) | None, Some Time_column =>
      let? x := time_of l (left_side c) in
      let? y := time_of l (right_side c) in
      Ok (fun row => order Z.compare (equal c) (x row) (y row))
  | (Some Tag_column | None), (Some Tag_column | None) =>
      Ok (fun row => order String.compare (equal c) (tag_of l (left_side c) row)
                       (tag_of l (right_side c) row))
  | _, _ => Err
  end.
Fixpoint all_of (l : list (string * kind)) (cs : list comparison) : outcome (list value -> bool) :=
  match cs with
  | [] => Ok (fun _ => true)
  | c :: cs => let? p := compile l c in let? q := all_of l cs in Ok (fun row => p row && q row)
  end.
Fixpoint any_of (l : list (string * kind)) (terms : list (list comparison))
  : outcome (list value -> bool) :=
  match terms with
  | [] => Ok (fun _ => false)
  | t :: terms => let? p := all_of l t in let? q := any_of l terms in Ok (fun row => p row || q row)
  end.
Definition predicate (l : list (string * kind)) (terms : list (list comparison))
  : outcome (list value -> bool) :=
  match terms with [] => Ok (fun _ => true) | _ => any_of l terms end.

(** How DataFusion computes aggregates of the rows that are selected. *)
Variable aggregated : list (string * kind) -> list (option string * string) -> list string ->
  list (list value) -> outcome (list (list value)).

Definition known (l : list (string * kind)) (name : string) : bool :=
  match column_kind l name with Some _ => true | None => false end.
Definition is_plain (i : option string * string) : bool :=
  match fst i with None => true | Some _ => false end.

(** [SessionContext::sql] and [DataFrame::execute_stream] of DataFusion. Simplified: a column can be
    selected twice, and rows are returned in the order of the table. *)
Definition execute (q : query) (db : database) : outcome (list (list value)) :=
  match find (fun t => String.eqb (fst t) (from q)) db with
  | Some (_, t) =>
      let l := schema t in
      if forallb (known l) (map snd (selected q) ++ grouped q) then
        let? p := predicate l (condition q) in
        let kept := filter p (rows t) in
        match forallb is_plain (selected q), grouped q with
        | true, [] => Ok (map (fun row => map (fun i => cell l (snd i) row) (selected q)) kept)
        | _, _ => aggregated l (selected q) (grouped q) kept
        end
      else Err
  | None => Err
  end.

(** [read_time_series_table], operations/data_folder.rs l.297-330, and [read], l.240-247. Simplified:
    all tables are time series tables. *)
Definition read (table : string) (r : request) (db : database) : outcome (list (list value)) :=
  match find (fun t => String.eqb (fst t) table) db with
  | Some (_, t) =>
      let? tokens := tokens_of (generate_sql table (map fst (schema t)) r) in
      let? q := parse_query tokens in
      execute q db
  | None => Err
  end.
End Parser.
