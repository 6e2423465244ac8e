(** CREATE TIME SERIES TABLE statements as they are written, and what they mean. *)
From Coq Require Import ZArith Bool Ascii String List.
From Verif Require Import Model.Base Model.Float Model.Filters Model.Table Model.Sql
  Spec.StatementSpec Model.CreateSql.
Import ListNotations.
Open Scope string_scope.
Open Scope list_scope.

Section Written.
Variable parse_f32 : list ascii -> outcome f32.
Variable parse_expr : list token -> outcome (expr * list token).

(** A word in any case, quoted or not, and one that is not quoted. *)
Definition spelled (word : string) (t : token) : Prop :=
  exists value quoted, t = Word value quoted /\ map_string to_upper value = word.
Definition unquoted_keyword (word : string) (t : token) : Prop :=
  exists value, t = Word value false /\ map_string to_upper value = word.

(** The tokens are an expression if they are followed by a parenthesis. *)
Definition expression (tokens : list token) (e : expr) : Prop :=
  forall rest, parse_expr (tokens ++ Close :: rest) = Ok (e, Close :: rest).

(** The tokens of a column and its definition. *)
Inductive column_written : list token -> column_def -> Prop :=
| Timestamp_written : forall n q t, spelled "TIMESTAMP" t ->
    column_written [Word n q; t] (map_string to_lower n, Timestamp_column)
| Tag_written : forall n q t, spelled "TAG" t ->
    column_written [Word n q; t] (map_string to_lower n, Tag_column)
| Field_written : forall n q t, spelled "FIELD" t ->
    column_written [Word n q; t] (map_string to_lower n, Field_column f32_zero false)
| Absolute_written : forall n q t digits bound, spelled "FIELD" t -> parse_f32 digits = Ok bound ->
    column_written [Word n q; t; Open; Number digits; Close]
      (map_string to_lower n, Field_column bound false)
| Relative_written : forall n q t digits bound, spelled "FIELD" t -> parse_f32 digits = Ok bound ->
    column_written [Word n q; t; Open; Number digits; Percent; Close]
      (map_string to_lower n, Field_column bound true)
| Generated_written : forall n q t a tokens e, spelled "FIELD" t -> spelled "AS" a ->
    expression tokens e ->
    column_written ([Word n q; t; a; Open] ++ tokens ++ [Close])
      (map_string to_lower n, Generated_column e).

(** Columns separated by commas. *)
Inductive columns_written : list token -> list column_def -> Prop :=
| Last_column : forall tokens column, column_written tokens column ->
    columns_written tokens [column]
| More_columns : forall tokens column more columns, column_written tokens column ->
    columns_written more columns ->
    columns_written (tokens ++ Comma :: more) (column :: columns).

(** The tokens of a statement that creates a table with a name and columns. *)
Definition create_written (tokens : list token) (name : string) (columns : list column_def) : Prop :=
  exists c t s b q columns_tokens stop,
    tokens = [c; t; s; b; Word name q; Open] ++ columns_tokens ++ Close :: stop
    /\ unquoted_keyword "CREATE" c /\ spelled "TIME" t /\ spelled "SERIES" s
    /\ unquoted_keyword "TABLE" b
    /\ columns_written columns_tokens columns /\ Forall (eq Semicolon) stop.

(** Parsing an expression takes the first tokens, whatever follows the parenthesis after it. *)
Definition takes_first : Prop := forall tokens e rest, parse_expr tokens = Ok (e, Close :: rest) ->
  exists first, tokens = first ++ Close :: rest /\ expression first e.

(** The text of a statement. A name is written as is or with quotes. *)
Definition name_text (n : string * bool) : string :=
  if snd n then """" ++ fst n ++ """" else fst n.
Definition can_be_written (n : string * bool) : Prop :=
  if snd n then ~ has_char """" (fst n) else plain (fst n).

Inductive asked :=
| Ask_timestamp
| Ask_tag
| Ask_field
| Ask_bound (digits : string) (relative : bool)
| Ask_expression (text : string).

Definition asked_text (a : asked) : string :=
  match a with
  | Ask_timestamp => "TIMESTAMP"
  | Ask_tag => "TAG"
  | Ask_field => "FIELD"
  | Ask_bound digits relative => "FIELD(" ++ digits ++ (if relative then "%" else "") ++ ")"
  | Ask_expression text => "FIELD AS (" ++ text ++ ")"
  end.

(** A number is written with digits and points. *)
Definition numeral (digits : string) : Prop :=
  exists c s, digits = String c s /\ digit c = true
    /\ Forall (fun c => digit c = true \/ c = "."%char) (list_ascii_of_string s).

Definition asks_for (a : asked) (k : column_kind) : Prop :=
  match a with
  | Ask_timestamp => k = Timestamp_column
  | Ask_tag => k = Tag_column
  | Ask_field => k = Field_column f32_zero false
  | Ask_bound digits relative =>
      exists bound, k = Field_column bound relative /\ numeral digits
        /\ parse_f32 (list_ascii_of_string digits) = Ok bound
  | Ask_expression text =>
      exists tokens e, k = Generated_column e /\ tokens_of text = Ok tokens /\ expression tokens e
  end.

(** A column that is asked for and its definition. *)
Definition column_asked (c : (string * bool) * asked) (d : column_def) : Prop :=
  can_be_written (fst c) /\ fst d = map_string to_lower (fst (fst c))
  /\ asks_for (snd c) (snd d).

Definition create_text (name : string * bool) (columns : list ((string * bool) * asked)) : string :=
  "CREATE TIME SERIES TABLE " ++ name_text name ++ "("
  ++ join ", " (map (fun c => (name_text (fst c) ++ " " ++ asked_text (snd c))%string) columns) ++ ")".
End Written.
