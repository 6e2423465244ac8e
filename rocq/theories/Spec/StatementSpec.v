(** Statements as they are written, and what it means that a statement affects tables. *)
From Coq Require Import ZArith Bool Ascii String List.
From Verif Require Import Model.Base Model.Sql Model.Statements.
Import ListNotations.
Open Scope list_scope.

(** Names as they are written: with or without quotes, and separated by commas. *)
Fixpoint listing (names : list (string * bool)) : list token :=
  match names with
  | [] => []
  | [(name, quoted)] => [Word name quoted]
  | (name, quoted) :: names => Word name quoted :: Comma :: listing names
  end.

(** Names with several parts, separated by periods. *)
Fixpoint parts (names : list (string * bool)) : list token :=
  match names with
  | [] => []
  | [(name, quoted)] => [Word name quoted]
  | (name, quoted) :: names => Word name quoted :: Period :: parts names
  end.
Fixpoint parts_listing (names : list (list (string * bool))) : list token :=
  match names with
  | [] => []
  | [name] => parts name
  | name :: names => parts name ++ Comma :: parts_listing names
  end.

(** A word is a keyword, in any case. *)
Definition keyword (k : string) (t : token) : Prop :=
  exists value, t = Word value false /\ map_string to_upper value = k.
Definition stops (tokens : list token) : Prop := Forall (eq Semicolon) tokens.

(** The keyword CLUSTER is written or not. *)
Definition cluster_written (cluster : bool) (tokens : list token) : Prop :=
  if cluster then exists t, tokens = [t] /\ keyword "CLUSTER" t else tokens = [].
(** A number is written with decimal digits. *)
Fixpoint digits_value (digits : list ascii) : Z :=
  match digits with
  | [] => 0
  | c :: digits =>
      (Z.of_nat (nat_of_ascii c) - 48) * 10 ^ Z.of_nat (List.length digits) + digits_value digits
  end%Z.
Definition number_written (digits : list ascii) (z : Z) : Prop :=
  Forall (fun c => 48 <= nat_of_ascii c <= 57) digits /\ digits_value digits = z.
(** A retention period is written or not. *)
Definition retention_written (retention : option Z) (tokens : list token) : Prop :=
  match retention with
  | Some period => exists t digits, tokens = [t; Number digits] /\ keyword "RETAIN" t
                     /\ number_written digits period /\ (period <= (2 ^ 63 - 1) / 1000)%Z
  | None => tokens = []
  end.

(** A name that does not have to be quoted. *)
Definition plain (name : string) : Prop :=
  exists c s, name = String c s /\ identifier_start c = true
    /\ Forall (fun c => identifier_part c = true) (list_ascii_of_string s).

Definition has_char (c : ascii) (s : string) : Prop := In c (list_ascii_of_string s).

(** Only the tables in [names] are affected, and these as described by [effect]. *)
Definition affects (names : list string) (effect : table -> option table) (db db' : database) : Prop :=
  forall x, lookup x db' = match lookup x db with
                           | Some t => if in_dec string_dec x names then effect t else Some t
                           | None => None
                           end.
Definition dropped (t : table) : option table := None.
(** All files of the table are no longer used. *)
Definition emptied (t : table) : option table :=
  Some (Table (definition t) [] (map (fun f => (f, 0%Z)) (used t) ++ stale t)).
(** The files that have not been used for longer than a number of seconds are deleted. *)
Definition cleaned (period : Z) (t : table) : option table :=
  Some (Table (definition t) (used t) (filter (fun f => (snd f <=? period)%Z) (stale t))).

(** All tables exist. *)
Definition exist (names : list string) (db : database) : Prop :=
  forall x, In x names -> lookup x db <> None.

(** No table in [db] is in the folder of a table in [names], other than it. *)
Definition own_folders (names : list string) (db : database) : Prop :=
  forall x y, In x names -> lookup y db <> None -> starts_with (segments x) (segments y) = true ->
    y = x.

(** The tables in [names] are affected one after another, until one does not exist. *)
Definition carried_out (names : list string) (effect : table -> option table) (db db' : database)
    (r : outcome unit) : Prop :=
  exists before after, names = before ++ after /\ exist before db /\ affects before effect db db'
    /\ (r = Ok tt /\ after = []
        \/ r = Err /\ exists x rest, after = x :: rest /\ lookup x db' = None).

(** The first name is not a keyword. *)
Definition not_first (k : string) (names : list (string * bool)) : Prop :=
  match names with (name, quoted) :: _ => ~ keyword k (Word name quoted) | [] => True end.

(** Statements as they are written. *)
Definition drop_statement (names : list (list (string * bool))) (tokens : list token) : Prop :=
  exists k t s, keyword "DROP" k /\ keyword "TABLE" t /\ names <> []
    /\ Forall (fun n => n <> []) names /\ stops s /\ tokens = k :: t :: parts_listing names ++ s.
Definition truncate_statement (names : list (string * bool)) (cluster : bool) (tokens : list token)
    : Prop :=
  exists k c s, keyword "TRUNCATE" k /\ cluster_written cluster c /\ names <> [] /\ stops s
    /\ (cluster = false -> not_first "CLUSTER" names) /\ tokens = k :: c ++ listing names ++ s.
Definition vacuum_statement (names : list (string * bool)) (retention : option Z) (cluster : bool)
    (tokens : list token) : Prop :=
  exists k c r s, keyword "VACUUM" k /\ cluster_written cluster c
    /\ retention_written retention r /\ stops s
    /\ (cluster = false -> not_first "CLUSTER" names) /\ not_first "RETAIN" names
    /\ tokens = k :: c ++ listing names ++ r ++ s.
