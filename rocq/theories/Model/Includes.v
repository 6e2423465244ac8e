(** Queries that include other nodes, INCLUDE 'address', ... SELECT ...:
    crates/modelardb_server/src/remote.rs and crates/modelardb_storage/src/parser.rs. *)
From Coq Require Import Arith Bool Ascii String List.
From Verif Require Import Model.Base.
Import ListNotations.
Open Scope nat_scope.
Open Scope list_scope.

(** A Rust string, i.e., its bytes in UTF-8. *)
Definition text := list ascii.
Definition quote : ascii := "'".
Definition comma : ascii := ",".

(** Whitespace between tokens. Simplified: only ASCII characters, and no comments before the last
    address. *)
Definition is_white (c : ascii) : bool :=
  (Ascii.eqb c " " || Ascii.eqb c "009" || Ascii.eqb c "010" || Ascii.eqb c "013")%char.
Fixpoint skip_white (t : text) : text :=
  match t with
  | c :: rest => if is_white c then skip_white rest else t
  | [] => []
  end.

(** A keyword in any case, [next_token_is_include], parser.rs l.452-461. *)
Definition to_upper (c : ascii) : ascii :=
  let n := nat_of_ascii c in if (97 <=? n) && (n <=? 122) then ascii_of_nat (n - 32) else c.
Fixpoint keyword (k : text) (t : text) : outcome text :=
  match k, t with
  | [], _ => Ok t
  | c :: k, d :: t => if Ascii.eqb (to_upper d) c then keyword k t else Err
  | _, [] => Err
  end.
Definition INCLUDE : text := list_ascii_of_string "INCLUDE".

(** The rest of a string literal, its value without escapes and what follows it. *)
Fixpoint literal (t : text) : outcome (text * text) :=
  match t with
  | [] => Err
  | c :: rest =>
      if Ascii.eqb c quote then
        match rest with
        | d :: rest' =>
            if Ascii.eqb d quote then
              let? (value, t) := literal rest' in Ok (quote :: value, t)
            else Ok ([], rest)
        | [] => Ok ([], [])
        end
      else let? (value, t) := literal rest in Ok (c :: value, t)
  end.

(** The loop of [parse_include_query], parser.rs l.469-482. What follows the last literal is parsed
    as a query. *)
Fixpoint parse_addresses (fuel : nat) (t : text) : outcome (list text * text) :=
  match fuel with
  | 0 => Err
  | S fuel =>
      match skip_white t with
      | c :: t =>
          if Ascii.eqb c quote then
            let? (address, rest) := literal t in
            match skip_white rest with
            | d :: more =>
                if Ascii.eqb d comma then
                  let? (addresses, rest) := parse_addresses fuel more in
                  Ok (address :: addresses, rest)
                else Ok ([address], rest)
            | [] => Ok ([address], rest)
            end
          else Err
      | [] => Err
      end
  end.
Definition parse_include (sql : text) : outcome (list text * text) :=
  let? t := keyword INCLUDE (skip_white sql) in
  parse_addresses (length t) t.

(** [str::rfind]. *)
Fixpoint starts_with (needle t : text) : bool :=
  match needle, t with
  | [], _ => true
  | c :: needle, d :: t => Ascii.eqb c d && starts_with needle t
  | _, [] => false
  end.
Fixpoint rfind (needle t : text) : option nat :=
  match t with
  | [] => if starts_with needle [] then Some 0 else None
  | _ :: rest =>
      match rfind needle rest with
      | Some i => Some (S i)
      | None => if starts_with needle t then Some 0 else None
      end
  end.

(** [&t[i..]], which panics if [i] is past the end or within a character. *)
Definition continues (c : ascii) : bool :=
  let n := nat_of_ascii c in (128 <=? n) && (n <? 192).
Definition slice_from (t : text) (i : nat) : outcome text :=
  if length t <? i then Panic
  else match skipn i t with
       | c :: rest => if continues c then Panic else Ok (c :: rest)
       | [] => Ok []
       end.

(** How [execute_query_at_addresses_and_union], remote.rs l.97-102, computes the query to send. *)
Definition sql_select (sql : text) (addresses : list text) : outcome text :=
  match rev addresses with
  | [] => Err
  | last_address :: _ =>
      match rfind last_address sql with
      | None => Err
      | Some start_of_address => slice_from sql (start_of_address + length last_address + 1)
      end
  end.

(** The result of a query: the names of its columns and a stream of batches of rows. *)
Record result (V : Type) := Result {
  columns : list string;
  stream : list (outcome (list (list V)))
}.
Arguments Result {V}.
Arguments columns {V}.
Arguments stream {V}.

(** The loop over the addresses, l.109-113. [answer] is what [execute_query_at_address], l.123-164,
    returns for a query at an address. *)
Fixpoint at_addresses {V} (answer : text -> text -> outcome (result V)) (select : text)
  (addresses : list text) : outcome (list (result V)) :=
  match addresses with
  | [] => Ok []
  | address :: addresses =>
      let? r := answer address select in
      let? rs := at_addresses answer select addresses in
      Ok (r :: rs)
  end.

(** [do_get], remote.rs l.679-696, for a statement with INCLUDE: [local] is the execution of the query
    at this node. The results are returned with the schema of the local result. *)
Definition include_query {V} (local : text -> outcome (result V))
  (answer : text -> text -> outcome (result V)) (sql : text)
  : outcome (list string * list (list (outcome (list (list V))))) :=
  let? (addresses, query) := parse_include sql in
  let? l := local query in
  let? select := sql_select sql addresses in
  let? rs := at_addresses answer select addresses in
  Ok (columns l, stream l :: map stream rs).

(** [SelectAll]: the streams are merged in any order. *)
Inductive merged {A} : list (list A) -> list A -> Prop :=
| merged_end : forall streams, Forall (fun s => s = []) streams -> merged streams []
| merged_next : forall before x s after items,
    merged (before ++ s :: after) items -> merged (before ++ (x :: s) :: after) (x :: items).

(** [send_query_result], l.169-211: the rows that are sent, and whether an error is. *)
Fixpoint send {V} (items : list (outcome (list (list V)))) : list (list V) * bool :=
  match items with
  | [] => ([], true)
  | Ok batch :: items => let (rows, ok) := send items in (batch ++ rows, ok)
  | _ :: _ => ([], false)
  end.
