(** Dropping, truncating and vacuuming a table through the embedded library: the two implementations
    of [Operations], for a data folder and for a client of a server. *)
From Coq Require Import ZArith Bool Ascii String List.
From Verif Require Import Model.Base Model.Sql Model.Statements.
Import ListNotations.
Open Scope string_scope.
Open Scope list_scope.

(** The methods of [Operations], crates/modelardb_embedded/src/operations/mod.rs l.134-147. *)
Inductive operation :=
| Drop_it
| Truncate_it
| Vacuum_it (retention : option Z).

Definition unchanged (f : database -> outcome database) (db : database) : database * outcome unit :=
  match f db with
  | Ok db => (db, Ok tt)
  | Err => (db, Err)
  | Panic => (db, Panic)
  end.

(** [DataFolder::truncate], [DataFolder::drop] and [DataFolder::vacuum], operations/data_folder.rs
    l.493-541, with the functions of the storage engine's data folder, which are also used by a
    server, see Model/Statements.v. Simplified: the tables that are registered with DataFusion are
    those that are saved. *)
Definition folder (o : operation) (x : string) : database -> database * outcome unit :=
  unchanged (match o with
             | Drop_it => drop_table x
             | Truncate_it => truncate_table x
             | Vacuum_it retention => vacuum_table retention x
             end).

(** [format!] for a number of type u64: the last digit is first found. *)
Definition digit_of (z : Z) : ascii := ascii_of_nat (48 + Z.to_nat z).
Fixpoint decimal (fuel : nat) (z : Z) (rest : list ascii) : list ascii :=
  match fuel with
  | O => rest
  | S fuel => let rest := digit_of (z mod 10) :: rest in
              if (z <? 10)%Z then rest else decimal fuel (z / 10) rest
  end.
Definition show (z : Z) : string := string_of_list_ascii (decimal 20 z []).

(** The text that [Client::truncate], [Client::drop] and [Client::vacuum], operations/client.rs
    l.272-313, send. *)
Definition sent (o : operation) (x : string) : string :=
  match o with
  | Drop_it => "DROP TABLE " ++ x
  | Truncate_it => "TRUNCATE " ++ x
  | Vacuum_it None => "VACUUM " ++ x
  | Vacuum_it (Some retention) => "VACUUM " ++ x ++ " RETAIN " ++ show retention
  end.

(** What the server then does, see Model/Statements.v. *)
Definition client (o : operation) (x : string) (db : database) : database * outcome unit :=
  run (parse_sql (sent o x)) db.
