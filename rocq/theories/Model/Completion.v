(** Completing words in the read-eval-print loop of the command-line client:
    crates/modelardb_client/src/helper.rs.

    Simplified: texts are bytes and only ASCII letters have an upper case; the names of the tables
    are those the server returned when the client was started, main.rs l.129-131. *)
From Coq Require Import Bool Ascii String List PeanoNat.
Import ListNotations.
Open Scope list_scope.

Definition text := list ascii.
Definition space : ascii := " ".

(** The keywords, helper.rs l.39-68. *)
Definition keywords : list text :=
  map list_ascii_of_string
    ["AVG"; "COUNT"; "CROSS JOIN"; "DISTINCT"; "EXCEPT ALL"; "EXCEPT"; "FROM"; "FULL JOIN";
     "FULL OUTER JOIN"; "GROUP BY"; "HAVING"; "INNER JOIN"; "INTERSECT ALL"; "INTERSECT"; "JOIN";
     "LEFT JOIN"; "LEFT OUTER JOIN"; "LIMIT"; "MAX"; "MIN"; "ORDER BY"; "RIGHT JOIN";
     "RIGHT OUTER JOIN"; "SELECT"; "SUM"; "UNION ALL"; "UNION"; "WHERE"]%string.

(** [ClientHelper::new], helper.rs l.37-74. *)
Definition candidates (names : list text) : list text := keywords ++ names.

(** [to_uppercase] for ASCII, helper.rs l.93 and l.97. *)
Definition to_upper (c : ascii) : ascii :=
  let n := nat_of_ascii c in
  if Nat.leb 97 n && Nat.leb n 122 then ascii_of_nat (n - 32) else c.

(** [starts_with], helper.rs l.97. *)
Fixpoint starts_with (prefix t : text) : bool :=
  match prefix, t with
  | [], _ => true
  | c :: prefix, d :: t => Ascii.eqb c d && starts_with prefix t
  | _ :: _, [] => false
  end.

(** [completion::extract_word] of rustyline without an escape character, used in helper.rs l.92:
    the characters before the cursor are read backwards until a space is found. *)
Fixpoint backwards (reversed word : text) : nat * text :=
  match reversed with
  | [] => (O, word)
  | c :: before =>
      if Ascii.eqb c space then (length reversed, word) else backwards before (c :: word)
  end.
Definition extract_word (line : text) (pos : nat) : nat * text := backwards (rev (firstn pos line)) [].

(** [complete], helper.rs l.84-101. *)
Definition complete (names : list text) (line : text) (pos : nat) : nat * list text :=
  let (start, prefix) := extract_word line pos in
  let uppercase_prefix := map to_upper prefix in
  (start,
   filter (fun candidate => starts_with uppercase_prefix (map to_upper candidate))
     (candidates names)).

(** The editor of rustyline replaces what is between the start and the cursor by a candidate. *)
Definition replaced (line : text) (start pos : nat) (candidate : text) : text :=
  firstn start line ++ candidate ++ skipn pos line.
