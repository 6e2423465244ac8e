(** C64: the client executes the statements in a file, as they are written. *)
From Coq Require Import Bool Ascii String List.
From Verif Require Import Model.QueryFile Spec.QueryFileSpec Proofs.QueryFileProofs
  Proofs.QueryFileMore Proofs.QueryFileWitnesses.
Import ListNotations.
Open Scope list_scope.

(** A file is read as lines that end with a line feed, or a carriage return and a line feed. *)
Theorem c64_lines : forall file ls, lines file = ls <-> written ls file.
Proof. exact lines_iff. Qed.
Print Assumptions c64_lines.

(** If each statement is on one line, they are all executed in order, whether or not those before
    succeed, nothing else is executed, and an error is printed for each that does not succeed. *)
Theorem c64_executed_partial : forall S valid (serve : S -> request -> S * bool) s file ls statements,
  written ls file -> Forall (fun l => valid l = true) ls -> Forall2 line_means ls statements ->
  exists trace,
    execute_file valid serve s file = (trace, serves serve s (map Query (concat statements)), Zero)
    /\ map request_of trace = map Query (concat statements)
    /\ map succeeded trace = succeeds serve s (map Query (concat statements))
    /\ Forall (fun x => error_printed x = negb (succeeded x)) trace.
Proof. exact file_executed. Qed.
Print Assumptions c64_executed_partial.

Example c64_executed_example : written statement_lines two_statements
  /\ Forall2 line_means statement_lines two_means.
Proof. exact (conj two_written two_meant). Qed.

(** So are commands: the ones that ask something of the server are executed in order with the
    statements, and those that are not known or not complete do not prevent what follows. *)
Theorem c64_commands_partial : forall S valid (serve : S -> request -> S * bool) s file ls requests,
  written ls file -> Forall (fun l => valid l = true) ls -> Forall2 line_asks ls requests ->
  exists trace, execute_file valid serve s file = (trace, serves serve s (concat requests), Zero)
    /\ map request_of trace = concat requests
    /\ map succeeded trace = succeeds serve s (concat requests)
    /\ Forall (fun x => error_printed x = true <-> succeeded x = false /\ request_of x <> Tables) trace.
Proof. exact commands_executed. Qed.
Print Assumptions c64_commands_partial.

Example c64_commands_example : Forall2 line_asks
  [word " \d wind-mill x"; word "\dt"; word "\unknown -- a comment"; word "\f"; word "DROP TABLE a"]
  [[Schema (word "wind-mill")]; [Tables]; []; [FlushMemory]; [Query (word "DROP TABLE a")]].
Proof. exact some_commands. Qed.

(** What is sent of a line is all but its comment if and only if the rest has no dashes. *)
Theorem c64_comment_iff : forall line code, uncommented line code ->
  (before_comment line = code <-> ~ occurs dashes code).
Proof. exact comment_iff. Qed.
Print Assumptions c64_comment_iff.

(** Otherwise what is sent ends within a quote, so it is not another statement. *)
Theorem c64_comment_partial : forall line code, uncommented line code ->
  before_comment line = code
  \/ (~ closed (before_comment line) /\ exists rest, rest <> [] /\ code = before_comment line ++ rest).
Proof. exact comment_sound. Qed.
Print Assumptions c64_comment_partial.

Example c64_comment_example : forall line, exists code, uncommented line code.
Proof. exact uncommented_exists. Qed.

(** Nothing is executed after the command to quit. *)
Theorem c64_quits : forall S valid (serve : S -> request -> S * bool) before w w' c after s,
  white w -> white w' -> comment c -> valid (w ++ ["\"; "q"]%char ++ w' ++ c) = true ->
  execute valid serve s (before ++ (w ++ ["\"; "q"]%char ++ w' ++ c) :: after)
  = execute valid serve s (before ++ [w ++ ["\"; "q"]%char ++ w' ++ c]).
Proof. exact quits_line. Qed.
Print Assumptions c64_quits.

Example c64_quits_example : white (t " ") /\ comment (t "-- end")
  /\ map request_of (fst (fst (execute all_valid (answers true) 0
       [t "\f"; t " \q -- end"; t "DROP TABLE a"]))) = [FlushMemory].
Proof.
  split; [constructor; [now left|constructor]|]. split; [right; now exists (t " end")|].
  vm_compute. reflexivity.
Qed.

(** An error is printed for each request that fails, except for the names of the tables. *)
Theorem c64_errors_iff : forall S valid (serve : S -> request -> S * bool) ls s x,
  In x (fst (fst (execute valid serve s ls))) ->
  (error_printed x = true <-> succeeded x = false /\ request_of x <> Tables).
Proof. exact errors_printed. Qed.
Print Assumptions c64_errors_iff.

Example c64_errors_example :
  In (Sent (Query (t "DROP TABLE a")) false true)
    (fst (fst (execute all_valid (answers false) 0 [t "\dt"; t "DROP TABLE a"]))).
Proof. right. left. vm_compute. reflexivity. Qed.

(** Dashes within a literal are taken to start a comment. *)
Theorem c64_comment_refuted : exists line code, uncommented line code /\ before_comment line <> code.
Proof. exact comment_wrong. Qed.
Print Assumptions c64_comment_refuted.

(** The first line of a statement is executed although it is not a statement of the file. *)
Theorem c64_statements_refuted : exists file q, written [first_line; t "WHERE c > 1;"] file
  /\ (forall S (serve : S -> request -> S * bool) s,
        In (Query q) (map request_of (fst (fst (execute_file all_valid serve s file)))))
  /\ (exists st, statement_of st file)
  /\ forall st w w', statement_of st file -> blank w -> blank w' -> st <> w ++ q ++ w'.
Proof. exact statement_wrong. Qed.
Print Assumptions c64_statements_refuted.

(** The exit status is zero although no statement was executed. *)
Theorem c64_status_refuted : exists file trace s,
  execute_file all_valid (answers false) 0 file = (trace, s, Zero)
  /\ length trace = 2 /\ Forall (fun x => succeeded x = false) trace.
Proof. exact status_wrong. Qed.
Print Assumptions c64_status_refuted.

(** An empty statement is sent for a line that only has a comment. *)
Theorem c64_empty_refuted : exists line, (exists w c, line = w ++ c /\ white w /\ comment c)
  /\ forall S (serve : S -> request -> S * bool) s,
     map request_of (fst (fst (execute_file all_valid serve s line))) = [Query []].
Proof. exact blank_sent. Qed.
Print Assumptions c64_empty_refuted.

(** That the names of the tables cannot be read is not reported. *)
Theorem c64_errors_refuted : exists file trace s x,
  execute_file all_valid (answers false) 0 file = (trace, s, Zero)
  /\ In x trace /\ succeeded x = false /\ error_printed x = false.
Proof. exact error_ignored. Qed.
Print Assumptions c64_errors_refuted.
