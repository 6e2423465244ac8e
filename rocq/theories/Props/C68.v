(** C68 - Rows that are written to a table are stored once in the columns they are for, or an error
    is returned and none of them are stored. *)
From Coq Require Import ZArith Bool String List.
From Verif Require Import Model.Base Model.Sql Model.Writes Spec.WriteSpec Proofs.WriteProofs.
Import ListNotations.
Open Scope string_scope.
Open Scope list_scope.

(** Whichever way rows are written, into how many batches and messages they are divided, and
    whatever goes wrong: if the columns are those of the table, its name is in lower case, no entry
    for a time series table is null, and the writer is told that the rows were written, then all of
    them were read and added to the table once, in order, with the meaning they have for the
    writer, and nothing else changed. Missing: columns with other names or types, names in upper
    case, and nulls, see below. *)
Theorem c68_written_partial : forall mismatched r ts t ts', lookup (table_of r) ts = Some t ->
  lower (table_of r) -> suits r t ->
  (series t = false -> forallb (fun c => negb (snd c)) (query_columns t) = true) ->
  (series t = true -> all_valid (concat (batches_of r))) ->
  perform mismatched r ts = (ts', Ok tt) ->
  readable r /\ only_rows (table_of r) ts ts' /\ added r (concat (batches_of r)) ts ts'.
Proof. exact written. Qed.
Print Assumptions c68_written_partial.

(** They are written if nothing goes wrong. *)
Theorem c68_accepted_partial : forall mismatched r ts t, lookup (table_of r) ts = Some t ->
  lower (table_of r) -> suits r t -> all_valid (concat (batches_of r)) -> readable r ->
  unhindered r t -> snd (perform mismatched r ts) = Ok tt.
Proof. exact accepted. Qed.
Print Assumptions c68_accepted_partial.

(** If instead an error is returned, then the rows that were added are the first of those that were
    written, and the process has not stopped. Missing: that none were added, see below. *)
Theorem c68_part_partial : forall mismatched r ts t ts' answer, lookup (table_of r) ts = Some t ->
  lower (table_of r) -> suits r t ->
  (series t = false -> forallb (fun c => negb (snd c)) (query_columns t) = true) ->
  (series t = true -> all_valid (concat (batches_of r))) ->
  perform mismatched r ts = (ts', answer) ->
  answer <> Panic /\ only_rows (table_of r) ts ts'
  /\ exists part rest, concat (batches_of r) = part ++ rest /\ added r part ts ts'.
Proof. exact part_written. Qed.
Print Assumptions c68_part_partial.

(** For a data folder that is used by the program itself, none of the rows are added if an error is
    returned, except if the file system returned an error for a write it has done. This holds for
    all rows and tables. Missing: nodes, and copies made by clients. *)
Theorem c68_atomic_partial : forall mismatched r ts ts', perform mismatched r ts = (ts', Err) ->
  (exists f x b, r = Folder_write f x b /\ f <> Reported)
  \/ (exists f x cs data, r = Folder_copy f x cs data /\ f <> Reported) ->
  forall x, lookup x ts' = lookup x ts.
Proof. exact folder_atomic. Qed.
Print Assumptions c68_atomic_partial.

(** A data folder only accepts columns with the types of those of the table, and rows that have a
    null only in columns of the table that may have nulls. Missing: nodes, see below. *)
Theorem c68_checked_partial : forall mismatched r ts t ts', lookup (table_of r) ts = Some t ->
  to_folder r -> perform mismatched r ts = (ts', Ok tt) ->
  fit (columns_of r t) (schema_of t)
  /\ (Forall (row_fits (columns_of r t)) (concat (batches_of r)) ->
      Forall (row_fits (schema_of t)) (concat (batches_of r))).
Proof. exact checked. Qed.
Print Assumptions c68_checked_partial.

(** A node does not look at the schema a client sends: if the columns are as wide as those of the
    table then their bits are stored in it, in order, whatever their names and types are. *)
Theorem c68_unchecked_refuted : forall mismatched sizes x b ts t, lookup x ts = Some t -> lower x ->
  map (fun c => layout_of (type c)) (columns b) = map (fun c => layout_of (type c)) (schema_of t) ->
  all_valid (rows b) ->
  exists ts' t', perform mismatched (Client_write sizes [] x b) ts = (ts', Ok tt)
    /\ lookup x ts' = Some t' /\ query_columns t' = query_columns t
    /\ stored t' = stored t ++ rows b.
Proof. exact unchecked. Qed.
Print Assumptions c68_unchecked_refuted.

(** So times in seconds become times in microseconds, and the client is told that all is well. *)
Theorem c68_seconds_refuted : forall mismatched series z, (0 < z < 2 ^ 63)%Z ->
  let t := Table series [(Column "stamp" Microseconds false, false); (Column "power" Float32 false, false)] [] [] in
  let b := Batch [Column "stamp" Seconds false; Column "power" Float32 false] [[time z; number 0]] in
  contents (columns b) (rows b) = [[("stamp", Instant (1000000000 * z)); ("power", Single 0)]]
  /\ exists ts' t', perform mismatched (Client_write [] [] "wind" b) [("wind", t)] = (ts', Ok tt)
    /\ lookup "wind" ts' = Some t'
    /\ table_contents t' = [[("stamp", Instant (1000 * z)); ("power", Single 0)]].
Proof. exact seconds. Qed.
Print Assumptions c68_seconds_refuted.

(** A data folder looks at types, but not at names: columns in another order are stored in each
    other's place. *)
Theorem c68_names_refuted : forall mismatched y z,
  let t := plain [Column "speed" Float32 false; Column "power" Float32 false] in
  let b := Batch [Column "power" Float32 false; Column "speed" Float32 false] [[number y; number z]] in
  contents (columns b) (rows b) = [[("power", Single y); ("speed", Single z)]]
  /\ exists ts' t', perform mismatched (Folder_write No_fault "wind" b) [("wind", t)] = (ts', Ok tt)
    /\ lookup "wind" ts' = Some t'
    /\ table_contents t' = [[("speed", Single y); ("power", Single z)]].
Proof. exact renamed. Qed.
Print Assumptions c68_names_refuted.

(** If one batch is sent in two messages and the second is refused because of a null, then the rows
    of the first are stored although an error is returned. *)
Theorem c68_split_refuted : forall mismatched z,
  let t := plain [Column "power" Float32 false] in
  let b := Batch [Column "power" Float32 true] [[number z]; [Entry false (Word32 0)]] in
  exists ts' t', perform mismatched (Client_write [1] [] "wind" b) [("wind", t)] = (ts', Err)
    /\ lookup "wind" ts' = Some t' /\ table_contents t' = [[("power", Single z)]].
Proof. exact split_batch. Qed.
Print Assumptions c68_split_refuted.

(** All rows are stored although an error is returned if a normal table should be transferred after
    they were written and that fails. *)
Theorem c68_transfer_refuted : forall mismatched b cs, columns b = cs -> all_valid (rows b) ->
  exists ts' t', perform mismatched (Client_write [] [Not_transferred] "wind" b) [("wind", plain cs)] = (ts', Err)
    /\ lookup "wind" ts' = Some t' /\ table_contents t' = contents cs (rows b).
Proof. exact not_transferred. Qed.
Print Assumptions c68_transfer_refuted.

(** A copy that a client makes to a data folder fails at a batch without rows, after the rows before
    it were stored. *)
Theorem c68_empty_refuted : forall mismatched y z,
  let cs := [Column "power" Float32 false] in
  exists ts' t', perform mismatched (Client_copy Folder [] "wind" cs
      [Some [[number y]]; Some []; Some [[number z]]]) [("wind", plain cs)] = (ts', Err)
    /\ lookup "wind" ts' = Some t' /\ table_contents t' = [[("power", Single y)]].
Proof. exact empty_batch. Qed.
Print Assumptions c68_empty_refuted.

(** An INSERT that fails has stored the rows of the batches before. *)
Theorem c68_insert_refuted : forall mismatched z,
  let t := time_series [Column "stamp" Microseconds false; Column "power" Float32 false] in
  exists ts' t', perform mismatched (Insert [] "wind" [Some [[time 0; number z]]; None]) [("wind", t)] = (ts', Err)
    /\ lookup "wind" ts' = Some t'
    /\ table_contents t' = [[("stamp", Instant 0); ("power", Single z)]].
Proof. exact half_inserted. Qed.
Print Assumptions c68_insert_refuted.

(** What a client writes to the table Wind is stored in the table wind. *)
Theorem c68_case_refuted : forall mismatched z,
  let cs := [Column "power" Float32 false] in
  exists ts' t', perform mismatched (Client_write [] [] "Wind" (Batch cs [[number z]]))
      [("Wind", plain cs); ("wind", plain cs)] = (ts', Ok tt)
    /\ lookup "Wind" ts' = Some (plain cs) /\ lookup "wind" ts' = Some t'
    /\ table_contents t' = [[("power", Single z)]].
Proof. exact other_case. Qed.
Print Assumptions c68_case_refuted.

(** If a field of a time series table may be null, then a null is accepted and becomes the number
    that happens to be in the buffer, whichever way it is written. *)
Theorem c68_null_refuted : forall mismatched z,
  let cs := [Column "stamp" Microseconds false; Column "power" Float32 true] in
  let rs := [[time 0; Entry false (Word32 z)]] in
  contents cs rs = [[("stamp", Instant 0); ("power", Missing)]]
  /\ forall r, In r [Folder_write No_fault "wind" (Batch cs rs); Client_write [] [] "wind" (Batch cs rs);
                     Insert [] "wind" [Some rs]] ->
     exists ts' t', perform mismatched r [("wind", time_series cs)] = (ts', Ok tt)
       /\ lookup "wind" ts' = Some t'
       /\ table_contents t' = [[("stamp", Instant 0); ("power", Single z)]].
Proof. exact null_stored. Qed.
Print Assumptions c68_null_refuted.

(** If timestamps may be null, then one that is stops the node, and also each time the node is
    started again, as the row is in the write-ahead log. *)
Theorem c68_poison_refuted : forall mismatched z,
  let cs := [Column "stamp" Microseconds true; Column "power" Float32 true] in
  let rs := [[Entry false (Word64 0); number z]] in
  forall r, In r [Client_write [] [] "wind" (Batch cs rs); Insert [] "wind" [Some rs]] ->
  exists ts' t', perform mismatched r [("wind", time_series cs)] = (ts', Panic)
    /\ lookup "wind" ts' = Some t' /\ start t' = Panic.
Proof. exact poisoned. Qed.
Print Assumptions c68_poison_refuted.

(** A time series table with a generated column, and what is written to it: with INSERT in two
    batches, with a client in three messages, and with a client that copies. *)
Definition columns_here := [Column "stamp" Microseconds false; Column "power" Float32 false; Column "park" View false].
Definition table_here := Table true
  [(Column "stamp" Microseconds false, false); (Column "double" Float32 false, true);
   (Column "power" Float32 false, false); (Column "park" View false, false)] [] [].
Definition full (z : Z) : row := [time z; number 7; number z; Entry true (Str "a")].
Definition short (z : Z) : row := [time z; number z; Entry true (Str "a")].
Definition requests_here :=
  [Insert [] "wind" [Some [full 1; full 2]; Some [full 3]];
   Client_write [1; 2] [] "wind" (Batch columns_here [short 1; short 2; short 3; short 4]);
   Folder_write No_fault "wind" (Batch columns_here [short 1; short 2]);
   Client_copy (Node [[1]; [2]]) [] "wind" columns_here [Some [short 1; short 2]; Some [short 3]];
   Client_copy Folder [] "wind" columns_here [Some [short 1; short 2]; Some [short 3]]].
Example c68_written_case : forall mismatched r, In r requests_here ->
  lower (table_of r) /\ suits r table_here
  /\ (series table_here = true -> all_valid (concat (batches_of r)))
  /\ all_valid (concat (batches_of r)) /\ readable r /\ unhindered r table_here
  /\ snd (perform mismatched r [("wind", table_here)]) = Ok tt.
Proof.
  intros mismatched r I. cbn [In requests_here] in I.
  assert (P : forall r, unhindered r table_here -> lower (table_of r) -> suits r table_here ->
              all_valid (concat (batches_of r)) -> readable r ->
              lookup (table_of r) [("wind", table_here)] = Some table_here ->
    lower (table_of r) /\ suits r table_here
    /\ (series table_here = true -> all_valid (concat (batches_of r)))
    /\ all_valid (concat (batches_of r)) /\ readable r /\ unhindered r table_here
    /\ snd (perform mismatched r [("wind", table_here)]) = Ok tt).
  { intros q U L S V R K. split; [exact L|]. split; [exact S|]. split; [now intros _|].
    split; [exact V|]. split; [exact R|]. split; [exact U|].
    exact (accepted mismatched q [("wind", table_here)] table_here K L S V R U). }
  destruct I as [<-|[<-|[<-|[<-|[<-|[]]]]]]; apply P; try reflexivity;
    try (repeat constructor; fail);
    try (intros X; cbn in X; intuition discriminate; fail).
  - split; [reflexivity|]. split; [discriminate|]. repeat constructor; discriminate.
  - split; [constructor|]. discriminate.
  - split; [constructor|]. intros _. split; repeat constructor; discriminate.
Qed.
(** An INSERT leaves out the generated column. *)
Example c68_insert_case : forall mismatched,
  fst (perform mismatched (Insert [] "wind" [Some [full 1; full 2]; Some [full 3]]) [("wind", table_here)])
  = [("wind", Table true (query_columns table_here) [short 1; short 2; short 3] [])].
Proof. reflexivity. Qed.
(** Some rows are stored when the disk is full for the second message. *)
Example c68_part_case : forall mismatched,
  perform mismatched (Client_write [1; 2] [No_fault; Not_written] "wind"
    (Batch columns_here [short 1; short 2; short 3; short 4])) [("wind", table_here)]
  = ([("wind", Table true (query_columns table_here) [short 1] [])], Err).
Proof. reflexivity. Qed.
(** A data folder refuses a batch with a column of another type. *)
Example c68_atomic_case : forall mismatched,
  perform mismatched (Folder_write No_fault "wind"
    (Batch [Column "stamp" Seconds false; Column "power" Float32 false; Column "park" View false]
       [short 1])) [("wind", table_here)]
  = ([("wind", table_here)], Err).
Proof. reflexivity. Qed.
(** It refuses one with a column that may have nulls for a column that may not, but not the other way
    around. *)
Example c68_checked_case : forall mismatched,
  let nulls := [Column "power" Float32 true] in
  let none := [Column "speed" Float32 false] in
  let rs := [[number 1]; [number 2]] in
  perform mismatched (Folder_write No_fault "wind" (Batch nulls rs)) [("wind", plain none)]
  = ([("wind", plain none)], Err)
  /\ snd (perform mismatched (Folder_write No_fault "wind" (Batch none rs)) [("wind", plain nulls)]) = Ok tt
  /\ Forall (row_fits none) rs.
Proof. repeat split; repeat constructor; discriminate. Qed.
(** Integers of 32 bits are as wide as the numbers of the table. *)
Example c68_unchecked_case :
  map (fun c => layout_of (type c))
    [Column "id" Int64 true; Column "count" Int32 true; Column "text" View true]
  = map (fun c => layout_of (type c)) (schema_of table_here).
Proof. reflexivity. Qed.
