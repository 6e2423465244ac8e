(** What writing rows to tables should do. *)
From Coq Require Import ZArith Bool Ascii String List.
From Verif Require Import Model.Base Model.Sql Model.Writes.
Import ListNotations.
Open Scope string_scope.
Open Scope list_scope.

(** What an entry of a column means: nothing, a time in nanoseconds, an integer, a number in one of
    the formats of IEEE 754, or a text. *)
Inductive value :=
| Missing | Instant (nanoseconds : Z) | Integer (z : Z) | Single (bits : Z) | Double (bits : Z)
| Text (s : string) | Nonsense.
Definition signed (width z : Z) : Z := (if z <? 2 ^ (width - 1) then z else z - 2 ^ width)%Z.
Definition meaning (ty : column_type) (e : entry) : value :=
  if valid e then
    match ty, content e with
    | Seconds, Word64 z => Instant (1000000000 * signed 64 z)
    | Milliseconds, Word64 z => Instant (1000000 * signed 64 z)
    | Microseconds, Word64 z => Instant (1000 * signed 64 z)
    | Nanoseconds, Word64 z => Instant (signed 64 z)
    | Int32, Word32 z => Integer (signed 32 z)
    | Int64, Word64 z => Integer (signed 64 z)
    | Float32, Word32 z => Single z
    | Float64, Word64 z => Double z
    | View, Str s => Text s
    | _, _ => Nonsense
    end
  else Missing.

(** The rows with the name and the meaning of each entry. *)
Fixpoint described (cs : list column) (r : row) : list (string * value) :=
  match cs, r with
  | c :: cs, e :: r => (name c, meaning (type c) e) :: described cs r
  | _, _ => []
  end.
Definition contents (cs : list column) (rs : list row) : list (list (string * value)) :=
  map (described cs) rs.
Definition table_contents (t : table) := contents (schema_of t) (stored t).

(** The table that is written to, the columns of what is written, and its batches until the first
    error. *)
Definition table_of (r : request) : string :=
  match r with
  | Folder_write _ x _ | Client_write _ _ x _ | Insert _ x _ | Folder_copy _ x _ _
  | Client_copy _ _ x _ _ => x
  end.
Fixpoint until_error (data : result) : list (list row) :=
  match data with Some rs :: data => rs :: until_error data | _ => [] end.
Definition batches_of (r : request) : list (list row) :=
  match r with
  | Folder_write _ _ b | Client_write _ _ _ b => [rows b]
  | Insert _ _ data | Folder_copy _ _ _ data | Client_copy _ _ _ _ data => until_error data
  end.
(** Reading what is to be written gives no error. *)
Definition readable (r : request) : Prop :=
  match r with
  | Insert _ _ data | Folder_copy _ _ _ data | Client_copy _ _ _ _ data => ~ In None data
  | _ => True
  end.
(** An INSERT has all columns of the table. *)
Definition columns_of (r : request) (t : table) : list column :=
  match r with
  | Folder_write _ _ b | Client_write _ _ _ b => columns b
  | Insert _ _ _ => map fst (query_columns t)
  | Folder_copy _ _ cs _ | Client_copy _ _ _ cs _ => cs
  end.

(** Columns have the same names and types. *)
Definition same_columns (a b : list column) : Prop :=
  map name a = map name b /\ map type a = map type b.
(** What is written is for the table. *)
Definition suits (r : request) (t : table) : Prop :=
  match r with
  | Insert _ _ _ => True
  | _ => same_columns (columns_of r t) (schema_of t)
  end.
(** Nothing is missing in rows. *)
Definition all_valid (rs : list row) : Prop := Forall (Forall (fun e => valid e = true)) rs.

(** The name is in lower case, as it is for tables that are created with SQL. *)
Definition lower (x : string) : Prop := map_string to_lower x = x.

(** A row without the columns that are generated. *)
Definition without_generated (t : table) (described : list (string * value))
    : list (string * value) :=
  map snd (filter (fun p => negb (snd (fst p))) (combine (query_columns t) described)).
(** What the table should have got after [batches]. *)
Definition wanted (r : request) (t : table) (rs : list row) : list (list (string * value)) :=
  match r with
  | Insert _ _ _ => map (without_generated t) (contents (columns_of r t) rs)
  | _ => contents (columns_of r t) rs
  end.

(** Only rows of the table differ. *)
Definition only_rows (x : string) (ts ts' : tables) : Prop :=
  map fst ts' = map fst ts
  /\ (forall y, y <> x -> lookup y ts' = lookup y ts)
  /\ forall t, lookup x ts = Some t -> exists t', lookup x ts' = Some t'
       /\ series t' = series t /\ query_columns t' = query_columns t.

(** What one request should do to the table: its rows are added, all of them or none. *)
Definition added (r : request) (rs : list row) (ts ts' : tables) : Prop :=
  forall t t', lookup (table_of r) ts = Some t -> lookup (table_of r) ts' = Some t' ->
  table_contents t' = table_contents t ++ wanted r t rs.

(** Columns have the types of those of the table, and nulls only if those may have nulls. *)
Definition fit (a b : list column) : Prop :=
  Forall2 (fun c d => type c = type d /\ (nullable c = true -> nullable d = true)) a b.
(** A row has an entry for each column, and a null only if the column may have nulls. *)
Definition row_fits (cs : list column) (r : row) : Prop :=
  Forall2 (fun c e => valid e = false -> nullable c = true) cs r.
(** Rows are written to a data folder that is used by the program itself, and there are some. *)
Definition to_folder (r : request) : Prop :=
  match r with
  | Folder_write _ _ _ | Folder_copy _ _ _ _ => True
  | Client_copy to _ _ _ _ => to = Folder /\ concat (batches_of r) <> []
  | _ => False
  end.

(** Nothing goes wrong when a request is executed, and what is written is as these ways to write
    need it. *)
Definition unhindered (r : request) (t : table) : Prop :=
  match r with
  | Folder_write f _ b => f = No_fault /\ rows b <> [] /\ fit (columns b) (schema_of t)
  | Client_write _ faults _ _ | Insert faults _ _ => Forall (eq No_fault) faults
  | Folder_copy f _ cs _ => f = No_fault /\ series t = false /\ cs = schema_of t
  | Client_copy to faults _ cs data =>
      Forall (Forall (eq No_fault)) faults
      /\ (to = Folder -> fit cs (schema_of t) /\ Forall (fun rs => rs <> []) (until_error data))
  end.

(** Tables and rows for examples. *)
Definition plain (cs : list column) : table := Table false (map (fun c => (c, false)) cs) [] [].
Definition time_series (cs : list column) : table := Table true (map (fun c => (c, false)) cs) [] [].
Definition number (z : Z) : entry := Entry true (Word32 z).
Definition time (z : Z) : entry := Entry true (Word64 z).
