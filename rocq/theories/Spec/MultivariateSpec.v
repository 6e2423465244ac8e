(** What it means to split a batch into time series. *)
From Coq Require Import ZArith List Sorting.Sorted Sorting.Permutation.
From Verif Require Import Model.Base Model.Float Model.ErrorBound Model.Segments Model.Multivariate.
Import ListNotations.
Open Scope Z_scope.

(** Lexicographic order. *)
Inductive lexicographic {A : Type} (less : A -> A -> Prop) : list A -> list A -> Prop :=
| lex_nil : forall b l, lexicographic less [] (b :: l)
| lex_head : forall a b k l, less a b -> lexicographic less (a :: k) (b :: l)
| lex_tail : forall a k l, lexicographic less k l -> lexicographic less (a :: k) (a :: l).

(** Strings are ordered by their bytes. *)
Definition cell_less (a b : cell) : Prop :=
  match a, b with
  | Tag s, Tag s' => lexicographic Z.lt s s'
  | Time t, Time t' => t < t'
  | _, _ => False
  end.

Definition key_le (k l : list cell) : Prop := k = l \/ lexicographic cell_less k l.

(** Keys from the same columns. *)
Definition same_type (a b : cell) : Prop :=
  match a, b with Tag _, Tag _ | Time _, Time _ => True | _, _ => False end.
Definition comparable (keys : list (list cell)) : Prop :=
  forall k l, In k keys -> In l keys -> Forall2 same_type k l.

(** What is assumed about [lexsort_to_indices]: the indices of the keys in ascending order. Nothing
    is assumed about the order of equal keys. *)
Definition sorts (lexsort : list (list cell) -> list nat) : Prop :=
  forall keys, comparable keys ->
    Permutation (lexsort keys) (seq 0 (length keys))
    /\ StronglySorted key_le (map (fun i => nth i keys []) (lexsort keys)).

(** The columns of a row, which has exactly the columns of the table. *)
Definition tags_are (t : table) (r : row) (tags : list text) : Prop :=
  map (nth_error r) (tag_column_indices t) = map (fun s => Some (Tag s)) tags.
Definition time_is (t : table) (r : row) (time : Z) : Prop :=
  nth_error r (timestamp_column_index t) = Some (Time time).
Definition value_is (r : row) (c : nat) (v : f32) : Prop := nth_error r c = Some (Value v).

Definition row_of (t : table) (r : row) : Prop :=
  (exists tags, tags_are t r tags) /\ (exists time, time_is t r time)
  /\ forall c, In c (field_column_indices t) -> exists v, value_is r c v.

(** All field columns have an error bound. *)
Definition bounded (t : table) : Prop :=
  forall c, In c (field_column_indices t) -> (c < length (error_bounds t))%nat.

(** Compressed data for a field of the time series with the rows of the batch that have [tags],
    and with no other rows, in the order of time. *)
Definition compresses (P : platform) (t : table) (batch : list row) (tags : list text) (field : nat)
  (c : compressed) : Prop :=
  co_tags c = tags /\ co_field c = field
  /\ exists others rows times values eb,
       Permutation (rows ++ others) batch
       /\ Forall (fun r => tags_are t r tags) rows
       /\ Forall (fun r => ~ tags_are t r tags) others
       /\ Forall2 (time_is t) rows times /\ StronglySorted Z.le times
       /\ Forall2 (fun r v => value_is r field v) rows values
       /\ nth_error (error_bounds t) field = Some eb
       /\ compress_univariate P eb times values = Ok (co_segments c).

(** One result for each combination of tags in the batch and each field. *)
Definition splits (P : platform) (t : table) (batch : list row) (result : list compressed) : Prop :=
  exists combinations, NoDup combinations
    /\ (forall tags, In tags combinations <-> exists r, In r batch /\ tags_are t r tags)
    /\ Forall2 (fun p c => compresses P t batch (fst p) (snd p) c)
         (list_prod combinations (field_column_indices t)) result.

(** No two rows have the same tags and the same timestamp, and timestamps are i64. *)
Definition distinct_rows (t : table) (batch : list row) : Prop :=
  ForallOrdPairs (fun r r' => ~ exists tags time,
    tags_are t r tags /\ tags_are t r' tags /\ time_is t r time /\ time_is t r' time) batch.
