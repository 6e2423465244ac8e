(** Splitting batches into time series: /repo/crates/modelardb_compression/src/compression.rs
    l.40-179.

    Simplified: a record batch is the list of its rows instead of its columns. The sorting of
    arrow, [lexsort_to_indices], is a parameter: all that is assumed about it is in
    Spec/MultivariateSpec.v. Tags are not null, as required by the schema of time series tables. *)
From Coq Require Import ZArith List Bool.
From Verif Require Import Model.Base Model.Float Model.ErrorBound Model.Segments.
Import ListNotations.
Open Scope Z_scope.

(** The UTF-8 bytes of a string. *)
Definition text : Type := list Z.
Definition text_eqb (a b : text) : bool := if list_eq_dec Z.eq_dec a b then true else false.

(** A value in a column of type [StringView], [Timestamp] or [Float32]. *)
Inductive cell : Type :=
| Tag (s : text)
| Time (t : Z)
| Value (v : f32).

Definition row : Type := list cell.

(** The parts of [TimeSeriesTableMetadata] that are used, modelardb_types/src/types.rs l.72-98.
    There is an error bound for each column. *)
Record table : Type := Table {
  tag_column_indices : list nat;
  timestamp_column_index : nat;
  field_column_indices : list nat;
  error_bounds : list error_bound }.

(** The macro [array!], modelardb_types/src/lib.rs, panics if the column has another type. *)
Definition tag_value (r : row) (c : nat) : outcome text :=
  match nth_error r c with Some (Tag s) => Ok s | _ => Panic end.
Definition time_value (r : row) (c : nat) : outcome Z :=
  match nth_error r c with Some (Time t) => Ok t | _ => Panic end.
Definition field_value (r : row) (c : nat) : outcome f32 :=
  match nth_error r c with Some (Value v) => Ok v | _ => Panic end.

Fixpoint map_outcome {A B : Type} (f : A -> outcome B) (l : list A) : outcome (list B) :=
  match l with
  | [] => Ok []
  | a :: l => let? b := f a in let? bs := map_outcome f l in Ok (b :: bs)
  end.

(** [sort_time_series_by_tags_and_time], l.111-143. The columns to sort by are the tags and then
    the timestamp. *)
Definition sort_key (t : table) (r : row) : list cell :=
  map (fun c => nth c r (Time 0)) (tag_column_indices t ++ [timestamp_column_index t]).
Definition sort_rows (lexsort : list (list cell) -> list nat) (t : table) (rows : list row) : list row :=
  map (fun i => nth i rows []) (lexsort (map (sort_key t) rows)).

(** The batch of segments for one field of one time series. *)
Record compressed : Type := Compressed {
  co_tags : list text;
  co_field : nat;
  co_segments : list segment }.

(** [try_split_and_compress_univariate_time_series], l.149-179. *)
Definition split_and_compress (P : platform) (t : table) (rows : list row) (tags : list text)
  : outcome (list compressed) :=
  let? timestamps := map_outcome (fun r => time_value r (timestamp_column_index t)) rows in
  map_outcome (fun c =>
    let? values := map_outcome (fun r => field_value r c) rows in
    let? eb := match nth_error (error_bounds t) c with Some eb => Ok eb | None => Panic end in
    match compress_univariate P eb timestamps values with
    | Ok segments => Ok (Compressed tags c segments)
    | _ => Panic
    end) (field_column_indices t).

(** [RecordBatch::slice]. *)
Definition slice (rows : list row) (offset length : nat) : list row :=
  firstn length (skipn offset rows).

(** The loop in [try_compress_multivariate_time_series], l.69-95, and the code after it, l.97-106.
    [rest] are the rows of [sorted] from [row_index]. *)
Fixpoint split_loop (P : platform) (t : table) (sorted rest : list row)
  (row_index row_index_start : nat) (tags : list text) : outcome (list compressed) :=
  match rest with
  | [] => split_and_compress P t (slice sorted row_index_start (length sorted - row_index_start)) tags
  | r :: rest =>
      let? row_tags := map_outcome (tag_value r) (tag_column_indices t) in
      let is_new_time_series :=
        existsb (fun p => negb (text_eqb (fst p) (snd p))) (combine tags row_tags) in
      if is_new_time_series then
        let? compressed := split_and_compress P t
          (slice sorted row_index_start (row_index - row_index_start)) tags in
        let? others := split_loop P t sorted rest (S row_index) row_index row_tags in
        Ok (compressed ++ others)
      else split_loop P t sorted rest (S row_index) row_index_start tags
  end.

(** [try_compress_multivariate_time_series], l.42-107. Reading the tags of the first row panics if
    there are tags and no rows, l.64. *)
Definition compress_multivariate (P : platform) (lexsort : list (list cell) -> list nat) (t : table)
  (rows : list row) : outcome (list compressed) :=
  let sorted := sort_rows lexsort t rows in
  let? tags := match sorted with
               | [] => if Nat.eqb (length (tag_column_indices t)) 0 then Ok [] else Panic
               | r :: _ => map_outcome (tag_value r) (tag_column_indices t)
               end in
  split_loop P t sorted sorted 0 0 tags.
