(** C50: the bulk loader imports and exports all rows. *)
From Coq Require Import ZArith String List.
From Verif Require Import Model.Base Model.Float Model.Segments Model.Multivariate Model.Bulkloader
  Spec.MultivariateSpec Spec.BulkloaderSpec Proofs.MacaqueVLossyProofs Proofs.MultivariateExample
  Proofs.BulkloaderProofs Proofs.BulkloaderExample.
Import ListNotations.
Open Scope Z_scope.

(** For any folder, normal table, number of batches and failures of writes and of the commit: an
    import adds the rows of all batches to the table and changes no other table, or it fails and
    changes nothing. *)
Theorem c50_normal_tables : forall P lexsort env f name cast input cs old,
  lookup name f = Some (Normal cs old) ->
  match import P lexsort env (create_data_folder f) name cast input with
  | (Ok _, f') => exists batches, st_batches input = map Some batches
      /\ lookup name f' = Some (Normal cs (old ++ concat batches))
      /\ forall other, other <> name -> lookup other f' = lookup other f
  | (_, f') => f' = f
  end.
Proof. exact import_normal. Qed.
Print Assumptions c50_normal_tables.

(** It does not fail if nothing it calls fails and no cast is requested. *)
Theorem c50_normal_tables_complete : forall P lexsort env f name cs old input batches,
  lookup name f = Some (Normal cs old) -> st_batches input = map Some batches ->
  Forall (fun b => b = true) (writes env) -> commits env = true ->
  fst (import P lexsort env (create_data_folder f) name false input) = Ok tt.
Proof. exact import_normal_completes. Qed.
Print Assumptions c50_normal_tables_complete.

Example c50_normal_example :
  let cs := [("id", Other); ("time", Nanoseconds)]%string in
  let r n := [Entry true Unknown; Entry false (Instant n)] in
  import exact_platform insertion_sort environment_example
    (create_data_folder [("a", Normal [] []); ("b", Normal cs [r 1])]%string) "b" false
    (Stream cs [Some [r 2; r 3]; Some []; Some [r 4]])
  = (Ok tt, [("a", Normal [] []); ("b", Normal cs [r 1; r 2; r 3; r 4])]%string).
Proof. vm_compute. reflexivity. Qed.

(** A failed import changes no table, whatever fails. *)
Theorem c50_failure_changes_nothing : forall P lexsort env f name cast input,
  fst (import P lexsort env f name cast input) <> Ok tt ->
  snd (import P lexsort env f name cast input) = tables f.
Proof. exact failure_changes_nothing. Qed.
Print Assumptions c50_failure_changes_nothing.

(** Nothing can be imported into a time series table: the bulk loader does not register the tables
    of the folder, so it treats every table as a normal table, and the writer rejects rows that are
    not segments. *)
Theorem c50_time_series_tables_refuted : forall P lexsort env f name cast input t segments rows,
  lookup name f = Some (Series t segments rows) ->
  st_batches input <> [] -> ~ In field_column (map fst (st_columns input)) ->
  import P lexsort env (create_data_folder f) name cast input = (Err, f).
Proof. exact import_series_fails. Qed.
Print Assumptions c50_time_series_tables_refuted.

Example c50_time_series_tables_refuted_example :
  lookup "t" [("t", Series example_table [] [])]%string = Some (Series example_table [] [])
  /\ st_batches raw_stream <> [] /\ ~ In field_column (map fst (st_columns raw_stream)).
Proof.
  split; [reflexivity|]. split; [discriminate|].
  intros [H|[H|[H|[H|[]]]]]; discriminate H.
Qed.

(** No table can be exported: the query finds only registered tables. For a normal table, an empty
    table is left in the output folder. *)
Theorem c50_export_refuted : forall query env f name,
  fst (export query env (create_data_folder f) name) = Err
  /\ (snd (export query env (create_data_folder f) name) = None
      \/ snd (export query env (create_data_folder f) name) = Some []).
Proof. exact export_fails. Qed.
Print Assumptions c50_export_refuted.

Example c50_export_refuted_example :
  let cs := [("id", Other)]%string in
  export (fun s => match s with Normal _ rows => Ok rows | _ => Err end) environment_example
    (create_data_folder [("a", Normal cs [[Entry true Unknown]])]%string) "a" = (Err, Some []).
Proof. reflexivity. Qed.

(** What remains true of the function that imports into a time series table, which [import] would
    call if the tables were registered: for any number and size of batches and whenever they are
    compressed, all rows are compressed, split by their tags, each exactly once, and with
    timestamps in microseconds. *)
Theorem c50_all_rows_partial : forall P lexsort env t cast s result, sorts lexsort ->
  Forall (good_batch t (st_columns s)) (st_batches s) ->
  import_time_series_table P lexsort env t cast s = Ok result ->
  exists batches, st_batches s = map Some batches
    /\ imported P t cast (st_columns s) batches result.
Proof. exact import_sound. Qed.
Print Assumptions c50_all_rows_partial.

(** It returns a result if the columns have types that can be imported, nothing is null, no two
    rows have the same tags and timestamp, and nothing it calls fails. *)
Theorem c50_completes_partial : forall P lexsort env t cast cs batches, sorts lexsort -> bounded t ->
  right_types cast t cs ->
  Forall (fun rows => rows <> []) batches -> ready cs (concat batches) ->
  (forall rows, Forall2 (row_converts cast t cs) (concat batches) rows -> distinct_rows t rows) ->
  Z.of_nat (length (concat batches)) < 2 ^ 63 ->
  Forall (fun b => b = true) (writes env) -> commits env = true ->
  exists result, import_time_series_table P lexsort env t cast (Stream cs (map Some batches)) = Ok result.
Proof. exact import_completes. Qed.
Print Assumptions c50_completes_partial.

(** Three batches with half precision, milliseconds and doubles; the memory is full after two. *)
Example c50_example : sorts insertion_sort
  /\ Forall (good_batch example_table raw_columns) (st_batches raw_stream)
  /\ right_types true example_table raw_columns /\ bounded example_table
  /\ ready raw_columns (concat raw_batches).
Proof. split; [exact insertion_sort_sorts|]. exact raw_hypotheses. Qed.

Example c50_example_result :
  points (import_time_series_table exact_platform insertion_sort environment_example example_table true
            raw_stream)
  = let b z := to_bits (f32_of_Z z) in
    Ok [([[65]], 0%nat, 10000, b 3); ([[65]], 3%nat, 10000, b 4);
        ([[66]], 0%nat, 20000, b 5); ([[66]], 0%nat, 30000, b 1);
        ([[66]], 3%nat, 20000, b 6); ([[66]], 3%nat, 30000, b 2);
        ([[65]], 0%nat, 20000, b 7); ([[65]], 3%nat, 20000, b 8)].
Proof. exact raw_result. Qed.

(** If the table is registered, an import adds its segments to the table and changes nothing else, or
    it fails and changes nothing. *)
Theorem c50_registered_partial : forall P lexsort env f name cast input t t' segments rows,
  lookup name (registered f) = Some (Some t) -> lookup name (tables f) = Some (Series t' segments rows) ->
  match import P lexsort env f name cast input with
  | (Ok _, f') => exists written, import_time_series_table P lexsort env t cast input = Ok written
      /\ lookup name f' = Some (Series t (segments ++ written) rows)
      /\ forall other, other <> name -> lookup other f' = lookup other (tables f)
  | (_, f') => f' = tables f
  end.
Proof. exact import_registered. Qed.
Print Assumptions c50_registered_partial.

Example c50_registered_example :
  let f := OpenFolder [("n", Normal [] []); ("t", Series example_table [] [])]%string
                      [("t", Some example_table)]%string in
  lookup "t"%string (registered f) = Some (Some example_table)
  /\ lookup "t"%string (tables f) = Some (Series example_table [] [])
  /\ fst (import exact_platform insertion_sort environment_example f "t" true raw_stream) = Ok tt.
Proof. split; [reflexivity|]. split; [reflexivity|]. vm_compute. reflexivity. Qed.

(** A null in a column that is cast is rejected. *)
Theorem c50_cast_null_rejected : forall P lexsort env t cast s result,
  import_time_series_table P lexsort env t cast s = Ok result ->
  forall rows r c name ty e, In (Some rows) (st_batches s) -> In r rows ->
  nth_error (st_columns s) c = Some (name, ty) ->
  ty = Seconds \/ ty = Milliseconds \/ ty = Half \/ ty = Double /\ cast = true ->
  nth_error r c = Some e -> valid e = true.
Proof. exact import_valid. Qed.
Print Assumptions c50_cast_null_rejected.

(** A null in another field column is not rejected: what happens to be in the buffer is stored. *)
Theorem c50_null_refuted : exists env t s null,
  st_batches s = [Some [[Entry true (Number (f32_of_Z 7)); Entry true (Str [65]); Entry true (Instant 10);
                         null]]]
  /\ valid null = false /\ In 3%nat (field_column_indices t)
  /\ points (import_time_series_table exact_platform insertion_sort env t false s)
     = Ok [([[65]], 0%nat, 10, to_bits (f32_of_Z 7)); ([[65]], 3%nat, 10, to_bits (f32_of_Z 0))].
Proof.
  exists environment_example, example_table, null_stream, (Entry false (Number (f32_of_Z 0))).
  split; [reflexivity|]. split; [reflexivity|]. split; [right; now left|]. exact null_stored.
Qed.
Print Assumptions c50_null_refuted.

(** The names of columns are not compared with those of the table: the result is the same for all
    names, so values of columns in another order are stored in the wrong columns. *)
Theorem c50_names_refuted : forall P lexsort env t cast cs cs' batches, map snd cs = map snd cs' ->
  import_time_series_table P lexsort env t cast (Stream cs batches)
  = import_time_series_table P lexsort env t cast (Stream cs' batches).
Proof. exact names_ignored. Qed.
Print Assumptions c50_names_refuted.

Example c50_names_refuted_example : map snd named_columns = map snd exchanged_columns
  /\ points (import_time_series_table exact_platform insertion_sort environment_example example_table false
               (Stream exchanged_columns [Some [named_row]]))
     = Ok [([[65]], 0%nat, 10, to_bits (f32_of_Z 7)); ([[65]], 3%nat, 10, to_bits (f32_of_Z 20))].
Proof. split; [reflexivity|]. exact exchanged_stored. Qed.

(** Files that are partitioned by a tag cannot be imported: the column is read with a type that
    the compression does not expect. *)
Theorem c50_partitioned_refuted : forall P lexsort env t cast s c name, In c (tag_column_indices t) ->
  nth_error (st_columns s) c = Some (name, Utf8) -> st_batches s <> [] ->
  forall result, import_time_series_table P lexsort env t cast s <> Ok result.
Proof. exact partitioned_fails. Qed.
Print Assumptions c50_partitioned_refuted.

Example c50_partitioned_refuted_example :
  In 1%nat (tag_column_indices example_table)
  /\ nth_error (st_columns partitioned_stream) 1 = Some ("station"%string, Utf8)
  /\ st_batches partitioned_stream <> []
  /\ import_time_series_table exact_platform insertion_sort environment_example example_table false
       partitioned_stream = Panic.
Proof. split; [now left|]. split; [reflexivity|]. split; [discriminate|]. exact partitioned_panics. Qed.
