(** C12: batches are split into the right time series. *)
From Coq Require Import ZArith List.
From Verif Require Import Model.Base Model.Float Model.ErrorBound Model.Segments Model.Multivariate
  Spec.MultivariateSpec Proofs.MacaqueVLossyProofs Proofs.MultivariateProofs Proofs.MultivariateExample.
Import ListNotations.
Open Scope Z_scope.

(** For any number of rows in any order, any number of tag columns and tags, any order of columns
    and any sort: if a result is returned, it has segments for each combination of tags and each
    field, from exactly the rows with these tags in the order of time. *)
Theorem c12_split : forall P lexsort t batch result, sorts lexsort ->
  Forall (row_of t) batch -> batch <> [] ->
  compress_multivariate P lexsort t batch = Ok result -> splits P t batch result.
Proof. exact multivariate_splits. Qed.
Print Assumptions c12_split.

(** A result is returned if no two rows have the same tags and timestamp. *)
Theorem c12_no_panic : forall P lexsort t batch, sorts lexsort -> Forall (row_of t) batch ->
  batch <> [] -> bounded t -> distinct_rows t batch ->
  Forall (fun r => forall time, time_is t r time -> is_i64 time) batch ->
  Z.of_nat (length batch) < 2 ^ 63 ->
  exists result, compress_multivariate P lexsort t batch = Ok result /\ splits P t batch result.
Proof. exact multivariate_ok. Qed.
Print Assumptions c12_no_panic.

(** A batch without rows makes the server panic if the table has tags. *)
Theorem c12_empty_batch_refuted : forall P lexsort t, sorts lexsort -> tag_column_indices t <> [] ->
  compress_multivariate P lexsort t [] = Panic.
Proof. exact multivariate_empty. Qed.
Print Assumptions c12_empty_batch_refuted.

(** Two interleaved time series in a table with a tag and two fields. *)
Example c12_example : sorts insertion_sort /\ Forall (row_of example_table) example_batch
  /\ example_batch <> [] /\ bounded example_table /\ distinct_rows example_table example_batch
  /\ Forall (fun r => forall time, time_is example_table r time -> is_i64 time) example_batch.
Proof. exact example_hypotheses. Qed.

Example c12_example_result :
  match compress_multivariate exact_platform insertion_sort example_table example_batch with
  | Ok result => map (fun c => (co_tags c, co_field c,
      map (fun s => match grid exact_platform s with
                    | Ok (ts, vs) => combine ts (map to_bits vs) | _ => [] end) (co_segments c))) result
  | _ => []
  end = let b z := to_bits (f32_of_Z z) in
    [([[65]], 0%nat, [[(5, b 9); (10, b 3); (20, b 7)]]); ([[65]], 3%nat, [[(5, b 9); (10, b 4); (20, b 8)]]);
     ([[66]], 0%nat, [[(20, b 5); (30, b 1)]]); ([[66]], 3%nat, [[(20, b 6); (30, b 2)]])].
Proof. vm_compute. reflexivity. Qed.
