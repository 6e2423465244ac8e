(** C26: spilling to disk is transparent. *)
From Coq Require Import ZArith List Bool String Permutation.
From Verif Require Import Model.Pipeline Spec.PipelineSpec Proofs.PipelineInvariant Proofs.PipelineCrash
  Proofs.PipelineResults Proofs.PipelineSeries Proofs.PipelineExamples Proofs.PipelineMore.
Import ListNotations.
Open Scope Z_scope.

(** A buffer that is spilled and read again any number of times while data points are added to it has the same
    data points, tag values and batch ids as if it had stayed in memory. If its timestamps are distinct, what is
    compressed is the same list, from memory and from disk. Missing for the full statement: the files of other
    buffers, see [c26_files_partial] and [c26_refuted]. *)
Theorem c26_buffer_partial : forall sort uses b, sorts_points sort ->
  let b1 := with_spills sort uses b in
  let b2 := without_spills uses b in
  m_hash b1 = m_hash b2 /\ m_meta b1 = m_meta b2 /\ m_tags b1 = m_tags b2 /\ m_ids b1 = m_ids b2
  /\ Permutation (m_points b1) (m_points b2)
  /\ (NoDup (map p_time (m_points b2)) ->
      sort (m_points b1) = sort (m_points b2) /\ f_points (spilled_file sort b1) = sort (m_points b2)).
Proof. intros sort uses b Hsort. exact (spilling_transparent sort Hsort uses b). Qed.
Print Assumptions c26_buffer_partial.

(** In any run, also with crashes, the file of every spilled buffer exists and is not shared with another
    buffer. *)
Theorem c26_files_partial : forall hash capacity sort logging events limits s,
  sorts_points sort ->
  run hash capacity sort logging events (start logging limits [] []) = Next s ->
  along hash capacity sort logging (fun e s => undisturbed e s /\ spills_written e)
    events (start logging limits [] []) ->
  collision_free hash (received s) -> distinct_times (received s) ->
  NoDup (map d_path (map snd (s_disk s) ++ on_disk (s_uncompressed s)))
  /\ forall d, In d (map snd (s_disk s) ++ on_disk (s_uncompressed s)) ->
       exists f, get path_eqb (d_path d) (s_files s) = Some f /\ f_points f <> []
         /\ tag_hash hash (t_name (d_meta d)) (f_tags f) = d_hash d.
Proof.
  intros hash capacity sort logging events limits s Hsort.
  exact (spilled_files hash capacity sort logging Hsort events limits s).
Qed.
Print Assumptions c26_files_partial.

(** False for two buffers of one series that start at the same time: they have the same file. *)
Theorem c26_refuted : exists events limits s x,
  run toy_hash code_capacity toy_sort true events (start true limits [] []) = Next s /\ ~ In Crash events
  /\ along toy_hash code_capacity toy_sort true usual events (start true limits [] [])
  /\ collision_free toy_hash (received s) /\ healthy s
  /\ In x (received s) /\ ~ In x (saved s ++ live s).
Proof.
  exists twice_before, twice_limits. destruct replaced_witness as [s H]. exists s, replaced_item. exact H.
Qed.
Print Assumptions c26_refuted.

Example c26_buffer_example :
  let b := {| m_hash := 7; m_meta := table1; m_updated := 0; m_points := []; m_tags := ["a"%string]; m_ids := [] |} in
  let uses := [Added 0 (row_of "a" 3 30) (Some 0); Spilled 1; Added 1 (row_of "a" 1 10) (Some 1); Spilled 2;
               Added 2 (row_of "a" 2 20) (Some 1); Added 2 (row_of "a" 0 5) (Some 2)] in
  sorts_points toy_sort
  /\ NoDup (map p_time (m_points (without_spills uses b)))
  /\ map p_time (m_points (with_spills toy_sort uses b)) = [1; 3; 2; 0]
  /\ map p_time (m_points (without_spills uses b)) = [3; 1; 2; 0].
Proof. exact spills_example. Qed.

(** A run with spilled buffers. *)
Example c26_files_example : exists s,
  run toy_hash 2 toy_sort true (firstn 13 busy_run) (start true busy_limits [] []) = Next s
  /\ along toy_hash 2 toy_sort true usual (firstn 13 busy_run) (start true busy_limits [] [])
  /\ collision_free toy_hash (received s) /\ distinct_times (received s)
  /\ List.length (s_disk s) = 1%nat /\ List.length (s_memory s) = 2%nat.
Proof. exact files_example. Qed.
