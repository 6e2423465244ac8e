(** C33 - Table writes are all-or-nothing. *)
From Coq Require Import ZArith List Bool.
From Verif.Model Require Import Base TableWriter.
From Verif.Spec Require Import TableWriterSpec.
From Verif.Proofs Require Import TableWriterProofs.
Import ListNotations.
Open Scope Z_scope.

(** Whichever step fails, readers see either none of the batches and no new batch ids, or all of
    the batches with the batch ids in one new version.  The caller is told so, except that an
    error is returned for a commit when loading the table afterwards fails.  Missing: a commit
    that is in the log but reported as failed, see below. *)
Theorem c33_all_or_nothing_partial : forall c batches ids w ok w' rows,
  fresh_names w -> visible w = Some rows -> c_commit c <> Reported_failed ->
  write_all_and_commit c batches ids w = (ok, w') ->
  (visible w' = Some rows /\ visible_ids w' = visible_ids w /\ ok = false)
  \/ (visible w' = Some (rows ++ concat batches) /\ visible_ids w' = visible_ids w ++ [ids]
      /\ ok = c_load_ok c).
Proof. exact all_or_nothing. Qed.
Print Assumptions c33_all_or_nothing_partial.

(** A failed write leaves no data files behind when the writer can be closed and files can be
    deleted. *)
Theorem c33_nothing_left_partial : forall c batches ids w w',
  fresh_names w -> c_commit c <> Reported_failed -> c_load_ok c = true ->
  c_close_ok c = true -> (forall b, In b (c_deletes c) -> b = true) ->
  write_all_and_commit c batches ids w = (false, w') ->
  w_files w' = w_files w /\ w_log w' = w_log w.
Proof. exact nothing_left. Qed.
Print Assumptions c33_nothing_left_partial.

(** A failure of [close()] is returned at once: the files written before it are left behind. *)
Theorem c33_close_refuted :
  exists c batches w',
    c_commit c = Committed /\ c_load_ok c = true /\ (forall b, In b (c_deletes c) -> b = true)
    /\ write_all_and_commit c batches [] (World [] [] 0) = (false, w') /\ w_files w' <> [].
Proof. exact close_leaves_files. Qed.
Print Assumptions c33_close_refuted.

(** A commit is reported as failed when only loading the new version fails: the caller will write
    the batches again. *)
Theorem c33_load_refuted :
  exists c batches w',
    c_close_ok c = true /\ c_commit c = Committed
    /\ write_all_and_commit c batches [7] (World [] [] 0) = (false, w')
    /\ visible w' = Some (concat batches) /\ concat batches <> [].
Proof. exact load_reports_error. Qed.
Print Assumptions c33_load_refuted.

(** If a commit is in the log but reported as failed, the files it refers to are deleted and the
    table cannot be read any more. *)
Theorem c33_reported_refuted :
  exists c batches w rows w',
    fresh_names w /\ visible w = Some rows /\ c_close_ok c = true
    /\ write_all_and_commit c batches [] w = (false, w') /\ visible w' = None.
Proof. exact reported_failed_breaks. Qed.
Print Assumptions c33_reported_refuted.

(** Three batches: written in two files and committed; then with a failing third write. *)
Example c33_example :
  let w := World [(0, [9])] [([0], [])] 1 in
  let good := Choices [(0, true); (3, true)]%nat [] true true Committed true [] in
  let bad := Choices [(0, true); (3, true); (0, false)]%nat [] true true Committed true [true] in
  fresh_names w /\ visible w = Some [9]
  /\ write_all_and_commit good [[1; 2]; [3]; [4]] [5; 6] w
     = (true, World [(0, [9]); (1, [1; 2; 3]); (2, [4])] [([0], []); ([1; 2], [5; 6])] 3)
  /\ write_all_and_commit bad [[1; 2]; [3]; [4]] [5; 6] w
     = (false, World [(0, [9])] [([0], [])] 2).
Proof. exact write_example. Qed.
