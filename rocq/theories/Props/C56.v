(** C56: Deleted data never returns. *)
From Coq Require Import ZArith List Bool String Permutation.
From Verif Require Import Model.Base Model.LogModes Spec.LogModesSpec Proofs.LogModesProofs.
Import ListNotations.
Open Scope string_scope.
Open Scope list_scope.

(** If tables are only truncated and dropped while the log is enabled, a table never has a batch
    that was not inserted since it was last emptied, and none is there twice, although the log was
    enabled for some starts of the server and disabled for others. *)
Theorem c56_nothing_returns_partial : forall batch x (es : list (event batch)) w,
  run new_world es w -> emptied_with_log false es ->
  exists lost, Permutation (live x es) (visible x w ++ lost).
Proof. exact nothing_returns. Qed.
Print Assumptions c56_nothing_returns_partial.

(** Then a server with the log enabled has all batches that were logged, also if a server without a
    log ran after they were inserted. *)
Theorem c56_logged_kept_partial : forall batch x (es : list (event batch)) w,
  run new_world es w -> emptied_with_log false es -> server w = Some true ->
  exists rest, Permutation (visible x w) (logged x es ++ rest).
Proof. exact logged_kept. Qed.
Print Assumptions c56_logged_kept_partial.

(** If the log is always enabled, a running server has exactly the batches that were inserted since
    a table was last emptied. *)
Theorem c56_exact_partial : forall batch x (es : list (event batch)) w,
  run new_world es w -> Forall log_enabled es -> server w = Some true ->
  Permutation (live x es) (visible x w).
Proof. exact always_exact. Qed.
Print Assumptions c56_exact_partial.

(** Any batch that is not saved before a crash returns to a table that was truncated by a server
    without a log. *)
Theorem c56_truncated_refuted : forall batch (b : batch),
  let es := [Started true; Created "wind"; Inserted "wind" b; Stopped; Started false; Truncated "wind";
             Stopped; Started true] in
  exists w, run new_world es w /\ live "wind" es = [] /\ visible "wind" w = [b].
Proof. exact truncated_returns. Qed.
Print Assumptions c56_truncated_refuted.

(** Any batch, also if it is saved and the server is stopped as it should, returns to a new table if
    the table was dropped and created by a server without a log. *)
Theorem c56_dropped_refuted : forall batch (b : batch),
  let es := [Started true; Created "wind"; Inserted "wind" b; Saved 1 "wind"; Stopped; Started false;
             Dropped "wind"; Created "wind"; Stopped; Started true] in
  exists w, run new_world es w /\ live "wind" es = [] /\ visible "wind" w = [b].
Proof. exact dropped_returns. Qed.
Print Assumptions c56_dropped_refuted.

(** A server with a log, a server without it, and a server with it again. *)
Definition example : list (event nat) :=
  [Started true; Created "wind"; Inserted "wind" 0%nat; Truncated "wind"; Inserted "wind" 1%nat;
   Saved 1 "wind"; Inserted "wind" 2%nat; Stopped; Started false; Inserted "wind" 3%nat;
   Saved 1 "wind"; Inserted "wind" 4%nat; Stopped; Started true; Cleaned "wind" 1;
   Inserted "wind" 5%nat].
Example c56_example : exists w, run new_world example w /\ emptied_with_log false example
  /\ server w = Some true /\ live "wind" example = [1; 2; 3; 4; 5]%nat
  /\ logged "wind" example = [1; 2; 5]%nat /\ visible "wind" w = [1; 3; 2; 5]%nat.
Proof.
  apply run_given. vm_compute. repeat split.
Qed.

Definition always : list (event nat) :=
  [Started true; Created "wind"; Inserted "wind" 0%nat; Dropped "wind"; Created "wind";
   Inserted "wind" 1%nat; Stopped; Started true; Saved 1 "wind"; Inserted "wind" 2%nat; Stopped;
   Started true].
Example c56_always : exists w, run new_world always w /\ Forall log_enabled always
  /\ server w = Some true /\ visible "wind" w = [1; 2]%nat.
Proof.
  apply run_given. vm_compute. split; [repeat constructor|]. split; reflexivity.
Qed.
