(** C19: recovery is repeatable. *)
From Coq Require Import ZArith List.
From Verif Require Import Model.Base Model.Wal Spec.WalSpec Proofs.WalHistories Proofs.WalWitnesses.
Import ListNotations.
Open Scope Z_scope.

(** After any history, recovering at once and after any number of attempts that crash at any point
    while or after the log is opened returns the same batches. Missing for the full statement:
    [sound_run] requires that the files show the next id when the log is opened. *)
Theorem c19_repeatable_partial : forall B (memory_size : B -> Z) listing h s again out out' s1 s2,
  lists listing -> sound_run memory_size listing initial 0 h s -> Forall recovering again ->
  sound_run memory_size listing s (count h) (again ++ [Opened; Replayed out]) s1 ->
  sound_run memory_size listing s (count h) [Opened; Replayed out'] s2 -> out = out'.
Proof.
  intros B memory_size listing h s again out out' s1 s2 H.
  exact (recovery_repeatable memory_size listing H h s again out out' s1 s2).
Qed.
Print Assumptions c19_repeatable_partial.

(** Opening succeeds then. *)
Theorem c19_opens : forall B (memory_size : B -> Z) listing h st threshold, lists listing ->
  sound_run memory_size listing initial 0 h (st, None) -> shows_next (st_files st) (count h) ->
  exists ops w files, open_log listing st threshold = (ops, Ok w) /\ apply_ops (st_files st) ops = Some files.
Proof.
  intros B memory_size listing h st threshold H. exact (opening_succeeds memory_size listing H h st threshold).
Qed.
Print Assumptions c19_opens.

(** A crash while recovering can leave no file, so that ids start from 0 again and the batch 11 gets
    an id that was committed before. It is not returned by the next recovery. *)
Theorem c19_crash_refuted : exists s, run one as_is initial
  [Opened; Appended 10 0; Committed [0]; Marked [0]; Crashed None None; CrashedOpening 1; Opened;
   Appended 11 0; Crashed None None; Opened; Replayed []] s.
Proof. exact recovery_crash_run. Qed.
Print Assumptions c19_crash_refuted.

Example c19_example : exists s s1 s2, sound_run one as_is initial 0
    [Opened; Appended 10 0; Appended 11 1; Appended 12 2; Committed [0; 1]; Marked [0; 1];
     Crashed (Some (13, 1%nat, false)) None] s
  /\ sound_run one as_is s 4
       ([CrashedOpening 1; Opened; Crashed None None] ++ [Opened; Replayed [(2, 12); (3, 13)]]) s1
  /\ sound_run one as_is s 4 [Opened; Replayed [(2, 12); (3, 13)]] s2.
Proof. exact recovery_example. Qed.
