(** C55: The configuration of a server is what was last accepted. *)
From Coq Require Import ZArith List Bool.
From Verif Require Import Model.Base Model.Configuration Spec.ConfigurationSpec
  Proofs.ConfigurationProofs.
Import ListNotations.

(** A running server uses, for each parameter, the latest value that was given as a flag or accepted
    as an update since the data folder was created, also if it was stopped or killed in between. *)
Theorem c55_latest_partial : forall bytes to_toml from_toml events s history c p,
  faithful to_toml from_toml -> Forall works events ->
  run bytes to_toml from_toml (new_folder bytes) events = (s, history) ->
  running bytes s = Some c -> get p c = latest p history.
Proof.
  intros bytes to_toml from_toml events s history c p F W H R.
  exact (latest_used bytes to_toml from_toml F events s history c W H R p).
Qed.
Print Assumptions c55_latest_partial.

(** An update that is accepted in any state is used at once, and is used after the server is started
    again with any flags, whatever fails in between. *)
Theorem c55_durable_partial :
  forall bytes to_toml from_toml s x value engine put s1 events s2 history a read put' others s3,
  faithful_if_written to_toml from_toml ->
  step bytes to_toml from_toml s (Updated x value engine put) = (s1, Ok tt) ->
  run bytes to_toml from_toml s1 events = (s2, history) -> Forall changes_nothing history ->
  step bytes to_toml from_toml s2 (Started a read put' others) = (s3, Ok tt) ->
  exists c1 c3, running bytes s1 = Some c1 /\ running bytes s3 = Some c3
    /\ get (Setting x) c1 = value
    /\ forall p, get p c3 = match given p a with Some v => Some v | None => get p c1 end.
Proof.
  intros bytes to_toml from_toml s x value engine put s1 events s2 history a read put' others s3 F.
  exact (accepted_durable bytes to_toml from_toml F s x value engine put s1 events s2 history a read
           put' others s3).
Qed.
Print Assumptions c55_durable_partial.

(** An update that is refused changes nothing if files can be written. *)
Theorem c55_refused_partial : forall bytes to_toml from_toml toml_of s x value engine s',
  (forall c, to_toml c = Ok (toml_of c)) ->
  step bytes to_toml from_toml s (Updated x value engine true) = (s', Err) -> s' = s.
Proof.
  intros bytes to_toml from_toml toml_of s x value engine s' T.
  exact (refused_nothing bytes to_toml from_toml s x value engine s' toml_of T).
Qed.
Print Assumptions c55_refused_partial.

(** A server never runs with several threads for a component, whatever the file contains. *)
Theorem c55_one_thread : forall bytes to_toml from_toml f events s history c,
  run bytes to_toml from_toml (State f None) events = (s, history) ->
  running bytes s = Some c ->
  ingestion_threads c = 1 /\ compression_threads c = 1 /\ writer_threads c = 1.
Proof.
  intros bytes to_toml from_toml f events s history c H.
  refine (threads_run bytes to_toml from_toml events _ s history _ H c). discriminate.
Qed.
Print Assumptions c55_one_thread.

(** An update that is reported as failed is used, and is saved with the next update of another
    parameter. *)
Theorem c55_failed_update_refuted :
  let '(s, history) := run configuration as_written as_written (new_folder configuration)
    [Started no_flags true true true; Updated Segment_size (Some 1) true false;
     Updated Compressed_memory (Some 1000) true true; Stopped; Started no_flags true true true] in
  map snd history = [Ok tt; Err; Ok tt; Ok tt; Ok tt]
  /\ exists c, running configuration s = Some c /\ get (Setting Segment_size) c = Some 1
       /\ latest (Setting Segment_size) history <> Some 1.
Proof. split; [reflexivity|]. eexists. split; [reflexivity|]. split; [reflexivity|discriminate]. Qed.
Print Assumptions c55_failed_update_refuted.

(** The flags of a server that could not be started are used by the next server. *)
Theorem c55_failed_start_refuted :
  let '(s, history) := run configuration as_written as_written (new_folder configuration)
    [Started (Args None None None None None None (Some false)) true true false;
     Started no_flags true true true] in
  map snd history = [Err; Ok tt]
  /\ exists c, running configuration s = Some c /\ get Wal c = Some 0 /\ latest Wal history <> Some 0.
Proof. split; [reflexivity|]. eexists. split; [reflexivity|]. split; [reflexivity|discriminate]. Qed.
Print Assumptions c55_failed_start_refuted.

(** The description of the flag says that data is not transferred based on size if the flag is not
    set, but no server is started without a size. *)
Theorem c55_no_batch_size_refuted : forall bytes to_toml from_toml events s history c,
  faithful_if_written to_toml from_toml ->
  Forall (fun e => match e with Started _ _ _ _ | Stopped => True | _ => False end) events ->
  run bytes to_toml from_toml (new_folder bytes) events = (s, history) ->
  running bytes s = Some c -> transfer_batch_size c <> None.
Proof. exact batch_size_set. Qed.
Print Assumptions c55_no_batch_size_refuted.

(** A server that is configured with flags and updates, stopped, and started again. *)
Example c55_example :
  let events := [Started (Args None None (Some 2000) None (Some 60) None None) true true true;
    Updated Transfer_batch_size None true true; Updated Uncompressed_memory None true true;
    Updated Transfer_time (Some 30) false true; Updated Segment_size (Some 5) true true; Stopped;
    Started (Args None None None None (Some 90) None (Some false)) true true true;
    Updated Segment_size (Some 7) true true] in
  faithful as_written as_written /\ Forall works events
  /\ let '(s, history) := run configuration as_written as_written (new_folder configuration) events in
     map snd history = [Ok tt; Ok tt; Err; Err; Ok tt; Ok tt; Ok tt; Err]
     /\ running configuration s
        = Some (Configuration (512 * 1024 * 1024) (512 * 1024 * 1024) 2000 None (Some 90) 5 1 1 1
                  false).
Proof.
  split; [exact as_written_faithful|]. split; [repeat constructor|]. split; reflexivity.
Qed.

(** An update that is accepted, followed by one that cannot be saved, a crash, and a start that
    fails. *)
Example c55_durable_example :
  faithful_if_written as_written as_written
  /\ let s := State None (Some default) in
     let '(s1, r) := step configuration as_written as_written s
                       (Updated Transfer_time (Some 30) true true) in
     let '(s2, history) := run configuration as_written as_written s1
                             [Updated Segment_size (Some 5) true false; Stopped;
                              Started no_flags true false true] in
     let '(s3, r') := step configuration as_written as_written s2
                        (Started (Args (Some 9) None None None None None None) true true true) in
     r = Ok tt /\ r' = Ok tt /\ Forall changes_nothing history
     /\ running configuration s3
        = Some (Configuration 9 (512 * 1024 * 1024) (512 * 1024 * 1024) (Some (64 * 1024 * 1024))
                  (Some 30) (64 * 1024 * 1024) 1 1 1 true).
Proof.
  split; [exact as_written_if|]. split; [reflexivity|]. split; [reflexivity|]. split; [|reflexivity].
  repeat constructor.
Qed.
