(** The configuration of a server, crates/modelardb_server/src/configuration.rs, and how it is read
    and updated by clients, [do_action] in remote.rs. *)
From Coq Require Import ZArith List Bool.
From Verif Require Import Model.Base.
Import ListNotations.

(** [Configuration], l.53-79. *)
Record configuration := Configuration {
  multivariate_memory : Z;
  uncompressed_memory : Z;
  compressed_memory : Z;
  transfer_batch_size : option Z;
  transfer_time : option Z;
  segment_size : Z;
  ingestion_threads : Z;
  compression_threads : Z;
  writer_threads : Z;
  wal_enabled : bool
}.

(** [Configuration::default], l.150-165. *)
Definition default : configuration :=
  Configuration (512 * 1024 * 1024) (512 * 1024 * 1024) (512 * 1024 * 1024)
    (Some (64 * 1024 * 1024)) None (64 * 1024 * 1024) 1 1 1 true.

(** The parts of [ServerArgs], main.rs l.64-94, with the flags and the environment variables. *)
Record args := Args {
  arg_multivariate_memory : option Z;
  arg_uncompressed_memory : option Z;
  arg_compressed_memory : option Z;
  arg_transfer_batch_size : option Z;
  arg_transfer_time : option Z;
  arg_segment_size : option Z;
  arg_wal_enabled : option bool
}.

(** [Configuration::update_from_args], l.84-112. *)
Definition or_keep {A} (given : option A) (old : A) : A :=
  match given with Some value => value | None => old end.
Definition or_keep_option {A} (given : option A) (old : option A) : option A :=
  match given with Some value => Some value | None => old end.
Definition update_from_args (a : args) (c : configuration) : configuration :=
  Configuration
    (or_keep (arg_multivariate_memory a) (multivariate_memory c))
    (or_keep (arg_uncompressed_memory a) (uncompressed_memory c))
    (or_keep (arg_compressed_memory a) (compressed_memory c))
    (or_keep_option (arg_transfer_batch_size a) (transfer_batch_size c))
    (or_keep_option (arg_transfer_time a) (transfer_time c))
    (or_keep (arg_segment_size a) (segment_size c))
    (ingestion_threads c) (compression_threads c) (writer_threads c)
    (or_keep (arg_wal_enabled a) (wal_enabled c)).

(** [Configuration::validate], l.116-130. *)
Definition validate (c : configuration) : outcome unit :=
  if negb (ingestion_threads c =? 1) || negb (compression_threads c =? 1)
     || negb (writer_threads c =? 1)
  then Err else Ok tt.

(** [Setting], protocol.proto l.88-95. *)
Inductive setting :=
| Multivariate_memory
| Uncompressed_memory
| Compressed_memory
| Transfer_batch_size
| Transfer_time
| Segment_size.

Section Server.
(** [toml::to_string] and [toml::from_slice]. *)
Variable bytes : Type.
Variable to_toml : configuration -> outcome bytes.
Variable from_toml : bytes -> outcome configuration.

(** The configuration file, and the configuration of the server if it is running. *)
Record state := State {
  file : option bytes;
  running : option configuration
}.

(** [Configuration::save_to_toml], l.134-147. [put] is if the object store could write the file.
    Simplified: a file is written as a whole or not at all. *)
Definition save_to_toml (put : bool) (c : configuration) (f : option bytes)
  : option bytes * outcome unit :=
  match to_toml c with
  | Ok toml => if put then (Some toml, Ok tt) else (f, Err)
  | _ => (f, Err)
  end.

(** [ConfigurationManager::try_new], l.187-241, and the rest of [main] until the server is started,
    main.rs l.136-165. [read] is if the file could be read if it exists, and [others] is if the
    write-ahead log and all other components could be created. *)
Definition try_new (a : args) (read put others : bool) (s : state) : state * outcome unit :=
  if read then
    let loaded := match file s with Some toml => from_toml toml | None => Ok default end in
    match (let? c := loaded in
           let c := update_from_args a c in
           let? _ := validate c in Ok c) with
    | Ok c =>
        match save_to_toml put c (file s) with
        | (f, Ok tt) => if others then (State f (Some c), Ok tt) else (State f None, Err)
        | (f, _) => (State f None, Err)
        end
    | _ => (State (file s) None, Err)
    end
  else (State (file s) None, Err).

(** The new configuration of the setters, l.255-425. *)
Definition set (x : setting) (value : option Z) (c : configuration) : configuration :=
  let '(Configuration m u d b t s i p w e) := c in
  match x with
  | Multivariate_memory => Configuration (or_keep value m) u d b t s i p w e
  | Uncompressed_memory => Configuration m (or_keep value u) d b t s i p w e
  | Compressed_memory => Configuration m u (or_keep value d) b t s i p w e
  | Transfer_batch_size => Configuration m u d value t s i p w e
  | Transfer_time => Configuration m u d b value s i p w e
  | Segment_size => Configuration m u d b t (or_keep value s) i p w e
  end.

Definition is_optional (x : setting) : bool :=
  match x with Transfer_batch_size | Transfer_time => true | _ => false end.

(** [UpdateConfiguration] in [do_action], remote.rs l.910-974, with the setters of
    [ConfigurationManager], l.255-425. [engine] is if the storage engine could be updated. The
    storage engine cannot refuse a change of the memory for multivariate data. *)
Definition update (x : setting) (value : option Z) (engine put : bool) (s : state)
  : state * outcome unit :=
  match running s with
  | None => (s, Err)
  | Some c =>
      if (match value with None => negb (is_optional x) | Some _ => false end) then (s, Err)
      else if (match x with
               | Multivariate_memory => false
               | Segment_size => negb (wal_enabled c)
               | _ => negb engine
               end) then (s, Err)
      else
        let c := set x value c in
        let '(f, result) := save_to_toml put c (file s) in
        (State f (Some c), result)
  end.

(** What happens to a server. A user can replace or delete the file. *)
Inductive event :=
| Started (a : args) (read put others : bool)
| Updated (x : setting) (value : option Z) (engine put : bool)
| Stopped
| Edited (f : option bytes).

Definition step (s : state) (e : event) : state * outcome unit :=
  match e with
  | Started a read put others =>
      match running s with Some _ => (s, Err) | None => try_new a read put others s end
  | Updated x value engine put => update x value engine put s
  | Stopped => (State (file s) None, Ok tt)
  | Edited f => (State f (running s), Ok tt)
  end.

(** All events with what the server answered. *)
Fixpoint run (s : state) (es : list event) : state * list (event * outcome unit) :=
  match es with
  | [] => (s, [])
  | e :: es => let '(s, r) := step s e in
               let '(s, rs) := run s es in (s, (e, r) :: rs)
  end.

(** No configuration file and no server. *)
Definition new_folder : state := State None None.
End Server.
Arguments State {bytes}.
Arguments Edited {bytes}.
Arguments Started {bytes}.
Arguments Updated {bytes}.
Arguments Stopped {bytes}.
