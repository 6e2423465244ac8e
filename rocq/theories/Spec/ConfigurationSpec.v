(** What the configuration of a server should be. *)
From Coq Require Import ZArith List Bool.
From Verif Require Import Model.Base Model.Configuration.
Import ListNotations.

(** The parameters of a configuration that users can change. *)
Inductive parameter := Setting (x : setting) | Wal.

Definition get (p : parameter) (c : configuration) : option Z :=
  match p with
  | Setting Multivariate_memory => Some (multivariate_memory c)
  | Setting Uncompressed_memory => Some (uncompressed_memory c)
  | Setting Compressed_memory => Some (compressed_memory c)
  | Setting Transfer_batch_size => transfer_batch_size c
  | Setting Transfer_time => transfer_time c
  | Setting Segment_size => Some (segment_size c)
  | Wal => Some (if wal_enabled c then 1 else 0)
  end.

(** The value that is given as a flag, if any. *)
Definition given (p : parameter) (a : args) : option Z :=
  match p with
  | Setting Multivariate_memory => arg_multivariate_memory a
  | Setting Uncompressed_memory => arg_uncompressed_memory a
  | Setting Compressed_memory => arg_compressed_memory a
  | Setting Transfer_batch_size => arg_transfer_batch_size a
  | Setting Transfer_time => arg_transfer_time a
  | Setting Segment_size => arg_segment_size a
  | Wal => match arg_wal_enabled a with Some e => Some (if e then 1 else 0) | None => None end
  end.

(** The value after an event: flags and updates that are accepted replace it. *)
Definition replaced {bytes} (p : parameter) (old : option Z)
  (er : event bytes * outcome unit) : option Z :=
  match er with
  | (Started a _ _ _, Ok tt) => match given p a with Some value => Some value | None => old end
  | (Updated x value _ _, Ok tt) =>
      match p with
      | Setting y => match x, y with
                     | Multivariate_memory, Multivariate_memory
                     | Uncompressed_memory, Uncompressed_memory
                     | Compressed_memory, Compressed_memory
                     | Transfer_batch_size, Transfer_batch_size
                     | Transfer_time, Transfer_time
                     | Segment_size, Segment_size => value
                     | _, _ => old
                     end
      | Wal => old
      end
  | _ => old
  end.
Definition latest {bytes} (p : parameter) (history : list (event bytes * outcome unit)) : option Z :=
  fold_left (replaced p) history (get p default).

(** The file can be written, all components can be created, and nobody edits the file. *)
Definition works {bytes} (e : event bytes) : Prop :=
  match e with
  | Started _ _ put others => put = true /\ others = true
  | Updated _ _ _ put => put = true
  | Stopped => True
  | Edited _ => False
  end.

(** All configurations can be written and are read as they were written. *)
Definition faithful {bytes} (to_toml : configuration -> outcome bytes)
  (from_toml : bytes -> outcome configuration) : Prop :=
  forall c, exists toml, to_toml c = Ok toml /\ from_toml toml = Ok c.
(** The same if some configurations cannot be written. *)
Definition faithful_if_written {bytes} (to_toml : configuration -> outcome bytes)
  (from_toml : bytes -> outcome configuration) : Prop :=
  forall c toml, to_toml c = Ok toml -> from_toml toml = Ok c.

(** Events that should change nothing but stop the server. *)
Definition changes_nothing {bytes} (er : event bytes * outcome unit) : Prop :=
  match er with
  | (Started _ _ _ others, r) => others = true /\ r = Err
  | (Updated _ _ _ _, r) => r = Err
  | (Stopped, _) => True
  | (Edited _, _) => False
  end.
