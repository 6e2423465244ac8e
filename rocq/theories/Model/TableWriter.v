(** Writing record batches to a Delta table
    (crates/modelardb_storage/src/data_folder/delta_table_writer.rs).

    The deltalake and object_store crates are an oracle: a value of type [choices] says what each
    of their calls does.  Simplified: a record batch is the list of its rows; rows are integers;
    [DeltaWriter] keeps one buffer from which it writes a prefix as a file whenever it likes (the
    crate keeps one per partition); files have fresh names (the crate uses UUIDs). *)
From Coq Require Import ZArith List Bool.
From Verif.Model Require Import Base.
Import ListNotations.
Open Scope Z_scope.

(** The object store: the data files by name, and the entries of the Delta log, each with the
    files it adds and the batch ids in its metadata. *)
Record world := World {
  w_files : list (Z * list Z);
  w_log : list (list Z * list Z);
  w_next : Z   (** the name of the next file *)
}.

(** How writing a commit to the log ends.  [Reported_failed]: the entry is in the log, but an
    error is returned, e.g., because the response is lost or a hook that runs after the commit
    fails. *)
Inductive commit_result := Committed | Not_committed | Reported_failed.

Record choices := Choices {
  c_writes : list (nat * bool);   (** per [write()]: rows written as a file, success *)
  c_chunks : list nat;            (** rows of the files [close()] writes before the last one *)
  c_close_ok : bool;              (** does [close()] write the last file and return the files? *)
  c_snapshot_ok : bool;
  c_commit : commit_result;
  c_load_ok : bool;
  c_deletes : list bool           (** success of the deletions of files *)
}.

(** [DeltaWriter]: the rows in its buffer and the files it has written. *)
Record writer := Writer { d_buffer : list Z; d_added : list Z }.

(** [DeltaWriter] writes the first [n] rows of its buffer as a file. *)
Definition flush_file (n : nat) (d : writer) (w : world) : writer * world :=
  match firstn n (d_buffer d) with
  | [] => (d, w)
  | rows => (Writer (skipn n (d_buffer d)) (d_added d ++ [w_next w]),
             World (w_files w ++ [(w_next w, rows)]) (w_log w) (w_next w + 1))
  end.

(** [DeltaTableWriter::write] (l.145-152): on failure the rows of the batch are not buffered. *)
Definition write (c : nat * bool) (rows : list Z) (d : writer) (w : world)
  : bool * writer * world :=
  let d := if snd c then Writer (d_buffer d ++ rows) (d_added d) else d in
  let '(d, w) := flush_file (fst c) d w in
  (snd c, d, w).

(** [DeltaTableWriter::write_all] (l.154-163): stops at the first error. *)
Fixpoint write_all (cs : list (nat * bool)) (batches : list (list Z)) (d : writer) (w : world)
  : bool * writer * world :=
  match batches with
  | [] => (true, d, w)
  | rows :: batches =>
      let '(ok, d, w) := write (hd (0%nat, true) cs) rows d w in
      if ok then write_all (tl cs) batches d w else (false, d, w)
  end.

Fixpoint flush_files (ns : list nat) (d : writer) (w : world) : writer * world :=
  match ns with
  | [] => (d, w)
  | n :: ns => let '(d, w) := flush_file n d w in flush_files ns d w
  end.

(** [DeltaWriter::close]: write what is buffered and return the files, or fail. *)
Definition close (c : choices) (d : writer) (w : world) : option (list Z) * world :=
  let '(d, w) := flush_files (c_chunks c) d w in
  if c_close_ok c
  then let '(d, w) := flush_file (length (d_buffer d)) d w in (Some (d_added d), w)
  else (None, w).

(** [delete_added_files] (l.250-259): stops at the first error. *)
Fixpoint delete_files (oks : list bool) (names : list Z) (w : world) : bool * world :=
  match names with
  | [] => (true, w)
  | name :: names =>
      if hd true oks
      then delete_files (tl oks) names
             (World (filter (fun f => negb (fst f =? name)) (w_files w)) (w_log w) (w_next w))
      else (false, w)
  end.

(** The outcome for the caller: [Ok] or [Err]. *)
Definition reply := bool.

(** [DeltaTableWriter::commit] (l.187-233). *)
Definition commit (c : choices) (batch_ids : list Z) (d : writer) (w : world) : reply * world :=
  match close c d w with
  | (None, w) => (false, w)
  | (Some added, w) =>
      if c_snapshot_ok c
      then match c_commit c with
           | Committed =>
               (c_load_ok c, World (w_files w) (w_log w ++ [(added, batch_ids)]) (w_next w))
           | Not_committed => let '(_, w) := delete_files (c_deletes c) added w in (false, w)
           | Reported_failed =>
               let '(_, w) := delete_files (c_deletes c) added
                  (World (w_files w) (w_log w ++ [(added, batch_ids)]) (w_next w)) in (false, w)
           end
      else let '(_, w) := delete_files (c_deletes c) added w in (false, w)
  end.

(** [DeltaTableWriter::rollback] (l.239-244), for its effect: its caller returns an error in any
    case. *)
Definition rollback (c : choices) (d : writer) (w : world) : world :=
  match close c d w with
  | (None, w) => w
  | (Some added, w) => snd (delete_files (c_deletes c) added w)
  end.

(** [DeltaTableWriter::write_all_and_commit] (l.168-180) of a new writer, as called by
    [DataFolder::write_record_batches_with_batch_ids] (data_folder/mod.rs l.718-733) and, with no
    batch ids, by [DataFolder::write_record_batches] (l.699-708). *)
Definition write_all_and_commit (c : choices) (batches : list (list Z)) (batch_ids : list Z)
  (w : world) : reply * world :=
  match write_all (c_writes c) batches (Writer [] []) w with
  | (true, d, w) => commit c batch_ids d w
  | (false, d, w) => (false, rollback c d w)
  end.
