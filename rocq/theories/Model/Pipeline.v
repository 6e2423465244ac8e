(** The ingestion pipeline of the storage engine: /repo/crates/modelardb_server/src/storage.

    A client (the server holding the write lock of the storage engine) sends batches of data points
    to the ingestion thread, which collects them in one buffer for each time series. The compression
    thread compresses finished buffers, and the writer thread collects the compressed segments of
    each table and commits them to the table.
    - mod.rs: [StorageEngine].
    - types.rs: [MemoryPool], [Message] and [Channels].
    - uncompressed_data_manager.rs and uncompressed_data_buffer.rs.
    - compressed_data_manager.rs and compressed_data_buffer.rs.
    - ../context.rs: [replay_write_ahead_log].
    - ../configuration.rs: [set_uncompressed_reserved_memory_in_bytes] and its siblings.

    A state holds everything the threads share, a step is something one thread does without any
    other thread noticing its parts, and a run is any interleaving of steps. There is one thread of
    each kind as [Configuration::validate], ../configuration.rs l.116-129, requires. All calls of
    the storage engine that are modelled are made while holding its write lock (../remote.rs
    l.483-520 and l.854-956, ../context.rs l.278 and l.373, ../main.rs), so there is one client
    which does one thing at a time.

    Simplified:
    - Compression is not modelled here but in Compression.v: compressed segments are represented
      by the data points they were made from. Their sizes are chosen by the environment.
    - A table is described by its name and its number of field columns. All rows of a batch have
      that many values and a table is never dropped.
    - The write-ahead log is the list of the batches appended to it: it never loses a batch, never
      assigns an id of a table twice, and opens with the batches whose ids are in no commit.
      Wal.v models the log itself and states when this is the case.
    - A commit to a Delta table is one step. Marking batches as persisted in the log after the
      commit is left out, as it deletes nothing but closed files all of whose batches are in
      commits, see C17.
    - Transfer to the remote data folder is modelled in Transfer.v.
    - The sizes and counters are unbounded integers. *)
From Coq Require Import ZArith List Bool String.
Import ListNotations.
Open Scope Z_scope.

(** [TimeSeriesTableMetadata], /repo/crates/modelardb_types/src/types.rs l.60-108: the name and the
    number of stored field columns. *)
Record metadata := { t_name : string; t_fields : nat }.

(** A row of a record batch to ingest: its tag values, timestamp and field values (as bits). *)
Record row := { r_tags : list string; r_time : Z; r_values : list Z }.

(** [IngestedDataBuffer], uncompressed_data_buffer.rs l.45-52. [b_size] is what
    [get_array_memory_size()] returns for the record batch. *)
Record batch := { b_meta : metadata; b_rows : list row; b_size : Z; b_id : option Z }.

(** A data point in a buffer. [p_source] is the id of the batch the data point was ingested with. It
    is not in the code, it is never read by the functions below, and is here to state where data
    points come from. *)
Record point := { p_time : Z; p_values : list Z; p_source : option Z }.

(** [UncompressedInMemoryDataBuffer], uncompressed_data_buffer.rs l.79-95. The tag hash is the key
    of the buffer in the map it is stored in, and kept here as it becomes part of a file name. *)
Record memory_buffer := {
  m_hash : Z;
  m_meta : metadata;
  m_updated : Z;
  m_points : list point;
  m_tags : list string;
  m_ids : list Z }.

(** A path of a spilled buffer: table name, tag hash and first timestamp,
    [spilled_buffer_file_path()], uncompressed_data_buffer.rs l.295-302 and l.410-416. *)
Definition path : Type := string * Z * Z.

(** An Apache Parquet file with a spilled buffer. *)
Record file := { f_tags : list string; f_points : list point }.

(** [UncompressedOnDiskDataBuffer], uncompressed_data_buffer.rs l.268-283. *)
Record disk_buffer := {
  d_hash : Z;
  d_meta : metadata;
  d_updated : Z;
  d_path : path;
  d_ids : list Z }.

(** [UncompressedDataBuffer], uncompressed_data_buffer.rs l.69-75. *)
Inductive uncompressed_buffer :=
| InMemory (b : memory_buffer)
| OnDisk (b : disk_buffer).

(** [CompressedSegmentBatch], compressed_data_buffer.rs l.29-37: the data points of one buffer in
    place of their segments, and the size of the segments of each field column. *)
Record segments := {
  g_meta : metadata;
  g_tags : list string;
  g_points : list point;
  g_sizes : list Z;
  g_ids : list Z }.

(** [CompressedDataBuffer], compressed_data_buffer.rs l.61-71. *)
Record compressed_buffer := { c_segments : list segments; c_size : Z; c_ids : list Z }.

(** A commit to a table with the batch ids in its metadata, [DeltaTableWriter::commit],
    /repo/crates/modelardb_storage/src/data_folder/delta_table_writer.rs l.185-232. *)
Record commit := { k_table : string; k_segments : list segments; k_ids : list Z }.

(** [MemoryPool], types.rs l.39-56: the remaining memory for ingested (also called multivariate),
    uncompressed and compressed data. Also used for the configured limits. *)
Record pool := { ingested : Z; uncompressed : Z; compressed : Z }.

(** [Message], types.rs l.219-223. *)
Inductive message (A : Type) :=
| Data (a : A)
| Flush
| Stop.
Arguments Data {A} a.
Arguments Flush {A}.
Arguments Stop {A}.

(** What the holder of the write lock of the storage engine is doing. *)
Inductive client :=
| Idle                                   (* the lock is free *)
| Inserting (b : batch)                  (* [b] is in the log and must be sent *)
| Flushing                               (* waits for the result of a flush *)
| Closing                                (* waits for the result of a stop *)
| Closed
| Lowering (change : Z)                  (* l.608 of [adjust_uncompressed_remaining_memory_in_bytes] *)
| Spilling (change : Z) (b : memory_buffer)  (* the same, having taken a buffer to spill *)
| Freeing (change : Z)                   (* l.302 of [adjust_compressed_remaining_memory_in_bytes] *)
| Saving (change : Z) (table : string) (b : compressed_buffer)  (* the same, saving a buffer *)
| Replaying (rest : list batch).         (* [replay_write_ahead_log] has [rest] left *)

(** What the ingestion thread is doing. *)
Inductive ingestion :=
| Receiving
| Points (b : batch) (rest : list row) (waiting : bool)
    (* [insert_data_points] has [rest] left; [waiting] for uncompressed memory *)
| Full (hash : Z) (b : batch) (rest : list row)
    (* a data point filled the buffer of [hash], which must be sent *)
| Stopped
| Failed.

(** What the compression thread is doing. *)
Inductive compressor :=
| Ready
| Busy (memory : Z) (m : metadata) (tags : list string) (points : list point) (ids : list Z)
| Compressor_stopped
| Compressor_failed.

(** What the writer thread does before and after saving a buffer. *)
Inductive task :=
| Reserve (size : Z)  (* the loop in [insert_compressed_segments] *)
| Flush_all           (* the loop in [flush] after a flush message *)
| Stop_all.           (* the loop in [flush] after a stop message *)

Inductive writer :=
| Waiting
| Working (t : task)
| Committing (table : string) (b : compressed_buffer) (t : task)
| Writer_stopped
| Writer_failed.

Record state := {
  s_client : client;
  s_ingestion : ingestion;
  s_compressor : compressor;
  s_writer : writer;
  (* [Channels], types.rs l.226-267. *)
  s_ingested : list (message batch);
  s_uncompressed : list (message uncompressed_buffer);
  s_compressed : list (message segments);
  s_results : nat;
  (* [UncompressedDataManager], uncompressed_data_manager.rs l.46-68, and its files. *)
  s_index : Z;
  s_memory : list (Z * memory_buffer);
  s_disk : list (Z * disk_buffer);
  s_files : list (path * file);
  (* [CompressedDataManager], compressed_data_manager.rs l.38-56. *)
  s_buffers : list (string * compressed_buffer);
  s_queue : list string;
  (* The memory pool and the configuration. *)
  s_pool : pool;
  s_limits : pool;
  (* The write-ahead log and the commits of all tables. If the log is disabled, [s_log] is just the
     history of the batches received. *)
  s_log : list batch;
  s_table : list commit }.

(** Updates of single parts of a state. *)
Definition with_client (x : client) (s : state) : state :=
  {| s_client := x; s_ingestion := s_ingestion s; s_compressor := s_compressor s;
  s_writer := s_writer s; s_ingested := s_ingested s; s_uncompressed := s_uncompressed s;
  s_compressed := s_compressed s; s_results := s_results s; s_index := s_index s;
  s_memory := s_memory s; s_disk := s_disk s; s_files := s_files s; s_buffers := s_buffers s;
  s_queue := s_queue s; s_pool := s_pool s; s_limits := s_limits s; s_log := s_log s;
  s_table := s_table s |}.
Definition with_ingestion (x : ingestion) (s : state) : state :=
  {| s_client := s_client s; s_ingestion := x; s_compressor := s_compressor s;
  s_writer := s_writer s; s_ingested := s_ingested s; s_uncompressed := s_uncompressed s;
  s_compressed := s_compressed s; s_results := s_results s; s_index := s_index s;
  s_memory := s_memory s; s_disk := s_disk s; s_files := s_files s; s_buffers := s_buffers s;
  s_queue := s_queue s; s_pool := s_pool s; s_limits := s_limits s; s_log := s_log s;
  s_table := s_table s |}.
Definition with_compressor (x : compressor) (s : state) : state :=
  {| s_client := s_client s; s_ingestion := s_ingestion s; s_compressor := x;
  s_writer := s_writer s; s_ingested := s_ingested s; s_uncompressed := s_uncompressed s;
  s_compressed := s_compressed s; s_results := s_results s; s_index := s_index s;
  s_memory := s_memory s; s_disk := s_disk s; s_files := s_files s; s_buffers := s_buffers s;
  s_queue := s_queue s; s_pool := s_pool s; s_limits := s_limits s; s_log := s_log s;
  s_table := s_table s |}.
Definition with_writer (x : writer) (s : state) : state :=
  {| s_client := s_client s; s_ingestion := s_ingestion s; s_compressor := s_compressor s;
  s_writer := x; s_ingested := s_ingested s; s_uncompressed := s_uncompressed s;
  s_compressed := s_compressed s; s_results := s_results s; s_index := s_index s;
  s_memory := s_memory s; s_disk := s_disk s; s_files := s_files s; s_buffers := s_buffers s;
  s_queue := s_queue s; s_pool := s_pool s; s_limits := s_limits s; s_log := s_log s;
  s_table := s_table s |}.
Definition with_ingested (x : list (message batch)) (s : state) : state :=
  {| s_client := s_client s; s_ingestion := s_ingestion s; s_compressor := s_compressor s;
  s_writer := s_writer s; s_ingested := x; s_uncompressed := s_uncompressed s;
  s_compressed := s_compressed s; s_results := s_results s; s_index := s_index s;
  s_memory := s_memory s; s_disk := s_disk s; s_files := s_files s; s_buffers := s_buffers s;
  s_queue := s_queue s; s_pool := s_pool s; s_limits := s_limits s; s_log := s_log s;
  s_table := s_table s |}.
Definition with_uncompressed (x : list (message uncompressed_buffer)) (s : state) : state :=
  {| s_client := s_client s; s_ingestion := s_ingestion s; s_compressor := s_compressor s;
  s_writer := s_writer s; s_ingested := s_ingested s; s_uncompressed := x;
  s_compressed := s_compressed s; s_results := s_results s; s_index := s_index s;
  s_memory := s_memory s; s_disk := s_disk s; s_files := s_files s; s_buffers := s_buffers s;
  s_queue := s_queue s; s_pool := s_pool s; s_limits := s_limits s; s_log := s_log s;
  s_table := s_table s |}.
Definition with_compressed (x : list (message segments)) (s : state) : state :=
  {| s_client := s_client s; s_ingestion := s_ingestion s; s_compressor := s_compressor s;
  s_writer := s_writer s; s_ingested := s_ingested s; s_uncompressed := s_uncompressed s;
  s_compressed := x; s_results := s_results s; s_index := s_index s; s_memory := s_memory s;
  s_disk := s_disk s; s_files := s_files s; s_buffers := s_buffers s; s_queue := s_queue s;
  s_pool := s_pool s; s_limits := s_limits s; s_log := s_log s; s_table := s_table s |}.
Definition with_results (x : nat) (s : state) : state :=
  {| s_client := s_client s; s_ingestion := s_ingestion s; s_compressor := s_compressor s;
  s_writer := s_writer s; s_ingested := s_ingested s; s_uncompressed := s_uncompressed s;
  s_compressed := s_compressed s; s_results := x; s_index := s_index s; s_memory := s_memory s;
  s_disk := s_disk s; s_files := s_files s; s_buffers := s_buffers s; s_queue := s_queue s;
  s_pool := s_pool s; s_limits := s_limits s; s_log := s_log s; s_table := s_table s |}.
Definition with_index (x : Z) (s : state) : state :=
  {| s_client := s_client s; s_ingestion := s_ingestion s; s_compressor := s_compressor s;
  s_writer := s_writer s; s_ingested := s_ingested s; s_uncompressed := s_uncompressed s;
  s_compressed := s_compressed s; s_results := s_results s; s_index := x; s_memory := s_memory s;
  s_disk := s_disk s; s_files := s_files s; s_buffers := s_buffers s; s_queue := s_queue s;
  s_pool := s_pool s; s_limits := s_limits s; s_log := s_log s; s_table := s_table s |}.
Definition with_memory (x : list (Z * memory_buffer)) (s : state) : state :=
  {| s_client := s_client s; s_ingestion := s_ingestion s; s_compressor := s_compressor s;
  s_writer := s_writer s; s_ingested := s_ingested s; s_uncompressed := s_uncompressed s;
  s_compressed := s_compressed s; s_results := s_results s; s_index := s_index s; s_memory := x;
  s_disk := s_disk s; s_files := s_files s; s_buffers := s_buffers s; s_queue := s_queue s;
  s_pool := s_pool s; s_limits := s_limits s; s_log := s_log s; s_table := s_table s |}.
Definition with_disk (x : list (Z * disk_buffer)) (s : state) : state :=
  {| s_client := s_client s; s_ingestion := s_ingestion s; s_compressor := s_compressor s;
  s_writer := s_writer s; s_ingested := s_ingested s; s_uncompressed := s_uncompressed s;
  s_compressed := s_compressed s; s_results := s_results s; s_index := s_index s;
  s_memory := s_memory s; s_disk := x; s_files := s_files s; s_buffers := s_buffers s;
  s_queue := s_queue s; s_pool := s_pool s; s_limits := s_limits s; s_log := s_log s;
  s_table := s_table s |}.
Definition with_files (x : list (path * file)) (s : state) : state :=
  {| s_client := s_client s; s_ingestion := s_ingestion s; s_compressor := s_compressor s;
  s_writer := s_writer s; s_ingested := s_ingested s; s_uncompressed := s_uncompressed s;
  s_compressed := s_compressed s; s_results := s_results s; s_index := s_index s;
  s_memory := s_memory s; s_disk := s_disk s; s_files := x; s_buffers := s_buffers s;
  s_queue := s_queue s; s_pool := s_pool s; s_limits := s_limits s; s_log := s_log s;
  s_table := s_table s |}.
Definition with_buffers (x : list (string * compressed_buffer)) (s : state) : state :=
  {| s_client := s_client s; s_ingestion := s_ingestion s; s_compressor := s_compressor s;
  s_writer := s_writer s; s_ingested := s_ingested s; s_uncompressed := s_uncompressed s;
  s_compressed := s_compressed s; s_results := s_results s; s_index := s_index s;
  s_memory := s_memory s; s_disk := s_disk s; s_files := s_files s; s_buffers := x;
  s_queue := s_queue s; s_pool := s_pool s; s_limits := s_limits s; s_log := s_log s;
  s_table := s_table s |}.
Definition with_queue (x : list string) (s : state) : state :=
  {| s_client := s_client s; s_ingestion := s_ingestion s; s_compressor := s_compressor s;
  s_writer := s_writer s; s_ingested := s_ingested s; s_uncompressed := s_uncompressed s;
  s_compressed := s_compressed s; s_results := s_results s; s_index := s_index s;
  s_memory := s_memory s; s_disk := s_disk s; s_files := s_files s; s_buffers := s_buffers s;
  s_queue := x; s_pool := s_pool s; s_limits := s_limits s; s_log := s_log s;
  s_table := s_table s |}.
Definition with_pool (x : pool) (s : state) : state :=
  {| s_client := s_client s; s_ingestion := s_ingestion s; s_compressor := s_compressor s;
  s_writer := s_writer s; s_ingested := s_ingested s; s_uncompressed := s_uncompressed s;
  s_compressed := s_compressed s; s_results := s_results s; s_index := s_index s;
  s_memory := s_memory s; s_disk := s_disk s; s_files := s_files s; s_buffers := s_buffers s;
  s_queue := s_queue s; s_pool := x; s_limits := s_limits s; s_log := s_log s;
  s_table := s_table s |}.
Definition with_limits (x : pool) (s : state) : state :=
  {| s_client := s_client s; s_ingestion := s_ingestion s; s_compressor := s_compressor s;
  s_writer := s_writer s; s_ingested := s_ingested s; s_uncompressed := s_uncompressed s;
  s_compressed := s_compressed s; s_results := s_results s; s_index := s_index s;
  s_memory := s_memory s; s_disk := s_disk s; s_files := s_files s; s_buffers := s_buffers s;
  s_queue := s_queue s; s_pool := s_pool s; s_limits := x; s_log := s_log s;
  s_table := s_table s |}.
Definition with_log (x : list batch) (s : state) : state :=
  {| s_client := s_client s; s_ingestion := s_ingestion s; s_compressor := s_compressor s;
  s_writer := s_writer s; s_ingested := s_ingested s; s_uncompressed := s_uncompressed s;
  s_compressed := s_compressed s; s_results := s_results s; s_index := s_index s;
  s_memory := s_memory s; s_disk := s_disk s; s_files := s_files s; s_buffers := s_buffers s;
  s_queue := s_queue s; s_pool := s_pool s; s_limits := s_limits s; s_log := x;
  s_table := s_table s |}.
Definition with_table (x : list commit) (s : state) : state :=
  {| s_client := s_client s; s_ingestion := s_ingestion s; s_compressor := s_compressor s;
  s_writer := s_writer s; s_ingested := s_ingested s; s_uncompressed := s_uncompressed s;
  s_compressed := s_compressed s; s_results := s_results s; s_index := s_index s;
  s_memory := s_memory s; s_disk := s_disk s; s_files := s_files s; s_buffers := s_buffers s;
  s_queue := s_queue s; s_pool := s_pool s; s_limits := s_limits s; s_log := s_log s;
  s_table := x |}.

Definition add_ingested (n : Z) (p : pool) : pool :=
  {| ingested := ingested p + n; uncompressed := uncompressed p; compressed := compressed p |}.
Definition add_uncompressed (n : Z) (p : pool) : pool :=
  {| ingested := ingested p; uncompressed := uncompressed p + n; compressed := compressed p |}.
Definition add_compressed (n : Z) (p : pool) : pool :=
  {| ingested := ingested p; uncompressed := uncompressed p; compressed := compressed p + n |}.

(** [DashMap]: [get], [insert] and [remove]. The order of the entries is arbitrary, see
    [Reorder_memory] below. *)
Section Maps.
  Context {K A : Type} (eqb : K -> K -> bool).

  Fixpoint get (k : K) (m : list (K * A)) : option A :=
    match m with
    | [] => None
    | (k', a) :: m => if eqb k k' then Some a else get k m
    end.

  Fixpoint put (k : K) (a : A) (m : list (K * A)) : list (K * A) :=
    match m with
    | [] => [(k, a)]
    | (k', a') :: m => if eqb k k' then (k, a) :: m else (k', a') :: put k a m
    end.

  Definition remove (k : K) (m : list (K * A)) : list (K * A) :=
    filter (fun e => negb (eqb k (fst e))) m.
End Maps.

Definition path_eqb (p q : path) : bool :=
  let '(t1, h1, f1) := p in
  let '(t2, h2, f2) := q in
  String.eqb t1 t2 && (h1 =? h2) && (f1 =? f2).

(** [HashSet::insert] and [HashSet::extend]. *)
Definition add_id (i : Z) (ids : list Z) : list Z := if existsb (Z.eqb i) ids then ids else ids ++ [i].
Definition add_ids (l ids : list Z) : list Z := fold_left (fun ids i => add_id i ids) l ids.

(** [insert_batch_id], uncompressed_data_buffer.rs l.162-166. *)
Definition insert_batch_id (i : option Z) (ids : list Z) : list Z :=
  match i with Some i => add_id i ids | None => ids end.

(** The [n]-th entry moved to the front. *)
Definition to_front {A : Type} (n : nat) (l : list A) : list A :=
  match nth_error l n with
  | Some a => a :: firstn n l ++ skipn (S n) l
  | None => l
  end.

(** The result of a step: it cannot be taken (the thread is doing something else or is blocked), it
    panics, which aborts the process as the release profile sets [panic = "abort"]
    (/repo/Cargo.toml), or it leads to another state. *)
Inductive result :=
| Blocked
| Aborted
| Next (s : state).

(** The steps. The comments at [step] say what each of them is. *)
Inductive event :=
| Insert (m : metadata) (rows : list row) (size : Z)
| Send
| Request_flush
| Request_stop
| Return
| Adjust_ingested (change : Z)
| Adjust_uncompressed (change : Z)
| Adjust_compressed (change : Z)
| Adjust
| Replay
| Receive
| Point (spilled : bool)
| Send_full
| Finish
| Compress
| Send_segments (sizes : list Z)
| Write
| Work
| Commit (written : bool)
| Crash
| Reorder_memory (n : nat)
| Reorder_disk (n : nat).

Section Pipeline.
  (** [DefaultHasher] applied to the bytes written to it, [UNCOMPRESSED_DATA_BUFFER_CAPACITY] (65536,
      mod.rs l.58), the sorting of data points by timestamp by arrow's [sort_to_indices] and [take],
      and whether the write-ahead log is enabled ([WalMode]). *)
  Variable hash : string -> Z.
  Variable capacity : nat.
  Variable sort : list point -> list point.
  Variable logging : bool.

  (** [calculate_tag_hash], uncompressed_data_manager.rs l.621-630. *)
  Definition tag_hash (table : string) (tags : list string) : Z :=
    hash (fold_right String.append table tags).

  (** [compute_memory_size], uncompressed_data_buffer.rs l.261-264. *)
  Definition memory_size (m : metadata) : Z :=
    Z.of_nat capacity * 8 + Z.of_nat (t_fields m) * (Z.of_nat capacity * 4).

  (** [insert_data_point], uncompressed_data_buffer.rs l.141-159, followed by [insert_batch_id]. *)
  Definition add_point (index : Z) (r : row) (id : option Z) (b : memory_buffer) : memory_buffer :=
    {| m_hash := m_hash b; m_meta := m_meta b; m_updated := index;
       m_points := m_points b ++ [{| p_time := r_time r; p_values := r_values r; p_source := id |}];
       m_tags := m_tags b; m_ids := insert_batch_id id (m_ids b) |}.

  (** [is_full], uncompressed_data_buffer.rs l.122-124. *)
  Definition is_full (b : memory_buffer) : bool := Nat.eqb (List.length (m_points b)) capacity.

  (** [new], uncompressed_data_buffer.rs l.97-118, called with the id of the batch, l.281-287 of
      uncompressed_data_manager.rs. *)
  Definition new_buffer (h index : Z) (r : row) (m : metadata) (id : option Z) : memory_buffer :=
    {| m_hash := h; m_meta := m; m_updated := index; m_points := []; m_tags := r_tags r;
       m_ids := insert_batch_id id [] |}.

  (** [spill_to_apache_parquet], uncompressed_data_buffer.rs l.228-243, [record_batch], l.175-209, and
      [try_spill], l.289-322: the path and the contents of the file and the on-disk buffer. *)
  Definition spilled_file (b : memory_buffer) : file :=
    {| f_tags := m_tags b; f_points := sort (m_points b) |}.
  Definition spilled_path (b : memory_buffer) : path :=
    (t_name (m_meta b), m_hash b,
     match f_points (spilled_file b) with p :: _ => p_time p | [] => 0 end).
  Definition spilled (b : memory_buffer) : disk_buffer :=
    {| d_hash := m_hash b; d_meta := m_meta b; d_updated := m_updated b; d_path := spilled_path b;
       d_ids := m_ids b |}.

  (** [read_from_apache_parquet], uncompressed_data_buffer.rs l.361-396. *)
  Definition loaded (index : Z) (d : disk_buffer) (f : file) : memory_buffer :=
    {| m_hash := d_hash d; m_meta := d_meta d; m_updated := index; m_points := f_points f;
       m_tags := f_tags f; m_ids := d_ids d |}.

  (** [is_unused], uncompressed_data_buffer.rs l.135-137 and l.353-355. *)
  Definition is_unused (updated index : Z) : bool := updated + 1 <=? index.

  (** [append_compressed_segment_batch], compressed_data_buffer.rs l.86-112: the size of all segments
      and the increase of [size_in_bytes], to which the size of the segments so far is added for
      each field column. *)
  Definition total (sizes : list Z) : Z := fold_right Z.add 0 sizes.
  Fixpoint credited (so_far : Z) (sizes : list Z) : Z :=
    match sizes with
    | [] => 0
    | size :: sizes => (so_far + size) + credited (so_far + size) sizes
    end.
  Definition append_segments (g : segments) (b : compressed_buffer) : compressed_buffer :=
    {| c_segments := c_segments b ++ [g]; c_size := c_size b + credited 0 (g_sizes g);
       c_ids := add_ids (g_ids g) (c_ids b) |}.
  Definition empty_buffer : compressed_buffer := {| c_segments := []; c_size := 0; c_ids := [] |}.

  (** The batch ids in the commits of a table. *)
  Definition committed (table : string) (t : list commit) : list Z :=
    flat_map (fun k => if String.eqb (k_table k) table then k_ids k else []) t.

  (** [adjust_uncompressed_memory], types.rs l.131-138: the threads waiting for memory are woken. *)
  Definition wake (i : ingestion) : ingestion :=
    match i with Points b rest _ => Points b rest false | i => i end.
  Definition release_uncompressed (n : Z) (s : state) : state :=
    with_pool (add_uncompressed n (s_pool s)) (with_ingestion (wake (s_ingestion s)) s).

  (** The end of [spill_in_memory_data_buffer], uncompressed_data_manager.rs l.373-400, for a buffer
      already taken out of the map, if its file is written. Writing replaces any file with the same
      path and inserting in the map replaces any buffer with the same tag hash. *)
  Definition spill (b : memory_buffer) (s : state) : state :=
    release_uncompressed (memory_size (m_meta b))
      (with_disk (put Z.eqb (m_hash b) (spilled b) (s_disk s))
        (with_files (put path_eqb (spilled_path b) (spilled_file b) (s_files s)) s)).

  (** The same if the file cannot be written, l.377-383: the buffer is added to the map again, after
      its builders were emptied by [record_batch]. *)
  Definition spill_failed (b : memory_buffer) (s : state) : state :=
    with_memory (put Z.eqb (m_hash b)
      {| m_hash := m_hash b; m_meta := m_meta b; m_updated := m_updated b; m_points := [];
         m_tags := m_tags b; m_ids := m_ids b |} (s_memory s)) s.

  (** The first lines of [spill_in_memory_data_buffer], l.358-371: the buffer to spill, if any. *)
  Definition take_buffer (s : state) : option (memory_buffer * state) :=
    match s_memory s with
    | [] => None
    | (_, b) :: rest => Some (b, with_memory rest s)
    end.

  (** [reserve_uncompressed_memory_for_in_memory_data_buffer], uncompressed_data_manager.rs l.335-350,
      and [wait_for_uncompressed_memory_until], types.rs l.153-178. [None] if the thread must wait,
      and [false] if spilling failed. [written] says if a file can be written. When a buffer is
      spilled, its memory is returned to the pool but nothing is reserved. *)
  Definition reserve (written : bool) (m : metadata) (s : state) : option (state * bool) :=
    if memory_size m <=? uncompressed (s_pool s) then
      Some (with_pool (add_uncompressed (- memory_size m) (s_pool s)) s, true)
    else
      match s_uncompressed s with
      | [] =>
          match take_buffer s with
          | None => Some (s, false)
          | Some (buffer, s) =>
              if written then Some (spill buffer s, true) else Some (spill_failed buffer s, false)
          end
      | _ => None
      end.

  (** [insert_data_point], uncompressed_data_manager.rs l.197-322, up to the sending of a full buffer,
      for the first row left of the batch. *)
  Definition inserted (h : Z) (full : bool) (buffer : memory_buffer) (b : batch) (rest : list row)
      (s : state) : state :=
    with_ingestion (if full then Full h b rest else Points b rest false)
      (with_memory (put Z.eqb h buffer (s_memory s)) s).
  Definition insert_data_point (written : bool) (b : batch) (r : row) (rest : list row) (s : state)
      : result :=
    let h := tag_hash (t_name (b_meta b)) (r_tags r) in
    match get Z.eqb h (s_memory s) with
    | Some buffer =>
        let buffer := add_point (s_index s) r (b_id b) buffer in
        Next (inserted h (is_full buffer) buffer b rest s)
    | None =>
        match reserve written (b_meta b) s with
        | None => Next (with_ingestion (Points b (r :: rest) true) s)
        | Some (s, false) => Next (with_ingestion Failed s)
        | Some (s, true) =>
            match get Z.eqb h (s_disk s) with
            | Some d =>
                match get path_eqb (d_path d) (s_files s) with
                | None => Next (with_ingestion Failed s)
                | Some f =>
                    let buffer := add_point (s_index s) r (b_id b) (loaded (s_index s) d f) in
                    Next (inserted h (is_full buffer) buffer b rest
                      (with_disk (remove Z.eqb h (s_disk s))
                        (with_files (remove path_eqb (d_path d) (s_files s)) s)))
                end
            | None =>
                (* Whether a new buffer is full is not checked. *)
                let buffer := new_buffer h (s_index s) r (b_meta b) (b_id b) in
                Next (inserted h false (add_point (s_index s) r (b_id b) buffer) b rest s)
            end
        end
    end.

  (** [finish_unused_buffers], l.405-451, and [flush], l.465-501: the chosen buffers are sent to the
      compressor, the ones in memory first. *)
  Definition finish_buffers (memory disk : Z -> bool) (s : state) : state :=
    with_memory (filter (fun e => negb (memory (m_updated (snd e)))) (s_memory s))
      (with_disk (filter (fun e => negb (disk (d_updated (snd e)))) (s_disk s))
        (with_uncompressed
          (s_uncompressed s
            ++ map (fun e => Data (InMemory (snd e)))
                (filter (fun e => memory (m_updated (snd e))) (s_memory s))
            ++ map (fun e => Data (OnDisk (snd e)))
                (filter (fun e => disk (d_updated (snd e))) (s_disk s))) s)).
  Definition finish_all : state -> state := finish_buffers (fun _ => true) (fun _ => true).

  (** The first lines of [save_compressed_data], compressed_data_manager.rs l.243-246, for the name
      popped from the queue, l.198-201 or l.228-229. *)
  Definition pop_buffer (s : state) : option (string * compressed_buffer * state) :=
    match s_queue s with
    | [] => None
    | table :: queue =>
        match get String.eqb table (s_buffers s) with
        | None => None
        | Some b =>
            Some (table, b, with_queue queue (with_buffers (remove String.eqb table (s_buffers s)) s))
        end
    end.

  (** The rest of [save_compressed_data], l.248-291. *)
  Definition save (table : string) (b : compressed_buffer) (s : state) : state :=
    with_pool (add_compressed (c_size b) (s_pool s))
      (with_table
        (s_table s ++ [{| k_table := table; k_segments := c_segments b; k_ids := c_ids b |}]) s).

  (** A new storage engine, mod.rs l.82-201, with the batches [replay_write_ahead_log] inserts,
      ../context.rs l.266-301. Spilled buffers are deleted, uncompressed_data_manager.rs l.78-88.
      Simplified: batches are replayed in the order of the log, the code replays them in that order
      for one table at a time. *)
  Definition replayed (log : list batch) (t : list commit) : list batch :=
    filter (fun b => match b_id b with
                     | Some i => negb (existsb (Z.eqb i) (committed (t_name (b_meta b)) t))
                     | None => false
                     end) log.
  Definition start (limits : pool) (log : list batch) (t : list commit) : state :=
    {| s_client := Replaying (if logging then replayed log t else []);
       s_ingestion := Receiving; s_compressor := Ready; s_writer := Waiting;
       s_ingested := []; s_uncompressed := []; s_compressed := []; s_results := 0;
       s_index := 0; s_memory := []; s_disk := []; s_files := []; s_buffers := []; s_queue := [];
       s_pool := limits; s_limits := limits; s_log := log; s_table := t |}.

  (** The next id of a table in the log. *)
  Definition next_id (table : string) (log : list batch) : Z :=
    Z.of_nat (List.length (filter (fun b => String.eqb (t_name (b_meta b)) table) log)).

  Definition is_finished (s : state) : bool :=
    match s_ingestion s with Stopped | Failed => true | _ => false end
    && match s_compressor s with Compressor_stopped | Compressor_failed => true | _ => false end
    && match s_writer s with Writer_stopped | Writer_failed => true | _ => false end.

  Definition step (e : event) (s : state) : result :=
    match e with
    (* [insert_data_points], mod.rs l.246-268: the batch is appended to the log. *)
    | Insert m rows size =>
        match s_client s with
        | Idle =>
            let b := {| b_meta := m; b_rows := rows; b_size := size;
                        b_id := if logging then Some (next_id (t_name m) (s_log s)) else None |} in
            if 0 <=? size then Next (with_client (Inserting b) (with_log (s_log s ++ [b]) s))
            else Blocked
        | _ => Blocked
        end
    (* [insert_data_points_with_batch_id], mod.rs l.274-291, and [wait_for_ingested_memory],
       types.rs l.112-128. *)
    | Send =>
        match s_client s with
        | Inserting b =>
            if b_size b <=? ingested (s_pool s) then
              Next (with_client Idle
                (with_ingested (s_ingested s ++ [Data b])
                  (with_pool (add_ingested (- b_size b) (s_pool s)) s)))
            else Blocked
        | _ => Blocked
        end
    (* The same for a batch that is replayed, or the end of [replay_write_ahead_log]. *)
    | Replay =>
        match s_client s with
        | Replaying [] => Next (with_client Idle s)
        | Replaying (b :: rest) =>
            if b_size b <=? ingested (s_pool s) then
              Next (with_client (Replaying rest)
                (with_ingested (s_ingested s ++ [Data b])
                  (with_pool (add_ingested (- b_size b) (s_pool s)) s)))
            else Blocked
        | _ => Blocked
        end
    (* [flush], mod.rs l.296-301, and [close], l.318-331, up to and after waiting for the result. *)
    | Request_flush =>
        match s_client s with
        | Idle => Next (with_client Flushing (with_ingested (s_ingested s ++ [Flush]) s))
        | _ => Blocked
        end
    | Request_stop =>
        match s_client s with
        | Idle => Next (with_client Closing (with_ingested (s_ingested s ++ [Stop]) s))
        | _ => Blocked
        end
    | Return =>
        match s_client s, s_results s with
        | Flushing, S n => Next (with_client Idle (with_results n s))
        | Closing, S n => if is_finished s then Next (with_client Closed (with_results n s)) else Blocked
        | _, _ => Blocked
        end
    (* [set_multivariate_reserved_memory_in_bytes], ../configuration.rs l.255-279. *)
    | Adjust_ingested change =>
        match s_client s with
        | Idle =>
            if 0 <=? ingested (s_limits s) + change then
              Next (with_pool (add_ingested change (s_pool s))
                (with_limits (add_ingested change (s_limits s)) s))
            else Blocked
        | _ => Blocked
        end
    (* [set_uncompressed_reserved_memory_in_bytes], ../configuration.rs l.289-314, and
       [adjust_uncompressed_remaining_memory_in_bytes], uncompressed_data_manager.rs l.602-616. *)
    | Adjust_uncompressed change =>
        match s_client s with
        | Idle =>
            if 0 <=? uncompressed (s_limits s) + change then
              Next (with_client (Lowering change) (release_uncompressed change s))
            else Blocked
        | _ => Blocked
        end
    (* [set_compressed_reserved_memory_in_bytes], ../configuration.rs l.323-347, and
       [adjust_compressed_remaining_memory_in_bytes], compressed_data_manager.rs l.297-306. *)
    | Adjust_compressed change =>
        match s_client s with
        | Idle =>
            if 0 <=? compressed (s_limits s) + change then
              Next (with_client (Freeing change) (with_pool (add_compressed change (s_pool s)) s))
            else Blocked
        | _ => Blocked
        end
    (* One iteration, or half of one, of the loops of the last two. *)
    | Adjust =>
        match s_client s with
        | Lowering change =>
            if uncompressed (s_pool s) <? 0 then
              match take_buffer s with
              | Some (b, s) => Next (with_client (Spilling change b) s)
              | None => Next (with_client Idle (release_uncompressed (- change) s))
              end
            else Next (with_client Idle (with_limits (add_uncompressed change (s_limits s)) s))
        | Spilling change b => Next (with_client (Lowering change) (spill b s))
        | Freeing change =>
            if compressed (s_pool s) <? 0 then
              match pop_buffer s with
              | Some (table, b, s) => Next (with_client (Saving change table b) s)
              | None => Aborted
              end
            else Next (with_client Idle (with_limits (add_compressed change (s_limits s)) s))
        | Saving change table b => Next (with_client (Freeing change) (save table b s))
        | _ => Blocked
        end
    (* [process_uncompressed_messages], uncompressed_data_manager.rs l.102-126. *)
    | Receive =>
        match s_ingestion s, s_ingested s with
        | Receiving, Data b :: rest =>
            Next (with_ingestion (Points b (b_rows b) false) (with_ingested rest s))
        | Receiving, Flush :: rest =>
            let s := finish_all (with_ingested rest s) in
            Next (with_uncompressed (s_uncompressed s ++ [Flush]) s)
        | Receiving, Stop :: rest =>
            let s := finish_all (with_ingested rest s) in
            Next (with_ingestion Stopped (with_uncompressed (s_uncompressed s ++ [Stop]) s))
        | _, _ => Blocked
        end
    (* The loop of [insert_data_points], l.150-173. *)
    | Point written =>
        match s_ingestion s with
        | Points b (r :: rest) false => insert_data_point written b r rest s
        | _ => Blocked
        end
    (* The end of [insert_data_point], l.300-319. *)
    | Send_full =>
        match s_ingestion s with
        | Full h b rest =>
            match get Z.eqb h (s_memory s) with
            | None => Aborted
            | Some buffer =>
                Next (with_ingestion (Points b rest false)
                  (with_memory (remove Z.eqb h (s_memory s))
                    (with_uncompressed (s_uncompressed s ++ [Data (InMemory buffer)]) s)))
            end
        | _ => Blocked
        end
    (* The end of [insert_data_points], l.175-188. *)
    | Finish =>
        match s_ingestion s with
        | Points b [] _ =>
            let index := s_index s in
            let s := finish_buffers (fun u => is_unused u index) (fun u => is_unused u index) s in
            Next (with_ingestion Receiving
              (with_index (index + 1) (with_pool (add_ingested (b_size b) (s_pool s)) s)))
        | _ => Blocked
        end
    (* [process_compressor_messages], l.505-524, and the first lines of [compress_finished_buffer],
       l.530-561. *)
    | Compress =>
        match s_compressor s, s_uncompressed s with
        | Ready, Data (InMemory b) :: rest =>
            Next (with_compressor
              (Busy (memory_size (m_meta b)) (m_meta b) (m_tags b) (sort (m_points b)) (m_ids b))
              (with_uncompressed rest s))
        | Ready, Data (OnDisk d) :: rest =>
            match get path_eqb (d_path d) (s_files s) with
            | None => Next (with_compressor Compressor_failed (with_uncompressed rest s))
            | Some f =>
                Next (with_compressor (Busy 0 (d_meta d) (f_tags f) (f_points f) (d_ids d))
                  (with_files (remove path_eqb (d_path d) (s_files s)) (with_uncompressed rest s)))
            end
        | Ready, Flush :: rest =>
            Next (with_compressed (s_compressed s ++ [Flush]) (with_uncompressed rest s))
        | Ready, Stop :: rest =>
            Next (with_compressor Compressor_stopped
              (with_compressed (s_compressed s ++ [Stop]) (with_uncompressed rest s)))
        | _, _ => Blocked
        end
    (* The rest of [compress_finished_buffer], l.563-596. *)
    | Send_segments sizes =>
        match s_compressor s with
        | Busy memory m tags points ids =>
            if Nat.eqb (List.length sizes) (t_fields m) && forallb (Z.leb 0) sizes then
              Next (release_uncompressed memory (with_compressor Ready
                (with_compressed (s_compressed s ++ [Data {| g_meta := m; g_tags := tags;
                  g_points := points; g_sizes := sizes; g_ids := ids |}]) s)))
            else Blocked
        | _ => Blocked
        end
    (* [process_compressed_messages], compressed_data_manager.rs l.113-135, and
       [insert_compressed_segments], l.141-179. *)
    | Write =>
        match s_writer s, s_compressed s with
        | Waiting, Data g :: rest =>
            let table := t_name (g_meta g) in
            let s := with_writer (Working (Reserve (total (g_sizes g)))) (with_compressed rest s) in
            match get String.eqb table (s_buffers s) with
            | Some b => Next (with_buffers (put String.eqb table (append_segments g b) (s_buffers s)) s)
            | None =>
                Next (with_buffers
                  (put String.eqb table (append_segments g empty_buffer) (s_buffers s))
                  (with_queue (s_queue s ++ [table]) s))
            end
        | Waiting, Flush :: rest => Next (with_writer (Working Flush_all) (with_compressed rest s))
        | Waiting, Stop :: rest => Next (with_writer (Working Stop_all) (with_compressed rest s))
        | _, _ => Blocked
        end
    (* The loops of [insert_compressed_segments], l.181-186, with [try_reserve_compressed_memory],
       types.rs l.201-216, and [save_compressed_data_to_free_memory], l.194-205, and of [flush],
       l.222-234, up to the writing of a buffer. *)
    | Work =>
        match s_writer s with
        | Working (Reserve size) =>
            if size <=? compressed (s_pool s) then
              Next (with_writer Waiting (with_pool (add_compressed (- size) (s_pool s)) s))
            else
              match pop_buffer s with
              | Some (table, b, s) => Next (with_writer (Committing table b (Reserve size)) s)
              | None => Aborted
              end
        | Working t =>
            match s_queue s with
            | [] =>
                Next (with_writer (match t with Stop_all => Writer_stopped | _ => Waiting end)
                  (with_results (S (s_results s)) s))
            | _ =>
                match pop_buffer s with
                | Some (table, b, s) => Next (with_writer (Committing table b t) s)
                | None => Aborted
                end
            end
        | _ => Blocked
        end
    (* [save_compressed_data], l.240-291, if the buffer is written and if not. In the second case
       the buffer is gone, [insert_compressed_segments] ends the thread, and [flush_and_log_errors],
       l.209-218, lets it continue and report success. *)
    | Commit written =>
        match s_writer s with
        | Committing table b t =>
            if written then Next (with_writer (Working t) (save table b s))
            else
              match t with
              | Reserve _ => Next (with_writer Writer_failed s)
              | Flush_all => Next (with_writer Waiting (with_results (S (s_results s)) s))
              | Stop_all => Next (with_writer Writer_stopped (with_results (S (s_results s)) s))
              end
        | _ => Blocked
        end
    (* The process ends for any reason and is started again. *)
    | Crash => Next (start (s_limits s) (s_log s) (s_table s))
    (* Iterating over a [DashMap] visits its entries in any order. *)
    | Reorder_memory n => Next (with_memory (to_front n (s_memory s)) s)
    | Reorder_disk n => Next (with_disk (to_front n (s_disk s)) s)
    end.

  (** All steps of a run, from a state. *)
  Fixpoint run (events : list event) (s : state) : result :=
    match events with
    | [] => Next s
    | e :: events =>
        match step e s with
        | Next s => run events s
        | r => r
        end
    end.
End Pipeline.
