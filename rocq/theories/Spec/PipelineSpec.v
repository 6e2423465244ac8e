(** What the ingestion pipeline of Model/Pipeline.v should do, in terms of the data points it has
    received, holds and has committed. *)
From Coq Require Import ZArith List Bool String Permutation Sorted.
From Verif Require Import Model.Pipeline.
Import ListNotations.
Open Scope Z_scope.

(** A data point with the table and the tag values it belongs to. *)
Record item := { i_meta : metadata; i_tags : list string; i_point : point }.

Definition items (m : metadata) (tags : list string) (points : list point) : list item :=
  map (fun p => {| i_meta := m; i_tags := tags; i_point := p |}) points.

(** The data points of rows of a batch with an id. *)
Definition row_items (m : metadata) (id : option Z) (rows : list row) : list item :=
  map (fun r => {| i_meta := m; i_tags := r_tags r;
                   i_point := {| p_time := r_time r; p_values := r_values r; p_source := id |} |}) rows.
Definition batch_items (b : batch) : list item := row_items (b_meta b) (b_id b) (b_rows b).

(** All data points received since the first start. *)
Definition received (s : state) : list item := flat_map batch_items (s_log s).

(** All data points committed to the tables. *)
Definition segment_items (g : segments) : list item := items (g_meta g) (g_tags g) (g_points g).
Definition commit_items (k : commit) : list item := flat_map segment_items (k_segments k).
Definition saved (s : state) : list item := flat_map commit_items (s_table s).

(** All data points somewhere in the pipeline. *)
Definition data {A : Type} (f : A -> list item) (c : list (message A)) : list item :=
  flat_map (fun m => match m with Data a => f a | _ => [] end) c.
Definition memory_items (b : memory_buffer) : list item := items (m_meta b) (m_tags b) (m_points b).
Definition disk_items (files : list (path * file)) (d : disk_buffer) : list item :=
  match get path_eqb (d_path d) files with
  | Some f => items (d_meta d) (f_tags f) (f_points f)
  | None => []
  end.
Definition uncompressed_items (files : list (path * file)) (u : uncompressed_buffer) : list item :=
  match u with InMemory b => memory_items b | OnDisk d => disk_items files d end.
Definition buffer_items (b : compressed_buffer) : list item := flat_map segment_items (c_segments b).

Definition held_by_client (c : client) : list item :=
  match c with
  | Inserting b => batch_items b
  | Spilling _ b => memory_items b
  | Saving _ _ b => buffer_items b
  | Replaying l => flat_map batch_items l
  | _ => []
  end.
Definition held_by_ingestion (i : ingestion) : list item :=
  match i with
  | Points b rest _ => row_items (b_meta b) (b_id b) rest
  | Full _ b rest => row_items (b_meta b) (b_id b) rest
  | _ => []
  end.
Definition held_by_compressor (c : compressor) : list item :=
  match c with Busy _ m tags points _ => items m tags points | _ => [] end.
Definition held_by_writer (w : writer) : list item :=
  match w with Committing _ b _ => buffer_items b | _ => [] end.

Definition live (s : state) : list item :=
  held_by_client (s_client s)
  ++ data batch_items (s_ingested s)
  ++ held_by_ingestion (s_ingestion s)
  ++ flat_map (fun e => memory_items (snd e)) (s_memory s)
  ++ flat_map (fun e => disk_items (s_files s) (snd e)) (s_disk s)
  ++ data (uncompressed_items (s_files s)) (s_uncompressed s)
  ++ held_by_compressor (s_compressor s)
  ++ data segment_items (s_compressed s)
  ++ flat_map (fun e => buffer_items (snd e)) (s_buffers s)
  ++ held_by_writer (s_writer s).

(** Arrow's sorting of data points by timestamp: nothing is said about the order of data points with
    the same timestamp. *)
Definition earlier (p q : point) : Prop := p_time p <= p_time q.
Definition sorts_points (sort : list point -> list point) : Prop :=
  forall l, Permutation (sort l) l /\ StronglySorted earlier (sort l).

(** The tag values and the table name of a data point, one after the other. *)
Definition series_name (x : item) : string := fold_right String.append (t_name (i_meta x)) (i_tags x).

(** No two of the series of the data points have the same hash. *)
Definition collision_free (hash : string -> Z) (l : list item) : Prop :=
  forall x y, In x l -> In y l -> hash (series_name x) = hash (series_name y) ->
    i_meta x = i_meta y /\ i_tags x = i_tags y.

(** No two of the data points have the same series and timestamp. *)
Definition distinct_times (l : list item) : Prop :=
  NoDup (map (fun x => (i_meta x, i_tags x, p_time (i_point x))) l).

(** Something holds for all steps of a run. *)
Section Along.
  Variable hash : string -> Z.
  Variable capacity : nat.
  Variable sort : list point -> list point.
  Variable logging : bool.

  Fixpoint along (P : event -> state -> Prop) (events : list event) (s : state) : Prop :=
    match events with
    | [] => True
    | e :: events =>
        P e s /\ match step hash capacity sort logging e s with
                 | Next s => along P events s
                 | _ => True
                 end
    end.
End Along.

(** The steps of the threads. *)
Definition by_ingestion (e : event) : Prop :=
  match e with Receive | Point _ | Send_full | Finish => True | _ => False end.
Definition by_compressor (e : event) : Prop :=
  match e with Compress | Send_segments _ => True | _ => False end.
Definition by_writer (e : event) : Prop :=
  match e with Write | Work | Commit _ => True | _ => False end.

(** The thread whose buffers the client takes to bring memory use below a lowered limit is not
    running while it does so: the ingestion thread is not between filling a buffer and sending it
    when the limit of uncompressed memory is changed, the writer thread waits for a message when the
    limit of compressed memory is changed, and they do nothing until the change is complete. *)
Definition undisturbed (e : event) (s : state) : Prop :=
  (by_ingestion e -> match s_client s with Lowering _ | Spilling _ _ => False | _ => True end)
  /\ (by_writer e -> match s_client s with Freeing _ | Saving _ _ _ => False | _ => True end)
  /\ match e with
     | Adjust_uncompressed _ => match s_ingestion s with Full _ _ _ => False | _ => True end
     | Adjust_compressed _ => s_writer s = Waiting
     | _ => True
     end.

(** Files of spilled buffers and commits can always be written. *)
Definition spills_written (e : event) : Prop := e <> Point false.
Definition commits_written (e : event) : Prop := e <> Commit false.

(** Nothing prevents a step. *)
Definition usual (e : event) (s : state) : Prop := undisturbed e s /\ spills_written e /\ commits_written e.

(** All threads are running or were stopped. *)
Definition healthy (s : state) : Prop :=
  s_ingestion s <> Failed /\ s_compressor s <> Compressor_failed /\ s_writer s <> Writer_failed.

(** * Memory *)

(** The sizes of everything a message, or a list, holds. *)
Definition total_of {A : Type} (f : A -> Z) (l : list A) : Z := fold_right (fun a n => f a + n) 0 l.
Definition in_data {A : Type} (f : A -> Z) (m : message A) : Z :=
  match m with Data a => f a | _ => 0 end.

(** The batches received but not yet inserted into buffers. *)
Definition used_ingested (s : state) : Z :=
  total_of (in_data b_size) (s_ingested s)
  + match s_ingestion s with Points b _ _ | Full _ b _ => b_size b | _ => 0 end.

(** The buffers in memory: collecting data points, being spilled, waiting to be compressed, and being
    compressed. *)
Definition used_uncompressed (capacity : nat) (s : state) : Z :=
  let size b := memory_size capacity (m_meta b) in
  total_of (fun e => size (snd e)) (s_memory s)
  + match s_client s with Spilling _ b => size b | _ => 0 end
  + total_of (in_data (fun u => match u with InMemory b => size b | OnDisk _ => 0 end)) (s_uncompressed s)
  + match s_compressor s with Busy memory _ _ _ _ => memory | _ => 0 end.

(** The compressed segments: collected for each table and being saved. *)
Definition segments_size (l : list segments) : Z := total_of (fun g => total (g_sizes g)) l.
Definition used_compressed (s : state) : Z :=
  total_of (fun e => segments_size (c_segments (snd e))) (s_buffers s)
  + match s_client s with Saving _ _ b => segments_size (c_segments b) | _ => 0 end
  + match s_writer s with Committing _ b _ => segments_size (c_segments b) | _ => 0 end.

(** The memory the writer is about to reserve for segments it has already put into a buffer. *)
Definition being_reserved (w : writer) : Z :=
  match w with Working (Reserve size) | Committing _ _ (Reserve size) => size | _ => 0 end.

(** The parts of a change of a limit that is not complete. *)
Definition uncompressed_change (c : client) : Z :=
  match c with Lowering change | Spilling change _ => change | _ => 0 end.
Definition compressed_change (c : client) : Z :=
  match c with Freeing change | Saving change _ _ => change | _ => 0 end.

(** When a data point is the first one for a buffer and the memory for the buffer is not available,
    the thread can wait for a buffer being compressed instead of spilling one. *)
Definition fits (hash : string -> Z) (capacity : nat) (e : event) (s : state) : Prop :=
  match e, s_ingestion s with
  | Point _, Points b (r :: _) false =>
      In (tag_hash hash (t_name (b_meta b)) (r_tags r)) (map fst (s_memory s))
      \/ memory_size capacity (b_meta b) <= uncompressed (s_pool s)
      \/ s_uncompressed s <> []
  | _, _ => True
  end.

(** All tables have one field column. *)
Definition single_field (e : event) : Prop :=
  match e with Send_segments sizes => List.length sizes = 1%nat | _ => True end.

(** There is memory for any two buffers. *)
Definition room (capacity : nat) (l : list item) (limit : Z) : Prop :=
  forall x y, In x l -> In y l -> memory_size capacity (i_meta x) + memory_size capacity (i_meta y) <= limit.

Definition roomy (capacity : nat) (s : state) : Prop :=
  room capacity (received s) (uncompressed (s_limits s)).

(** The limits of a configuration are not negative. *)
Definition nonneg_limits (limits : pool) : Prop :=
  0 <= ingested limits /\ 0 <= uncompressed limits /\ 0 <= compressed limits.

(** * Waiting *)

(** The steps of the threads, not the ones of clients. *)
Definition by_threads (e : event) : Prop := by_ingestion e \/ by_compressor e \/ by_writer e.

(** One of the threads can do something. *)
Definition acts (hash : string -> Z) (capacity : nat) (sort : list point -> list point) (logging : bool)
    (s : state) : Prop :=
  exists e s', by_threads e /\ spills_written e /\ commits_written e
    /\ step hash capacity sort logging e s = Next s'.

(** The steps that go on during the change of a limit. *)
Definition meanwhile (e : event) : Prop :=
  by_threads e \/ match e with Adjust | Reorder_memory _ | Reorder_disk _ => True | _ => False end.

(** * Spilling *)

(** What happens to a buffer: it is spilled and read again, when a batch with an index is inserted, or
    a data point is added to it. *)
Inductive use :=
| Spilled (index : Z)
| Added (index : Z) (r : row) (id : option Z).

Definition with_spills (sort : list point -> list point) (uses : list use) (b : memory_buffer) : memory_buffer :=
  fold_left (fun b u =>
    match u with
    | Spilled index => loaded index (spilled sort b) (spilled_file sort b)
    | Added index r id => add_point index r id b
    end) uses b.
Definition without_spills (uses : list use) (b : memory_buffer) : memory_buffer :=
  fold_left (fun b u => match u with Spilled _ => b | Added index r id => add_point index r id b end) uses b.

(** The buffers that were spilled and are waiting to be compressed. *)
Definition on_disk (c : list (message uncompressed_buffer)) : list disk_buffer :=
  flat_map (fun m => match m with Data (OnDisk d) => [d] | _ => [] end) c.
