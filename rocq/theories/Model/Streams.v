(** Model of the operators that reconstruct and join data points:
    crates/modelardb_storage/src/query/grid_exec.rs and sorted_join_exec.rs. *)
From Coq Require Import ZArith Bool String List.
From Verif Require Import Model.Base.
Import ListNotations.
Open Scope nat_scope.
Open Scope list_scope.

(** [Poll<Option<DataFusionResult<RecordBatch>>>]: pending, a batch, an error (with a number that
    identifies it) or the end of the stream. *)
Inductive poll (B : Type) :=
| Pending
| Batch (b : B)
| Failed (error : nat)
| Finished.
Arguments Pending {B}.
Arguments Batch {B} b.
Arguments Failed {B} error.
Arguments Finished {B}.

(** A [SendableRecordBatchStream] that is polled from: what it returns for each poll, and then
    that it is finished. When batches are ready is thus arbitrary. *)
Definition stream (B : Type) := list (poll B).

Definition poll_stream {B} (s : stream B) : poll B * stream B :=
  match s with
  | [] => (Finished, [])
  | p :: s => (p, s)
  end.

(** grid_exec.rs. Segments and data points are of any type; [grid] reconstructs the data points of
    a segment with their tags, [modelardb_compression::grid] and l.318-330, see Model/Segments.v.
    [predicate] is the predicate of [GridExec]. Simplified: evaluating the predicate never fails
    (l.357-368 panic otherwise), and a predicate that is NULL is false as in [filter_record_batch]. *)
Section Grid.
  Context {S P : Type}.
  Variable grid : S -> list P.
  Variable predicate : option (P -> bool).

  (** [GridStream], l.210-227, without its schema and metrics. *)
  Record grid_stream := GridStream {
    input : stream (list S);
    batch_size : nat;
    current_batch : list P;
    current_batch_offset : nat
  }.

  (** [GridStream::new], l.230-259. *)
  Definition grid_stream_new (limit : option nat) (input : stream (list S)) (batch_size : nat)
    : grid_stream :=
    GridStream input
      (match limit with Some limit => Nat.min limit batch_size | None => batch_size end) [] 0.

  (** [grid_and_append_to_leftovers_in_current_batch], l.263-379. *)
  Definition grid_and_append (s : grid_stream) (batch : list S) : grid_stream :=
    let current := skipn (current_batch_offset s) (current_batch s) ++ flat_map grid batch in
    GridStream (input s) (batch_size s)
      (match predicate with Some predicate => filter predicate current | None => current end) 0.

  (** The end of [poll_next], l.422-430. *)
  Definition return_batch (s : grid_stream) : poll (list P) * grid_stream :=
    let remaining := length (current_batch s) - current_batch_offset s in
    let length := Nat.min (batch_size s) remaining in
    let batch := firstn length (skipn (current_batch_offset s) (current_batch s)) in
    (Batch batch,
     GridStream (input s) (batch_size s) (current_batch s)
       (current_batch_offset s + List.length batch)).

  (** [GridStream::poll_next], l.401-431. *)
  Definition grid_poll (s : grid_stream) : poll (list P) * grid_stream :=
    if (length (current_batch s) - current_batch_offset s) <? batch_size s then
      let (p, rest) := poll_stream (input s) in
      let s := GridStream rest (batch_size s) (current_batch s) (current_batch_offset s) in
      match p with
      | Batch batch => return_batch (grid_and_append s batch)
      | Finished =>
          if current_batch_offset s <? length (current_batch s) then return_batch s
          else (Finished, s)
      | Pending => (Pending, s)
      | Failed e => (Failed e, s)
      end
    else return_batch s.
End Grid.
Arguments grid_stream : clear implicits.

(** The columns of a data point that [GridExec] returns: timestamp, value (its bits) and tags. *)
Record point := Point { p_time : Z; p_value : Z; p_tags : list string }.

(** [SortedJoinColumnType], sorted_join_exec.rs l.48-52. *)
Inductive column_type := Timestamp | Field | Tag (name : string).

(** Values in the result. *)
Inductive cell := Time_cell (t : Z) | Value_cell (v : Z) | Tag_cell (s : string).

(** The position of a tag column, [RecordBatch::column_by_name] after the timestamp and value. *)
Fixpoint position (name : string) (names : list string) : option nat :=
  match names with
  | [] => None
  | n :: names => if String.eqb n name then Some 0
                  else option_map S (position name names)
  end.

(** sorted_join_exec.rs. The inputs are streams in any state [I] that are polled by [poll_input]. *)
Section Join.
  Context {I : Type}.
  Variable poll_input : I -> poll (list point) * I.
  (** [return_order] and the names of the tags in the schema of the inputs. *)
  Variable return_order : list column_type.
  Variable tag_names : list string.

  (** [SortedJoinStream], l.197-208, and [new], l.211-228. *)
  Record join_stream := JoinStream {
    inputs : list I;
    batches : list (option (list point))
  }.
  Definition join_stream_new (inputs : list I) : join_stream :=
    JoinStream inputs (repeat None (length inputs)).

  (** [poll_all_pending_inputs], l.232-248. The reason is that of the last input that returned no
      batch. *)
  Fixpoint poll_all (inputs : list I) (batches : list (option (list point)))
    : list I * list (option (list point)) * option (poll (list point)) :=
    match inputs, batches with
    | i :: inputs, batch :: batches =>
        let '(i, batch, reason) :=
          match batch with
          | Some b => (i, Some b, None)
          | None =>
              match poll_input i with
              | (Batch b, i) => (i, Some b, None)
              | (p, i) => (i, None, Some p)
              end
          end in
        let '(inputs, batches, later_reason) := poll_all inputs batches in
        (i :: inputs, batch :: batches,
         match later_reason with Some r => Some r | None => reason end)
    | _, _ => (inputs, batches, None)
    end.

  (** [batch.as_ref().expect(EXPECT_INPUT_READ)] for all batches. *)
  Fixpoint all_read (batches : list (option (list point))) : option (list (list point)) :=
    match batches with
    | [] => Some []
    | Some b :: batches => option_map (cons b) (all_read batches)
    | None :: _ => None
    end.

  (** [set_batch_num_rows_to_smallest], l.253-275. *)
  Definition set_to_smallest (batches : list (list point)) : list (list point) :=
    match batches with
    | [] => []
    | first :: _ =>
        let all_same := forallb (fun b => length b =? length first) batches in
        let smallest := fold_right (fun b n => Nat.min (length b) n) (length first) batches in
        if all_same then batches else map (firstn smallest) batches
    end.

  (** [sorted_join], l.278-313: the columns in the return order. A missing batch or tag is a panic,
      l.281, l.290 and l.300, and so is a batch without columns, l.306-307, since
      [RecordBatch::try_new] cannot determine its number of rows. A tag is found by name in the
      schema of the inputs, whose first columns are called timestamp and value,
      modelardb_types/src/schemas.rs l.65-80: a tag with one of these names gets a column with
      another type, a panic of l.306-307. *)
  Fixpoint join_columns (order : list column_type) (first : list point)
      (field_batches : list (list point)) : outcome (list (list cell)) :=
    match order with
    | [] => Ok []
    | Timestamp :: order =>
        let? columns := join_columns order first field_batches in
        Ok (map (fun p => Time_cell (p_time p)) first :: columns)
    | Field :: order =>
        match field_batches with
        | [] => Panic
        | batch :: field_batches =>
            let? columns := join_columns order first field_batches in
            Ok (map (fun p => Value_cell (p_value p)) batch :: columns)
        end
    | Tag name :: order =>
        match position name tag_names with
        | None => Panic
        | Some index =>
            if String.eqb name "timestamp" || String.eqb name "value" then Panic else
            let? columns := join_columns order first field_batches in
            Ok (map (fun p => Tag_cell (nth index (p_tags p) EmptyString)) first :: columns)
        end
    end.

  Definition sorted_join (batches : list (list point)) : outcome (list (list cell)) :=
    match batches with
    | [] => Panic
    | first :: _ =>
        match return_order with
        | [] => Panic
        | _ => join_columns return_order first batches
        end
    end.

  (** [poll_next], l.320-336. *)
  Definition join_poll (s : join_stream) : outcome (poll (list (list cell)) * join_stream) :=
    let '(inputs, batches, reason) := poll_all (inputs s) (batches s) in
    match reason with
    | Some Pending => Ok (Pending, JoinStream inputs batches)
    | Some (Failed e) => Ok (Failed e, JoinStream inputs batches)
    | Some _ => Ok (Finished, JoinStream inputs batches)
    | None =>
        match all_read batches with
        | None => Panic
        | Some read =>
            let? columns := sorted_join (set_to_smallest read) in
            Ok (Batch columns, JoinStream inputs (repeat None (length batches)))
        end
    end.
End Join.
Arguments join_stream : clear implicits.

(** Polling a stream [n] times as a consumer does: it stops at the end of the stream or at an error,
    [poll_next] being called again after a pending poll. Returns the batches, the error if there is
    one, and whether the end was reached. *)
Section Consume.
  Context {I B : Type}.
  Variable poll_next : I -> outcome (poll B * I).

  Inductive ended := Running | Done | Error (e : nat).

  Fixpoint consume (n : nat) (s : I) : outcome (list B * ended) :=
    match n with
    | O => Ok ([], Running)
    | S n =>
        let? (p, s) := poll_next s in
        match p with
        | Pending => consume n s
        | Batch b => let? (bs, e) := consume n s in Ok (b :: bs, e)
        | Failed e => Ok ([], Error e)
        | Finished => Ok ([], Done)
        end
    end.
End Consume.

(** The polling of [GridStream] as a consumer sees it. *)
Definition grid_next {S P : Type} (grid : S -> list P) (predicate : option (P -> bool))
  (s : grid_stream S P) : outcome (poll (list P) * grid_stream S P) :=
  Ok (grid_poll grid predicate s).
