(** From buffers of data points to the data points of a query: what connects Model/Pipeline.v,
    Model/Segments.v, Model/DataSource.v and Model/Scan.v.

    Model/Pipeline.v represents compressed segments by the data points they were made from. As
    compression has no side effects, it is done here for the data points that were committed. *)
From Coq Require Import ZArith Bool String List.
From Verif Require Import Model.Base Model.Float Model.ErrorBound Model.Segments Model.Table
  Model.Streams.
From Verif Require Model.Pipeline.
Import ListNotations.
Open Scope nat_scope.
Open Scope list_scope.

(** A row of the batch of segments that [finish], crates/modelardb_compression/src/types.rs
    l.492-515, returns: a segment and the tag values of its time series. *)
Record stored_segment := Stored { st_tags : list string; st_segment : segment }.

(** The closure in [compress_finished_buffer],
    crates/modelardb_server/src/storage/uncompressed_data_manager.rs l.566-583, for the field in
    column [column], which is number [position] of the fields of the buffer (l.563-566). A call of
    [expect] fails if there is no such bound or if compression fails. *)
Definition compress_field (P : platform) (m : metadata) (position column : nat)
  (g : Pipeline.segments) : outcome (list stored_segment) :=
  match nth_error (error_bounds m) column with
  | None => Panic
  | Some eb =>
      match compress_univariate P eb (map Pipeline.p_time (Pipeline.g_points g))
              (map (fun p => from_bits (nth position (Pipeline.p_values p) 0%Z))
                 (Pipeline.g_points g)) with
      | Ok segments => Ok (map (Stored (Pipeline.g_tags g)) segments)
      | _ => Panic
      end
  end.

(** The buffers committed to a table, in the order of the commits:
    [write_record_batches_with_batch_ids], called in [save_compressed_data],
    crates/modelardb_server/src/storage/compressed_data_manager.rs l.248-263. *)
Definition committed_to (name : string) (s : Pipeline.state) : list Pipeline.segments :=
  flat_map (fun k => if String.eqb (Pipeline.k_table k) name then Pipeline.k_segments k else [])
    (Pipeline.s_table s).

(** The segments of a field of a table in that order, [write_all],
    crates/modelardb_storage/src/data_folder/delta_table_writer.rs l.157-163. *)
Fixpoint all_segments (P : platform) (m : metadata) (position column : nat)
  (l : list Pipeline.segments) : outcome (list stored_segment) :=
  match l with
  | [] => Ok []
  | g :: l =>
      let? segments := compress_field P m position column g in
      let? others := all_segments P m position column l in
      Ok (segments ++ others)
  end.

(** The loop of [grid_and_append_to_leftovers_in_current_batch],
    crates/modelardb_storage/src/query/grid_exec.rs l.323-345, for one segment. Simplified: nothing is
    returned for a segment that cannot be decompressed, for which the code panics. *)
Definition grid_stored (P : platform) (x : stored_segment) : list point :=
  match grid P (st_segment x) with
  | Ok (ts, vs) => map (fun p => Point (fst p) (to_bits (snd p)) (st_tags x)) (combine ts vs)
  | _ => []
  end.
