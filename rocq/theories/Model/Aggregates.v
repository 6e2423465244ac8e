(** Model of the accumulators in crates/modelardb_storage/src/optimizer/model_simple_aggregates.rs
    l.337-618: aggregates computed from segments. A batch is a list of rows; calling
    [update_batch] for several batches is the same as calling it once for all rows. *)
From Coq Require Import ZArith List.
From Verif Require Import Model.Base Model.Float Model.Timestamps Model.Segments.
Import ListNotations.
Open Scope Z_scope.

(** [f32::MAX] and [f32::MIN]. *)
Definition f32_max_value : f32 := from_bits 2139095039.
Definition f32_min_value : f32 := from_bits 4286578687.

(** [modelardb_compression::len] for a row. *)
Definition segment_len (s : segment) : outcome Z :=
  len (sg_start_time s) (sg_end_time s) (sg_timestamps s).

(** [ModelCountAccumulator], l.346-362, an i64 that wraps. *)
Fixpoint model_count (acc : Z) (segments : list segment) : outcome Z :=
  match segments with
  | [] => Ok acc
  | s :: segments => let? n := segment_len s in model_count (i64 (acc + n)) segments
  end.

(** [ModelMinAccumulator], l.398-407, and [ModelMaxAccumulator], l.443-452. The initial values are
    [f32::MAX] and [f32::MIN], l.413 and l.458. *)
Definition model_min (P : platform) (segments : list segment) : f32 :=
  fold_left (fun m s => f32_min P m (sg_min s)) segments f32_max_value.
Definition model_max (P : platform) (segments : list segment) : f32 :=
  fold_left (fun m s => f32_max P m (sg_max s)) segments f32_min_value.

(** [ModelSumAccumulator], l.488-522. *)
Fixpoint model_sum (P : platform) (acc : f64) (segments : list segment) : outcome f64 :=
  match segments with
  | [] => Ok acc
  | s :: segments =>
      let? x := segment_sum P s in model_sum P (f64_add acc (f64_of_f32 x)) segments
  end.

(** [ModelAvgAccumulator], l.562-600: count, a u64 that wraps, and sum. *)
Fixpoint model_avg (P : platform) (count : Z) (sum : f64) (segments : list segment)
  : outcome (Z * f64) :=
  match segments with
  | [] => Ok (count, sum)
  | s :: segments =>
      let? x := segment_sum P s in
      let? n := segment_len s in
      model_avg P (u64 (count + n)) (f64_add sum (f64_of_f32 x)) segments
  end.
